(** Python text functions used by the definition language: stripping, splitting,
    [int], decimal formatting, the small regular expressions of base.py and
    parser.py. *)
From Verif Require Import Py.

(** [str.isspace] / the regular expression class \s. *)
Definition is_space (c : Z) : bool :=
  ((9 <=? c) && (c <=? 13)) || ((28 <=? c) && (c <=? 32)) || (c =? 0x85) || (c =? 0xA0)
  || (c =? 0x1680) || ((0x2000 <=? c) && (c <=? 0x200A)) || (c =? 0x2028) || (c =? 0x2029)
  || (c =? 0x202F) || (c =? 0x205F) || (c =? 0x3000).

Fixpoint drop_while (p : Z -> bool) (s : str) : str :=
  match s with [] => [] | c :: r => if p c then drop_while p r else s end.
Fixpoint take_while (p : Z -> bool) (s : str) : str :=
  match s with [] => [] | c :: r => if p c then c :: take_while p r else [] end.

(** [s.lstrip()] and [s.rstrip(chars)] *)
Definition lstrip (s : str) : str := drop_while is_space s.
Definition rstrip (p : Z -> bool) (s : str) : str := rev (drop_while p (rev s)).

(** [s.split(c)] for a single character *)
Fixpoint split_on (c : Z) (s : str) : list str :=
  match s with
  | [] => [[]]
  | x :: r =>
    if x =? c then [] :: split_on c r
    else match split_on c r with [] => [[x]] | f :: l => (x :: f) :: l end
  end.

(** [sep.join(l)] *)
Fixpoint join (sep : str) (l : list str) : str :=
  match l with
  | [] => []
  | [x] => x
  | x :: r => x ++ sep ++ join sep r
  end.

Definition is_digit (c : Z) : bool := (48 <=? c) && (c <=? 57).

(** [int(s)]: white space around, a sign, decimal digits with single underscores
    between them.  Simplification: digits and white space outside ASCII are not
    converted (they are a ValueError here). *)
Definition int_space (c : Z) : bool := ((9 <=? c) && (c <=? 13)) || (c =? 32).

Fixpoint int_digits (acc : Z) (after_digit : bool) (s : str) : res Z :=
  match s with
  | [] => if after_digit then Ok acc else Err ValueError
  | c :: r =>
    if is_digit c then int_digits (10 * acc + (c - 48)) true r
    else if (c =? 95) && after_digit then int_digits acc false r
    else Err ValueError
  end.
Definition py_int (s : str) : res Z :=
  match rstrip int_space (drop_while int_space s) with
  | 45 :: r => do v <- int_digits 0 false r; Ok (- v)
  | 43 :: r => int_digits 0 false r
  | r => int_digits 0 false r
  end.

(** ['{:d}'.format(z)], ['%d' % z] *)
Fixpoint digits_loop (fuel : nat) (n : Z) (acc : str) : str :=
  match fuel with
  | O => acc
  | S k => if n <? 10 then (48 + n) :: acc else digits_loop k (n / 10) ((48 + n mod 10) :: acc)
  end.
Definition dec_nat (n : Z) : str := digits_loop (S (Z.to_nat (Z.log2 n))) n [].
Definition dec_str (z : Z) : str := if z <? 0 then 45 :: dec_nat (- z) else dec_nat z.

(** ['%s' % x] for a text or None *)
Definition opt_text (o : option str) : str :=
  match o with Some s => s | None => lit "None" end.

(** base.py 34-45 [match_pair].  [count] is the nesting depth after the first
    character; None: no closing character. *)
Fixpoint pair_loop (left right count : Z) (acc s : str) : option (str * str) :=
  match s with
  | [] => None
  | c :: r =>
    if c =? right then
      if count - 1 =? 0 then Some (rev acc, r)
      else pair_loop left right (count - 1) (c :: acc) r
    else if c =? left then pair_loop left right (count + 1) (c :: acc) r
    else pair_loop left right count (c :: acc) r
  end.
Definition match_pair (s : str) (left right : Z) : option str * str :=
  match s with
  | [] => (None, [])
  | c :: r =>
    if c =? left then
      match pair_loop left right 1 [] r with
      | Some (inner, rest) => (Some inner, rest)
      | None => (None, [])
      end
    else (None, s)
  end.

(** base.py 47-48 [parse_str] *)
Definition QUOTE : Z := 34.
Definition parse_str (s : str) : option str * str := match_pair s QUOTE QUOTE.

(** [re.split(r'\s*,\s*', s)]: fields between commas without the white space next
    to the commas. *)
Definition COMMA : Z := 44.
Definition re_split_comma (s : str) : list str :=
  match split_on COMMA s with
  | [] => []
  | [x] => [x]
  | x :: r =>
    (fix go (l : list str) (cur : str) : list str :=
       match l with
       | [] => [cur]
       | y :: l' => rstrip is_space cur :: go l' (lstrip y)
       end) r x
  end.
