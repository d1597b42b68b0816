(** Port and type attributes: model of PortAttribute, TypeAttribute, InitValue and
    createInitData in /repo/apx/base.py. *)
From Verif Require Import Py TypesModel TextModel.

(** base.py 686-708 [InitValue]; [IVNone] is Python's None. *)
Inductive ivalue := IVNone | IVInt (z : Z) | IVStr (s : str) | IVList (l : list ivalue).

Definition is_hex (c : Z) : bool :=
  is_digit c || ((65 <=? c) && (c <=? 70)) || ((97 <=? c) && (c <=? 102)).
Definition hex_val (c : Z) : Z :=
  if is_digit c then c - 48 else if c <=? 70 then c - 55 else c - 87.
Definition num_of (base : Z) (val : Z -> Z) (s : str) : Z :=
  fold_left (fun acc c => base * acc + val c) s 0.

(** base.py 715 the expression _p2, matched at the start of the text: a hexadecimal
    number, a decimal number or a quoted text.  Simplification: \d is ASCII only. *)
Definition match_literal (s : str) : option (ivalue * str) :=
  let dec (s : str) :=
    let '(neg, r) := match s with 45 :: r => (true, r) | _ => (false, s) end in
    match take_while is_digit r with
    | [] => None
    | ds => let v := num_of 10 (fun c => c - 48) ds in
            Some (IVInt (if neg then - v else v), drop_while is_digit r)
    end in
  match s with
  | 48 :: 120 :: r =>
    match take_while is_hex r with
    | [] => dec s
    | ds => Some (IVInt (num_of 16 hex_val ds), drop_while is_hex r)
    end
  | 34 :: r =>
    let body := take_while (fun c => negb (c =? QUOTE)) r in
    match drop_while (fun c => negb (c =? QUOTE)) r with
    | 34 :: rest => Some (IVStr body, rest)
    | _ => None
    end
  | _ => dec s
  end.

(** base.py 750-777 [_parseInitValue].  Every turn of the list loop and every call
    consumes a character or ends, so [fuel] is chosen from the length. *)
Fixpoint parse_init (fuel : nat) (remain : str) : res (ivalue * str) :=
  match fuel with
  | O => Err RecursionError
  | S k =>
    let remain := lstrip remain in
    match remain with
    | 123 :: _ =>
      match match_pair remain 123 125 with
      | (None, _) => Err TypeError
      | (Some inner, remain2) =>
        do r <- parse_init_list k inner;
        match r with
        | Some l => Ok (IVList l, remain2)
        | None => Ok (IVNone, remain)
        end
      end
    | _ =>
      match match_literal remain with
      | Some (v, rest) => Ok (v, rest)
      | None => Ok (IVNone, remain)
      end
    end
  end
(* the while loop 755-766: None if it ends without [return] *)
with parse_init_list (fuel : nat) (m : str) : res (option (list ivalue)) :=
  match fuel with
  | O => Err RecursionError
  | S k =>
    match m with
    | [] => Ok None
    | _ :: _ =>
      do '(elem, m) <- parse_init k (lstrip m);
      match lstrip m with
      | 44 :: m' =>
        do r <- parse_init_list k (lstrip m');
        Ok (match r with Some l => Some (elem :: l) | None => None end)
      | [] => Ok (Some [elem])
      | _ => Err ParseError
      end
    end
  end.

(** base.py 711-748 [PortAttribute].  [queueLength] is a text in the code too. *)
Record pattr := mk_pattr {
  pa_queued : bool;
  pa_param : bool;
  pa_qlen : option str;
  pa_init : ivalue;
  pa_str : str
}.

(** base.py 716 the expression _p3. *)
Definition match_qlen (s : str) : option str :=
  match s with
  | 91 :: r =>
    match take_while is_digit r, drop_while is_digit r with
    | (_ :: _) as ds, 93 :: _ => Some ds
    | _, _ => None
    end
  | _ => None
  end.

(** base.py 727-745; text behind Q is not looked at. *)
Fixpoint attr_loop (fuel : nat) (remain : str) (a : pattr) : res pattr :=
  match fuel with
  | O => Err RecursionError
  | S k =>
    match remain with
    | [] => Ok a
    | _ :: _ =>
      match lstrip remain with
      | 61 :: r =>
        do '(v, rest) <- parse_init (2 * length r + 2) r;
        attr_loop k rest (mk_pattr (pa_queued a) (pa_param a) (pa_qlen a) v (pa_str a))
      | 81 :: r =>
        Ok (mk_pattr true (pa_param a)
              (match match_qlen r with Some q => Some q | None => pa_qlen a end)
              (pa_init a) (pa_str a))
      | 80 :: r =>
        attr_loop k r (mk_pattr (pa_queued a) true (pa_qlen a) (pa_init a) (pa_str a))
      | _ => Err ParseError
      end
    end
  end.
Definition parse_port_attr (text : str) : res pattr :=
  attr_loop (S (length text)) text (mk_pattr false false None IVNone text).

(** base.py 779-801 [TypeAttribute.__init__]: the value table. *)
Fixpoint type_attr_loop (fuel : nat) (remain : str) (vt : option (list (option str)))
    : res (option (list (option str))) :=
  match fuel with
  | O => Err RecursionError
  | S k =>
    match remain with
    | [] => Ok vt
    | 86 :: 84 :: 40 :: r =>
      match match_pair (40 :: r) 40 41 with
      | (None, _) => Err ParseError
      | (Some result, rest) =>
        type_attr_loop k rest (Some (map (fun s => fst (parse_str s)) (split_on COMMA result)))
      end
    | _ => Err ParseError
    end
  end.
Definition parse_type_attr (text : str) : res (option (list (option str))) :=
  type_attr_loop (S (length text)) text None.

(** base.py 664-677: the bytes of a number, least significant first, each masked. *)
Definition int_bytes (c : tcode) (v : Z) : res bytes :=
  match c with
  | CU8 | CS8 => Ok [Z.land v 255]
  | CU16 | CS16 => Ok [Z.land v 255; Z.land (Z.shiftr v 8) 255]
  | CU32 | CS32 => Ok [Z.land v 255; Z.land (Z.shiftr v 8) 255;
                       Z.land (Z.shiftr v 16) 255; Z.land (Z.shiftr v 24) 255]
  | _ => Err NotImplementedError
  end.

(** base.py 661-677 with [is_array_elem] or no array. *)
Definition init_scalar (c : tcode) (v : ivalue) : res bytes :=
  match v with
  | IVNone => Err AttributeError
  | IVList _ => Err ValueError
  | IVInt z => int_bytes c z
  | IVStr s => do z <- py_int s; int_bytes c z
  end.

(** base.py 645-654; [data.append] refuses characters above 255. *)
Fixpoint init_chars (n : nat) (s : str) : res bytes :=
  match n with
  | O => Ok []
  | S k =>
    match s with
    | [] => do r <- init_chars k []; Ok (0 :: r)
    | c :: s' => if byte_okb c then do r <- init_chars k s'; Ok (c :: r) else Err ValueError
    end
  end.

Fixpoint concat_res {A} (f : A -> res bytes) (l : list A) : res bytes :=
  match l with [] => Ok [] | x :: r => do a <- f x; do b <- concat_res f r; Ok (a ++ b) end.

(** base.py 635-684 [_createInitDataInner] with [is_array_elem] False; [fuel] is the
    recursion limit. *)
Fixpoint init_inner (fuel : nat) (H : theap) (e : delem) (v : ivalue) : res bytes :=
  match fuel with
  | O => Err RecursionError
  | S k =>
    match e with
    | DRec _ es =>
      match v with
      | IVNone => Err AttributeError
      | IVList l =>
        if negb (len l =? len es) then Err ValueError
        else concat_res (fun p => init_inner k H (fst p) (snd p)) (combine es l)
      | _ => Err ValueError
      end
    | DPrim _ CSTR _ _ a =>
      match v with
      | IVNone => Err AttributeError
      | IVStr s => match a with Some n => init_chars (Z.to_nat n) s | None => Err TypeError end
      | _ => Err ValueError
      end
    | DPrim _ CU64 _ _ _ | DPrim _ CS64 _ _ _ => Err NotImplementedError
    | DPrim _ c _ _ (Some _) =>
      match v with
      | IVNone => Err AttributeError
      | IVList l => concat_res (init_scalar c) l
      | _ => Err ValueError
      end
    | DPrim _ c _ _ None => init_scalar c v
    | DRef _ (RObj o) => init_inner k H (dt_elem (H o)) v
    | DRef _ _ => Err AssertionError
    end
  end.

(** base.py 622-633 [createInitData]: the message for a wrong member count uses an
    attribute that does not exist. *)
Definition createInitData (fuel : nat) (H : theap) (e : delem) (v : ivalue) : res bytes :=
  match e with
  | DRec _ es =>
    match v with
    | IVNone => Err AttributeError
    | IVList l =>
      if negb (len l =? len es) then Err AttributeError
      else concat_res (fun p => init_inner fuel H (fst p) (snd p)) (combine es l)
    | _ => Err ValueError
    end
  | _ => init_inner fuel H e v
  end.
