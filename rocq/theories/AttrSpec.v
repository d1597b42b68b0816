(** The notation of init values and port attributes, as a grammar. *)
From Verif Require Import Py TextModel AttrModel.

(** Digits and their values, most significant first. *)
Inductive hex_digit : Z -> Z -> Prop :=
| hd_dec c : 48 <= c <= 57 -> hex_digit c (c - 48)
| hd_upper c : 65 <= c <= 70 -> hex_digit c (10 + (c - 65))
| hd_lower c : 97 <= c <= 102 -> hex_digit c (10 + (c - 97)).
Inductive dec_digit : Z -> Z -> Prop :=
| dd c : 48 <= c <= 57 -> dec_digit c (c - 48).

Inductive numeral (digit : Z -> Z -> Prop) (base : Z) : str -> Z -> Prop :=
| nu_one c d : digit c d -> numeral digit base [c] d
| nu_more s v c d : numeral digit base s v -> digit c d -> numeral digit base (s ++ [c]) (base * v + d).

(** Braces that pair up. *)
Inductive braced : str -> Prop :=
| br_nil : braced []
| br_char c s : c <> 123 -> c <> 125 -> braced s -> braced (c :: s)
| br_pair a b : braced a -> braced b -> braced (123 :: a ++ 125 :: b).

Definition white (w : str) : Prop := Forall (fun c => In c [9; 10; 11; 12; 13; 28; 29; 30; 31; 32]) w.

(** [spells v t]: the text [t] stands for [v]. *)
Inductive spells : ivalue -> str -> Prop :=
| sp_dec s v : numeral dec_digit 10 s v -> spells (IVInt v) s
| sp_neg s v : numeral dec_digit 10 s v -> spells (IVInt (- v)) (45 :: s)
| sp_hex s v : numeral hex_digit 16 s v -> spells (IVInt v) (48 :: 120 :: s)
| sp_str s : ~ In QUOTE s -> spells (IVStr s) (QUOTE :: s ++ [QUOTE])
| sp_list l t : items l t -> braced t -> spells (IVList l) (123 :: t ++ [125])
with items : list ivalue -> str -> Prop :=
| it_one v t w1 w2 : white w1 -> spells v t -> white w2 -> items [v] (w1 ++ t ++ w2)
| it_more v t w1 w2 l u : white w1 -> spells v t -> white w2 -> items l u ->
    items (v :: l) (w1 ++ t ++ w2 ++ COMMA :: u).

Scheme spells_mind := Induction for spells Sort Prop
  with items_mind := Induction for items Sort Prop.
Combined Scheme spells_items_ind from spells_mind, items_mind.

(** Port attributes: init values and P marks, then perhaps a queue. *)
Inductive marks : ivalue -> bool -> str -> ivalue -> bool -> Prop :=
| mk_done i p : marks i p [] i p
| mk_init w1 w2 v t rest i p i' p' : white w1 -> white w2 -> spells v t -> marks v p rest i' p' ->
    marks i p (w1 ++ 61 :: w2 ++ t ++ rest) i' p'
| mk_param w rest i p i' p' : white w -> marks i true rest i' p' ->
    marks i p (w ++ 80 :: rest) i' p'.
Inductive queue : str -> bool -> option str -> Prop :=
| qu_none : queue [] false None
| qu_plain w : white w -> queue (w ++ [81]) true None
| qu_sized w ds v : white w -> numeral dec_digit 10 ds v -> queue (w ++ 81 :: 91 :: ds ++ [93]) true (Some ds).

(** A plain notation for a value: decimal numbers and no white space. *)
Fixpoint init_text (v : ivalue) : str :=
  match v with
  | IVNone => []
  | IVInt z => dec_str z
  | IVStr s => QUOTE :: s ++ [QUOTE]
  | IVList l => 123 :: join [COMMA] (map init_text l) ++ [125]
  end.

(** The values it can write: no quotes in texts, no unpaired braces in texts inside
    lists, no empty lists. *)
Fixpoint writable (inside : bool) (v : ivalue) : Prop :=
  match v with
  | IVNone => False
  | IVInt _ => True
  | IVStr s => ~ In QUOTE s /\ (inside = true -> braced s)
  | IVList l => l <> [] /\ (fix go l := match l with [] => True | x :: r => writable true x /\ go r end) l
  end.
