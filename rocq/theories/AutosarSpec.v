(** What AUTOSAR constants, types and value tables mean. *)
From Verif Require Import Py TypesModel TextModel AttrModel TypesSpec SigSpec AttrSpec AutosarModel.

Fixpoint const_value (c : aconst) : ivalue :=
  match c with
  | KInt z => IVInt z
  | KStr s => IVStr s
  | KRec l | KArr l => IVList (map const_value l)
  | KOther => IVNone
  end.

(** An element for the integers lo to hi: its code holds them all, and limits, if
    it has any, are these. *)
Definition holds_range (lo hi : Z) (e : delem) : Prop :=
  exists c l h k, e = DPrim None c l h None /\ kind_of c = Some k /\ kmin k <= lo /\ hi <= kmax k /\
    ((l = None /\ h = None) \/ (l = Some lo /\ h = Some hi)).

(** The ranges for which the code finds such an element. *)
Definition unsigned_ok (hi : Z) : Prop :=
  0 < hi < 18446744073709551616 /\ ~ In hi [256; 65536; 4294967296].
Definition signed_ok (lo hi : Z) : Prop :=
  128 < Z.abs hi /\
  ((-32768 <= lo /\ hi < 32768) \/
   (32768 < Z.abs hi /\ -2147483648 <= lo /\ hi < 2147483648) \/
   (2147483648 < Z.abs hi /\ -9223372036854775808 <= lo /\ hi < 9223372036854775808)).

(** The name without _RE at its end. *)
Inductive short_name : str -> str -> Prop :=
| sn_RE s : short_name (s ++ lit "_RE") s
| sn_same s : (forall p, s <> p ++ lit "_RE") -> short_name s s.

Definition with_name (n : str) (e : delem) : delem :=
  match e with
  | DPrim _ c lo hi a => DPrim (Some n) c lo hi a
  | DRec _ es => DRec (Some n) es
  | DRef _ r => DRef (Some n) r
  end.

(** [describes t e]: the data element [e] is for values of the type [t]. *)
Inductive describes : adtype -> delem -> Prop :=
| ds_bool : describes ABool (DPrim None CU8 (Some 0) (Some 1) None)
| ds_int lo hi e : holds_range lo hi e -> describes (AInt lo hi) e
(* one byte more, for the end *)
| ds_str n : describes (AString n) (DPrim None CSTR None None (Some (n + 1)))
| ds_rec ms es : describes_members ms es -> describes (ARec ms) (DRec None es)
with describes_members : list (str * adtype) -> list delem -> Prop :=
| dm_nil : describes_members [] []
| dm_cons n s t e ms es : short_name n s -> describes t e -> describes_members ms es ->
    describes_members ((n, t) :: ms) (with_name s e :: es).

Fixpoint importable (t : adtype) : Prop :=
  match t with
  | ABool => True
  | AInt lo hi => lo <= hi /\ (0 <= lo /\ unsigned_ok hi \/ lo < 0 /\ signed_ok lo hi)
  | AString n => 0 <= n
  | ARec ms => (fix go l := match l with [] => True | (n, t) :: r => quoteless n /\ importable t /\ go r end) ms
  | AArray | AMissing | AUnknown => False
  end.

(** Elements of a value table that follow one another from [from] on. *)
Fixpoint consecutive (from : Z) (els : list (Z * Z * str)) : Prop :=
  match els with
  | [] => True
  | (lo, hi, _) :: r => lo = from /\ lo <= hi /\ consecutive (hi + 1) r
  end.
(** Texts a value table can hold. *)
Definition table_text (s : str) : Prop :=
  forall c, In c s -> ~ In c [QUOTE; COMMA; 40; 41].
