(** When the result of merging does not depend on the order. *)
From Verif Require Import Py TypesModel TextModel SigModel AttrModel NodeModel SigSpec NodeSpec MergeSpec.

(** The element with another name. *)
Definition called (n : option str) (e : delem) : delem :=
  match e with
  | DPrim _ c lo hi k => DPrim n c lo hi k
  | DRef _ r => DRef n r
  | DRec _ l => DRec n l
  end.
(** [expands D a e]: [e] is [a] with the declarations of the types in place of the
    references to them, all the way down. *)
Inductive expands (D : ndef) : delem -> delem -> Prop :=
| xp_prim n c lo hi k : expands D (DPrim n c lo hi k) (DPrim n c lo hi k)
| xp_ref n i t e : nth_error (df_types D) i = Some t -> expands D (td_elem t) e ->
    expands D (DRef n (RInt (Z.of_nat i))) (called n e)
| xp_rec n l m : expands_all D l m -> expands D (DRec n l) (DRec n m)
with expands_all (D : ndef) : list delem -> list delem -> Prop :=
| xps_nil : expands_all D [] []
| xps_cons a e l m : expands D a e -> expands_all D l m -> expands_all D (a :: l) (e :: m).

(** Types that both declare are declared in the same way. *)
Definition types_agree (D D2 : ndef) : Prop :=
  forall t t2, In t (df_types D) -> In t2 (df_types D2) -> td_name t = td_name t2 -> same_type D2 D t2 t.

(** The same data: a port of a type has the same elements, and any other the same text. *)
Definition same_data (X Y : ndef) (p q : pdef) : Prop :=
  pd_name q = pd_name p /\ pd_attr q = pd_attr p /\ (is_ref (pd_elem p) <-> is_ref (pd_elem q)) /\
  (is_ref (pd_elem p) -> exists e, expands X (pd_elem p) e /\ expands Y (pd_elem q) e) /\
  (~ is_ref (pd_elem p) -> pd_elem q = pd_elem p).
(** Every port of [X] is one of [Y]. *)
Definition ports_in (same : pdef -> pdef -> Prop) (X Y : ndef) : Prop :=
  forall pr p, In p (ports pr X) -> exists q, In q (ports pr Y) /\ same p q.
