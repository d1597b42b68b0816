(** What merging one node into another makes of their definitions. *)
From Verif Require Import Py TypesModel TextModel SigModel AttrModel NodeModel SigSpec NodeSpec.

Definition ports (pr : bool) (D : ndef) : list pdef := if pr then df_provide D else df_require D.
Definition port_names (D : ndef) : list (option str) := map pd_name (df_provide D ++ df_require D).

(** The same declaration in two definitions: references go to types of the same name. *)
Definition same_type (D2 D : ndef) (t2 t : tdef) : Prop :=
  td_name t = td_name t2 /\ td_attr t = td_attr t2 /\ moved (type_names D2) (type_names D) (td_elem t2) (td_elem t).
(** The type that port [p] of [D2] refers to is declared in the same way in [D]. *)
Definition type_agrees (D2 D : ndef) (p : pdef) : Prop :=
  forall n i t2, pd_elem p = DRef n (RInt (Z.of_nat i)) -> nth_error (df_types D2) i = Some t2 ->
    exists t, In t (df_types D) /\ same_type D2 D t2 t.

(** [points a i]: the element refers to type [i]. *)
Inductive points : delem -> nat -> Prop :=
| pn_ref n i : points (DRef n (RInt (Z.of_nat i))) i
| pn_rec n es e i : In e es -> points e i -> points (DRec n es) i.
(** [needs D a i]: the element is a reference that leads to type [i] of [D], perhaps
    through other types. *)
Inductive needs (D : ndef) (a : delem) : nat -> Prop :=
| ne_here n i : a = DRef n (RInt (Z.of_nat i)) -> needs D a i
| ne_next i t j : needs D a i -> nth_error (df_types D) i = Some t -> points (td_elem t) j -> needs D a j.

(** [merged D D2 D']: [D'] is [D] with the ports of [D2] that it did not have, and the
    types they need. *)
Record merged (D D2 D' : ndef) : Prop := {
  mg_name : df_name D' = df_name D;
  mg_types : exists ts, df_types D' = df_types D ++ ts /\
    forall t, In t ts -> exists pr p i t2, In p (ports pr D2) /\ ~ In (pd_name p) (port_names D) /\
      needs D2 (pd_elem p) i /\ nth_error (df_types D2) i = Some t2 /\ same_type D2 D' t2 t;
  mg_ports : exists new : bool -> list pdef, (forall pr, ports pr D' = ports pr D ++ new pr) /\
    NoDup (map pd_name (new true ++ new false)) /\
    forall pr q, In q (new pr) -> ~ In (pd_name q) (port_names D) /\
      exists p, In p (ports pr D2) /\ moved_port D2 D' p q /\ type_agrees D2 D' p;
  mg_all : forall pr p, In p (ports pr D2) -> exists q, In q (ports pr D') /\ moved_port D2 D' p q
}.
