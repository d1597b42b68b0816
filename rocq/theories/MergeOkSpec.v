(** When two definitions can be merged. *)
From Verif Require Import Py TypesModel TextModel SigModel AttrModel NodeModel SigSpec NodeSpec MergeSpec.

(** An element without references. *)
Inductive refless : delem -> Prop :=
| rl_prim n c lo hi k : refless (DPrim n c lo hi k)
| rl_rec n es : Forall refless es -> refless (DRec n es).

(** [movable D i]: type [i] of [D] can be taken over by another node: it is no mere
    reference, and the references of a record are direct members, to such types. *)
Inductive movable (D : ndef) : nat -> Prop :=
| mo_prim i t n c lo hi k : nth_error (df_types D) i = Some t -> td_elem t = DPrim n c lo hi k -> movable D i
| mo_rec i t n es : nth_error (df_types D) i = Some t -> td_elem t = DRec n es -> Forall (member D) es -> movable D i
with member (D : ndef) : delem -> Prop :=
| me_plain e : refless e -> member D e
| me_ref n j : movable D j -> member D (DRef n (RInt (Z.of_nat j))).

(** [compatible D D2]: what the two definitions both declare they declare in the same
    way, the types to be taken over are movable, and none of them has the name of a port. *)
Record compatible (D D2 : ndef) : Prop := {
  cm_types : forall t t2, In t (df_types D) -> In t2 (df_types D2) -> td_name t = td_name t2 -> same_type D2 D t2 t;
  cm_ports : forall pr pr' p q, In p (ports pr D2) -> In q (ports pr' D) -> pd_name q = pd_name p ->
    pr' = pr /\ moved_port D2 D p q;
  cm_once : forall pr pr' p p', In p (ports pr D2) -> In p' (ports pr' D2) -> pd_name p' = pd_name p ->
    pr' = pr /\ p' = p;
  cm_taken : forall pr p n j t2, In p (ports pr D2) -> pd_elem p = DRef n (RInt (Z.of_nat j)) ->
    nth_error (df_types D2) j = Some t2 -> In (td_name t2) (type_names D) \/ movable D2 j;
  cm_names : forall t2, In t2 (df_types D2) -> In (td_name t2) (type_names D) \/
    (~ In (td_name t2) (port_names D) /\ ~ In (td_name t2) (port_names D2))
}.

(** [taken D2 D' names l new]: [new] are, in this order, the ports of the list [l] of [D2]
    whose names are neither among [names] nor those of ports before them. *)
Inductive taken (D2 D' : ndef) : list (option str) -> list pdef -> list pdef -> Prop :=
| tk_nil names : taken D2 D' names [] []
| tk_old names p l new : In (pd_name p) names -> taken D2 D' names l new -> taken D2 D' names (p :: l) new
| tk_new names p q l new : ~ In (pd_name p) names -> moved_port D2 D' p q -> taken D2 D' (pd_name p :: names) l new ->
    taken D2 D' names (p :: l) (q :: new).
