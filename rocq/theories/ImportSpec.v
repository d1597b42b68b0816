(** What importing a software component amounts to. *)
From Verif Require Import Py TypesModel TextModel SigModel AttrModel NodeModel AutosarModel AttrSpec AutosarSpec.

(** Components whose types and constants the import can express. *)
Definition importable_port (p : aport) : Prop :=
  importable (ap_type p) /\
  match ap_init p with Some c => writable false (const_value c) | None => True end.

(** Lists that agree entry by entry, with positions. *)
Definition entrywise {A B} (R : nat -> A -> B -> Prop) (l : list A) (l' : list B) : Prop :=
  length l = length l' /\ forall i x y, nth_error l i = Some x -> nth_error l' i = Some y -> R i x y.

(** [p] is the first of the ports [all] with a type of that name. *)
Definition first_use (all : list aport) (p : aport) : Prop :=
  exists before after, all = before ++ p :: after /\ forall q, In q before -> ap_tname q <> ap_tname p.

(** The type [d] at place [i] of the node is the imported type of [p]. *)
Definition type_imported (i : nat) (p : aport) (d : dtype) : Prop :=
  dt_name d = Some (ap_tname p) /\ dt_id d = Some (Z.of_nat i) /\ describes (ap_type p) (dt_elem d) /\
  dt_attr d = option_map value_table_attr (ap_semantics p) /\ dt_short d = None.

(** The port [q] at place [i] is the imported [p]: it refers to the type of that name. *)
Definition port_imported (W : world) (types : list nat) (i : nat) (p : aport) (q : port) : Prop :=
  pt_provide q = ap_provide p /\ pt_name q = Some (ap_name p) /\ pt_id q = Some (Z.of_nat i) /\
  (exists t, pt_elem q = DRef None (RObj t) /\ In t types /\ dt_name (w_types W t) = Some (ap_tname p)) /\
  match ap_init p, pt_attr q with
  | None, None => True
  | Some c, Some a => pa_init a = const_value c /\ pa_qlen a = None /\ pa_queued a = false /\ pa_param a = false
  | _, _ => False
  end.
