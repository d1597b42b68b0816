(** When the types of a definition may be sorted by name. *)
From Verif Require Import Py TypesModel TextModel SigModel AttrModel NodeModel SigSpec NodeSpec MergeSpec.

(** Types refer to types that come before them by name. *)
Definition named_in_order (D : ndef) : Prop :=
  forall t i u, In t (df_types D) -> points (td_elem t) i -> nth_error (df_types D) i = Some u ->
    str_le (opt_text (td_name u)) (opt_text (td_name t)).
