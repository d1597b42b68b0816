(** When definitions can be joined. *)
From Verif Require Import Py TypesModel NodeModel SigSpec NodeSpec MergeSpec MergeOkSpec.

(** Each can be copied into an empty node, and any two agree on what both declare. *)
Record joinable (Ds : list ndef) : Prop := {
  jb_alone : forall D, In D Ds -> compatible (mk_ndef None [] [] []) D;
  jb_pairs : forall D E, In D Ds -> In E Ds -> compatible D E
}.
