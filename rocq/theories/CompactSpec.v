(** Definitions whose types are named T0, T1, ... *)
From Verif Require Import Py TypesModel TextModel NodeModel NodeSpec.

(** The short name of the type at position [i]. *)
Definition short_name (i : nat) : str := lit "T" ++ dec_str (Z.of_nat i).
Definition with_short_names (D : ndef) : ndef :=
  mk_ndef (df_name D)
    (map (fun x => let '(i, t) := x in mk_tdef (Some (short_name i)) (td_elem t) (td_attr t))
       (combine (seq 0 (length (df_types D))) (df_types D)))
    (df_provide D) (df_require D).
