(** Texts that leave no doubt about what they say. *)
From Verif Require Import Py TypesModel TextModel SigModel AttrModel NodeModel ParserModel FilesModel SigSpec NodeSpec ParserSpec MergeSpec FilesSpec.

(** [says_again D n s attr]: a type of the definition, declared once more in the same
    way and with all references by name. *)
Definition says_again (D : ndef) (n : option str) (s : str) (attr : option str) : Prop :=
  exists e t, parse_signature s = Ok e /\ tidy true e /\ tidy_types D /\ In t (df_types D) /\ td_name t = n /\
    refers (type_names D) e (td_elem t) /\ attr = td_attr t.

(** Lines that are read one after the other, where a type that is declared again is
    declared in the same way. *)
Inductive clear_lines : section * option ndef -> list str -> section * option ndef -> Prop :=
| cl_nil st : clear_lines st [] st
| cl_cons st line st1 l st2 : reads_line st line st1 ->
    (forall D n s attr, snd st = Some D -> fst st = NODE \/ fst st = TYPE ->
       line_says line (Some [Some [84]; n; Some s; attr]) -> In n (type_names D) -> says_again D n s attr) ->
    clear_lines st1 l st2 -> clear_lines st (line :: l) st2.

(** A file with such lines behind its first line. *)
Definition file_clear (text : str) (D : ndef) : Prop :=
  exists first body cs, file_lines text (first :: body) /\ (is_header first -> version12 first) /\
    clear_lines (START, None) body (cs, Some D).
