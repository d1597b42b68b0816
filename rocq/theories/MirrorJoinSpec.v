(** Files that hold what apx_mirror makes of other files. *)
From Verif Require Import Py TypesModel TextModel SigModel AttrModel NodeModel ParserModel FilesModel ToolsModel SigSpec NodeSpec ParserSpec FilesSpec ToolsSpec.

(** [mirror_file d d' p p']: the file [p'] of [d'] is what apx_mirror writes, on some disk,
    for the file [p] of [d], with any name and normalized or not. *)
Definition mirror_file (d d' : disk) (p p' : str) : Prop :=
  exists n normalize x x', (forall s, n = Some s -> plain_name s /\ ~ In 13 s) /\ x p = d p /\
    apx_mirror (mk_args [p] (Some p') false n normalize) [] x = (x', Printed []) /\ d' p' = x' p'.
