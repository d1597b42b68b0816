(** Specification of a generator object that is used again after calls that
    succeeded. *)
From Verif Require Import Py TypesModel TextModel SigModel NodeModel NodeDataModel GenModel GenFilesModel GenFilesSpec.

(** The lines before the first one that reads [stop], and the others. *)
Fixpoint until (stop : str) (l : list str) : list str * list str :=
  match l with
  | [] => ([], [])
  | x :: r => if str_eqb x stop then ([], l) else let (a, b) := until stop r in (x :: a, b)
  end.
(** The union of the notification function: its member lines, and the file without
    them. *)
Definition union_line : str := lit "   union data_tag".
Definition close_line : str := lit "   } data;".
Definition members (l : list str) : list str := fst (until close_line (skipn 2 (snd (until union_line l)))).
Definition outside (l : list str) : list str :=
  fst (until union_line l) ++ firstn 2 (snd (until union_line l)) ++ snd (until close_line (skipn 2 (snd (until union_line l)))).

(** A generator all of whose calls succeeded, those with callbacks for nodes with input
    data.  [old] and [decls] are the members of the union and the declared callbacks of
    the last files that were written with callbacks. *)
Inductive worked : gstate -> list str -> list str -> Prop :=
| worked_new : worked new_gen [] []
| worked_plain st old decls version fuel sfx W nd name includes direct synced st' x :
    worked st old decls -> generate_files version fuel st sfx W nd name includes None direct synced = (st', Ok x) -> worked st' old decls
| worked_callbacks st old decls version fuel sfx W nd name includes m direct synced st' W' nd' f cbk :
    worked st old decls -> generate_files version fuel st sfx W nd name includes (Some m) direct synced = (st', Ok (W', nd', f)) ->
    has_input fuel W' nd' -> f_cbk f = Some cbk -> worked st' (members (f_source f)) (declared cbk).
