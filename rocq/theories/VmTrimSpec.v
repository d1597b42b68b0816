(** Values with more in them than a program of the machine asks for. *)
From Verif Require Import Py TypesModel CompilerModel VmModel TypesSpec VmArraySpec.

(** [gives sh v b]: what the shape [sh] asks for is found in the value [v], and is [b] in
    bytes.  A dict may have more members, in any order; a list may have more items. *)
Inductive gives : shape -> pyval -> bytes -> Prop :=
| gv_plain t v b : exact t v -> enc t v = Some b -> gives (ShPlain t) v b
| gv_rec ms d b : gives_members ms d b -> gives (ShRec ms) (VDict d) b
| gv_arr s l more b : gives_items s l b -> gives (ShArr (length l) s) (VList (l ++ more)) b
with gives_members : list (str * shape) -> dict -> bytes -> Prop :=
| gm_nil d : gives_members [] d []
| gm_cons nm s v ms d a b : dget nm d = Some v -> gives s v a -> gives_members ms d b -> gives_members ((nm, s) :: ms) d (a ++ b)
with gives_items : shape -> list pyval -> bytes -> Prop :=
| gi_nil s : gives_items s [] []
| gi_cons s v l a b : gives s v a -> gives_items s l b -> gives_items s (v :: l) (a ++ b).

(** What the shape asks for, and no more: the members in the order of the shape. *)
Fixpoint trimmed (sh : shape) (v : pyval) : pyval :=
  match sh, v with
  | ShRec ms, VDict d => VDict (map (fun m => let '(nm, s) := m in (nm, match dget nm d with Some x => trimmed s x | None => VOther end)) ms)
  | ShArr n s, VList l => VList (map (trimmed s) (firstn n l))
  | _, _ => v
  end.
