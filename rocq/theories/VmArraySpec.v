(** Programs of the machine for records with arrays of records, and what they pack. *)
From Verif Require Import Py TypesModel CompilerModel VmModel TypesSpec.

(** Plain types, records, and arrays of records (or of such arrays). *)
Inductive shape :=
| ShPlain (t : ty)
| ShRec (members : list (str * shape))
| ShArr (n : nat) (item : shape).

(** vm_base.py: the instructions for the plain types. *)
Definition plain_code (d : dir) (t : ty) : bytes :=
  let base := match d with Pack => 3 | Unpack => 16 end in
  let kind_no k := match k with U8 => 0 | U16 => 1 | U32 => 2 | S8 => 3 | S16 => 4 | S32 => 5 | U64 | S64 => 0 end in
  match t with
  | TInt k => [base + kind_no k]
  | TStr n => [base + 6; n mod 256; n / 256]
  | TArr k n => [base + 7 + kind_no k; n mod 256; n / 256]
  | _ => []
  end.
(** A record is entered, each member selected by its name, and left (29, 30, 31); an array
    is entered, has the program of the item for each item, and is left (32, 33). *)
Fixpoint shape_code (d : dir) (sh : shape) : bytes :=
  match sh with
  | ShPlain t => plain_code d t
  | ShRec ms => [29] ++ flat_map (fun m => let '(nm, s) := m in [30] ++ nm ++ [0] ++ shape_code d s) ms ++ [31]
  | ShArr n s => [32] ++ concat (repeat (shape_code d s) n) ++ [33]
  end.
(** The program: its header has the number [n] of bytes of the data. *)
Definition shape_prog (d : dir) (n : Z) (sh : shape) : bytes :=
  [match d with Pack => 1 | Unpack => 2 end; n mod 256; n / 2 ^ 8 mod 256; n / 2 ^ 16 mod 256; n / 2 ^ 24 mod 256] ++ shape_code d sh.

(** [lays sh v b]: the value [v] of the shape [sh] is [b] in bytes, one part after the other. *)
Inductive lays : shape -> pyval -> bytes -> Prop :=
| ly_plain t v b : exact t v -> enc t v = Some b -> lays (ShPlain t) v b
| ly_rec ms d b : lays_members ms d b -> lays (ShRec ms) (VDict d) b
| ly_arr s l b : lays_items s l b -> lays (ShArr (length l) s) (VList l) b
with lays_members : list (str * shape) -> dict -> bytes -> Prop :=
| lm_nil : lays_members [] [] []
| lm_cons nm s v ms d a b : lays s v a -> lays_members ms d b -> lays_members ((nm, s) :: ms) ((nm, v) :: d) (a ++ b)
with lays_items : shape -> list pyval -> bytes -> Prop :=
| li_nil s : lays_items s [] []
| li_cons s v l a b : lays s v a -> lays_items s l b -> lays_items s (v :: l) (a ++ b).

Definition is_plain (sh : shape) : bool := match sh with ShPlain _ => true | _ => false end.
(** What a member of a record of [n] members may be: to pack, a plain array is not longer
    than the record; to unpack, it is no record. *)
Definition member_allowed (d : dir) (n : nat) (sh : shape) : Prop :=
  match d, sh with
  | Pack, ShPlain (TArr _ k) => k <= Z.of_nat n
  | Unpack, ShRec _ => False
  | _, _ => True
  end.
(** [workable d sh]: plain types that the machine knows, not directly in an array; member
    names differ and are in ASCII. *)
Inductive workable (d : dir) : shape -> Prop :=
| wk_plain t : is_rec t = false -> wf_ty t -> workable d (ShPlain t)
| wk_rec ms : NoDup (map fst ms) -> (forall nm s, In (nm, s) ms -> name_ok nm /\ member_allowed d (length ms) s) ->
    workables d ms -> workable d (ShRec ms)
| wk_arr n s : is_plain s = false -> workable d s -> workable d (ShArr n s)
with workables (d : dir) : list (str * shape) -> Prop :=
| ws_nil : workables d []
| ws_cons nm s ms : workable d s -> workables d ms -> workables d ((nm, s) :: ms).
