(** Specification vocabulary for the file map: address ranges. *)
From Verif Require Import Py RmfModel FileModel.

(** File [i] occupies addresses a, ..., a+n-1. *)
Definition range (H : heap) (i : nat) (a n : Z) : Prop :=
  f_address (H i) = Some a /\ f_length (H i) = n.

(** [i] lies completely below [j]. *)
Definition before (H : heap) (i j : nat) : Prop :=
  exists a b n, range H i a n /\ f_address (H j) = Some b /\ a + n <= b.

(** Address [x] belongs to file [i]. *)
Definition covers (H : heap) (i : nat) (x : Z) : Prop :=
  exists a n, range H i a n /\ a <= x < a + n.

(** A proper file map: keys are the addresses, files are ordered by address, no
    two share a byte, and none is empty. *)
Definition map_ok (H : heap) (m : fmap) : Prop :=
  Forall2 (fun k i => f_address (H i) = Some k) (m_keys m) (m_items m) /\
  ForallOrdPairs (before H) (m_items m) /\
  Forall (fun i => 0 < f_length (H i)) (m_items m).

(** The three address regions: first address, end, boundary. *)
Inductive region_for (name : str) : Z -> Z -> Z -> Prop :=
| RPort : (exists r, name = r ++ lit ".in") \/ (exists r, name = r ++ lit ".out") ->
    region_for name 0 0x4000000 1024
| RDef : ~ (exists r, name = r ++ lit ".in") -> ~ (exists r, name = r ++ lit ".out") ->
    (exists r, name = r ++ lit ".apx") ->
    region_for name 0x4000000 0x20000000 1048576
| RUser : ~ (exists r, name = r ++ lit ".in") -> ~ (exists r, name = r ++ lit ".out") ->
    ~ (exists r, name = r ++ lit ".apx") ->
    region_for name 0x20000000 0x3FFFFC00 1048576.

(** No file starts in one region and ends in the next. *)
Definition no_straddle (H : heap) (m : fmap) : Prop :=
  forall i a n, In i (m_items m) -> range H i a n ->
    0 <= a /\ (a < 0x4000000 -> a + n <= 0x4000000) /\ (a < 0x20000000 -> a + n <= 0x20000000).

(** File [i] is placed properly for its name. *)
Definition well_placed (H : heap) (i : nat) : Prop :=
  forall s e b, region_for (f_name (H i)) s e b ->
    exists a n, range H i a n /\ s <= a /\ a + n <= e /\ a mod b = 0.

(** [p] is the first multiple of [b] that is not below [x]. *)
Definition aligned_up (b x p : Z) : Prop := p mod b = 0 /\ x <= p < x + b.

(** [j] is the last file that starts in [s, e). *)
Definition last_in (H : heap) (m : fmap) (s e : Z) (j : nat) : Prop :=
  In j (m_items m) /\
  exists a, f_address (H j) = Some a /\ s <= a < e /\
  forall j' a', In j' (m_items m) -> f_address (H j') = Some a' -> a' < e -> a' <= a.

(** Operations of a program using the map; failing operations raise and change
    nothing. *)
Inductive mop := OInsert (i : nat) | ORemove (i : nat).

Definition mstep (st : heap * fmap) (o : mop) : heap * fmap :=
  let '(H, m) := st in
  match o with
  | OInsert i => match insert H m i with Ok st' => st' | Err _ => st end
  | ORemove i => match remove H m i with Ok m' => (H, m') | Err _ => st end
  end.
Definition mrun (st : heap * fmap) (ops : list mop) : heap * fmap := fold_left mstep ops st.

Definition inserted (o : mop) : list nat := match o with OInsert i => [i] | ORemove _ => [] end.
