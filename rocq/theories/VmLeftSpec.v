(** What it means that a write stays inside its window. *)
From Verif Require Import Py VmLeftModel.

(** [d'] has the length of [d] and differs from it only from [a] up to [b]. *)
Definition only_within (a b : Z) (d d' : bytes) : Prop :=
  len d' = len d /\
  forall i, 0 <= i < a \/ b <= i -> nth_error d' (Z.to_nat i) = nth_error d (Z.to_nat i).

(** A refused [struct.pack_into] touches no bytes but its own. *)
Definition contained (torn : tearing) : Prop :=
  forall d p n, 0 <= p -> 0 <= n -> p + n <= len d -> only_within p (p + n) d (torn d p n).

(** Two such: the bytes are left alone, or cleared first. *)
Definition untouched : tearing := fun d _ _ => d.
Definition cleared : tearing := fun d p n =>
  firstn (Z.to_nat p) d ++ repeat 0 (Z.to_nat n) ++ skipn (Z.to_nat (p + n)) d.
