(** What doubles are, and which of them is the rounded value of a number. *)
From Coq Require Export QArith.
From Coq Require Import Qabs.
From Verif Require Import Py.
Local Open Scope Q_scope.

(** A double: an integer of at most 53 bits, times a power of two. *)
Definition double (q : Q) : Prop :=
  exists m e : Z, (Z.abs m <= 2 ^ 53)%Z /\ (-1074 <= e)%Z /\ q == inject_Z m * 2 ^ e.

(** ... whose last bit, as it is stored, is zero. *)
Definition even_double (q : Q) : Prop :=
  exists m e : Z, (Z.abs m <= 2 ^ 53)%Z /\ (-1074 <= e)%Z /\ q == inject_Z m * 2 ^ e /\
    ((2 ^ 52 <= Z.abs m)%Z \/ e = (-1074)%Z) /\ Z.even m = true.

(** [x] is the double for [q]: none is nearer, and if another one is as near, then
    [x] is the even one. *)
Definition rounded (q x : Q) : Prop :=
  double x /\
  (forall f, double f -> Qabs (x - q) <= Qabs (f - q)) /\
  (forall f, double f -> ~ f == x -> Qabs (f - q) == Qabs (x - q) -> even_double x).

(** The same for integers. *)
Definition rounded_int (q : Q) (n : Z) : Prop :=
  (forall k : Z, Qabs (inject_Z n - q) <= Qabs (inject_Z k - q)) /\
  (forall k : Z, k <> n -> Qabs (inject_Z k - q) == Qabs (inject_Z n - q) -> Z.even n = true).
