(** Double precision numbers of Python, as far as /repo/apx/tester.py uses them.

    A float is the rational number it stands for; every operation gives the exact
    result rounded to the nearest double, ties to even, with gradual underflow.
    Infinities and not-a-number are not represented: [huge] tells where Python
    would have an infinity or raise OverflowError.  The sign of zero is not
    represented either (it has no influence here). *)
From Coq Require Export QArith.
From Coq Require Import Qround Qabs.
From Verif Require Import Py.
Local Open Scope Q_scope.

(** Nearest integer, ties to even: [round(x)]. *)
Definition nearest_int (q : Q) : Z :=
  let f := Qfloor q in
  match Qcompare (q - inject_Z f) (1 # 2) with
  | Lt => f
  | Gt => (f + 1)%Z
  | Eq => if Z.even f then f else (f + 1)%Z
  end.

(** Exponent of the last place of a number that is not zero. *)
Definition last_place (q : Q) : Z :=
  let l := (Z.log2 (Z.abs (Qnum q)) - Z.log2 (Zpos (Qden q)))%Z in
  let l := if Qle_bool (2 ^ l) (Qabs q) then l else (l - 1)%Z in
  Z.max (-1074) (l - 52).

Definition rnd (q : Q) : Q :=
  let q := Qred q in
  if (Qnum q =? 0)%Z then 0
  else let e := last_place q in Qred (inject_Z (nearest_int (q / 2 ^ e)) * 2 ^ e).

(** Beyond the largest double. *)
Definition huge (q : Q) : bool := Qle_bool (2 ^ 1024) (Qabs q).

(** [int(x)]: towards zero *)
Definition trunc (q : Q) : Z := (Z.quot (Qnum q) (Zpos (Qden q)))%Z.
