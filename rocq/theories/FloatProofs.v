(** Lemmas about doubles. *)
From Coq Require Import ZifyBool ZifyNat Lia.
From Coq Require Import QArith Qround Qabs Qpower Qfield Lqa.
From Verif Require Import Py FloatModel FloatSpec.
Ltac Zify.zify_post_hook ::= Z.div_mod_to_equations.
Local Open Scope Q_scope.

(** ** Distances *)

Lemma abs_le x y : Qabs x <= y <-> - y <= x /\ x <= y.
Proof. apply Qabs_Qle_condition. Qed.
Lemma abs_cases x : (0 <= x /\ Qabs x == x) \/ (x < 0 /\ Qabs x == - x).
Proof. apply Qabs_case; intros H; [left|]; [split; [exact H|reflexivity]|]. destruct (Qlt_le_dec x 0); [right; split; [auto|reflexivity]|left; split; lra]. Qed.
Ltac qabs := repeat match goal with
  | |- context [Qabs ?x] => let H := fresh in let E := fresh in destruct (abs_cases x) as [[H E]|[H E]]; rewrite ?E in *; clear E
  | K : context [Qabs ?x] |- _ => let H := fresh in let E := fresh in destruct (abs_cases x) as [[H E]|[H E]]; rewrite ?E in *; clear E
  end.

Lemma inject_lt a b : inject_Z a < inject_Z b <-> (a < b)%Z.
Proof. rewrite <- Zlt_Qlt. reflexivity. Qed.
Lemma inject_le a b : inject_Z a <= inject_Z b <-> (a <= b)%Z.
Proof. rewrite <- Zle_Qle. reflexivity. Qed.
Lemma inject_eq a b : inject_Z a == inject_Z b <-> (a = b)%Z.
Proof. apply inject_Z_injective. Qed.
Lemma inject_succ z : inject_Z (z + 1) == inject_Z z + 1.
Proof. rewrite inject_Z_plus. reflexivity. Qed.

(** ** The nearest integer *)

Lemma floor_bounds q : inject_Z (Qfloor q) <= q /\ q < inject_Z (Qfloor q) + 1.
Proof. split; [apply Qfloor_le|]. rewrite <- inject_succ. apply Qlt_floor. Qed.

Lemma nearest_int_half q : Qabs (inject_Z (nearest_int q) - q) <= 1 # 2.
Proof.
  unfold nearest_int. pose proof (floor_bounds q) as [A B]. set (f := Qfloor q) in *. apply abs_le.
  destruct (q - inject_Z f ?= 1 # 2) eqn:C.
  - apply Qeq_alt in C. destruct (Z.even f); rewrite ?inject_succ; lra.
  - apply Qlt_alt in C. lra.
  - apply Qgt_alt in C. rewrite inject_succ. lra.
Qed.

Lemma int_apart (a b : Z) : a <> b -> 1 <= Qabs (inject_Z a - inject_Z b).
Proof.
  intros N. destruct (Z.lt_trichotomy a b) as [L|[L|L]]; [|contradiction|].
  - assert (inject_Z a + 1 <= inject_Z b) by (rewrite <- inject_succ; apply inject_le; lia). qabs; lra.
  - assert (inject_Z b + 1 <= inject_Z a) by (rewrite <- inject_succ; apply inject_le; lia). qabs; lra.
Qed.

Lemma nearest_int_rounded q : rounded_int q (nearest_int q).
Proof.
  pose proof (nearest_int_half q) as H. split.
  - intros k. destruct (Z.eq_dec k (nearest_int q)) as [->|N]; [apply Qle_refl|].
    apply int_apart in N. revert H N. qabs; lra.
  - intros k N E. pose proof (int_apart _ _ N) as Ap.
    assert (T : Qabs (inject_Z (nearest_int q) - q) == 1 # 2) by (revert H Ap E; qabs; lra).
    clear k N E Ap H. unfold nearest_int in *. pose proof (floor_bounds q) as [A B]. set (f := Qfloor q) in *.
    destruct (q - inject_Z f ?= 1 # 2) eqn:C.
    + destruct (Z.even f) eqn:Ev; [exact Ev|]. rewrite Z.add_1_r, Z.even_succ, <- Z.negb_even, Ev. reflexivity.
    + apply Qlt_alt in C. revert T. qabs; lra.
    + apply Qgt_alt in C. revert T. rewrite inject_succ. qabs; lra.
Qed.

(** Nearest values are monotone, whatever the grid. *)
Lemma nearest_mono p q x y : p < q -> Qabs (x - p) <= Qabs (y - p) -> Qabs (y - q) <= Qabs (x - q) -> x <= y.
Proof.
  intros L A B. apply Qnot_lt_le. intros G. revert A B. qabs; lra.
Qed.

Lemma nearest_int_proper p q : p == q -> nearest_int p = nearest_int q.
Proof.
  intros E. unfold nearest_int. rewrite (Qfloor_comp _ _ E). rewrite E. reflexivity.
Qed.
Lemma nearest_int_mono p q : p <= q -> (nearest_int p <= nearest_int q)%Z.
Proof.
  intros L. apply Qle_lteq in L as [L|E]; [|rewrite (nearest_int_proper _ _ E); lia].
  apply inject_le. eapply nearest_mono; [exact L|apply nearest_int_rounded|apply nearest_int_rounded].
Qed.
Lemma nearest_int_fix z : nearest_int (inject_Z z) = z.
Proof.
  destruct (Z.eq_dec (nearest_int (inject_Z z)) z) as [E|N]; [exact E|].
  pose proof (nearest_int_half (inject_Z z)). pose proof (int_apart _ _ N). lra.
Qed.

(** ** Powers of two *)

Lemma two_pos e : 0 < 2 ^ e.
Proof. apply Qpower_0_lt. reflexivity. Qed.
Lemma two_plus a b : 2 ^ (a + b) == 2 ^ a * 2 ^ b.
Proof. apply Qpower_plus. discriminate. Qed.
Lemma two_Z n : (0 <= n)%Z -> 2 ^ n == inject_Z (2 ^ n).
Proof. intros H. symmetry. apply (Zpower_Qpower 2 n H). Qed.
Lemma two_mono a b : (a <= b)%Z -> 2 ^ a <= 2 ^ b.
Proof.
  intros L. replace b with (a + (b - a))%Z by lia. rewrite two_plus. rewrite (two_Z (b - a)) by lia.
  pose proof (two_pos a). assert (1 <= inject_Z (2 ^ (b - a))) by (change 1 with (inject_Z 1); apply inject_le; pose proof (Z.pow_pos_nonneg 2 (b - a)); lia).
  rewrite <- (Qmult_1_r (2 ^ a)) at 1. apply Qmult_le_l; auto.
Qed.

Lemma abs_frac q : Qabs q == inject_Z (Z.abs (Qnum q)) / inject_Z (Zpos (Qden q)).
Proof.
  destruct q as [n d]. unfold Qeq, Qdiv, Qmult, Qinv, Qabs, inject_Z. cbn [Qnum Qden].
  cbn. rewrite ?Z.mul_1_r. reflexivity.
Qed.

Lemma log2_place q : ~ q == 0 ->
  exists l : Z, 2 ^ l <= Qabs q /\ Qabs q < 2 ^ (l + 1) /\ last_place q = Z.max (-1074) (l - 52).
Proof.
  intros N. unfold last_place. set (n := Z.abs (Qnum q)). set (d := Zpos (Qden q)).
  assert (Np : (0 < n)%Z).
  { subst n. assert (Qnum q <> 0)%Z; [|lia]. intros E. apply N. unfold Qeq. rewrite E. reflexivity. }
  assert (Dp : (0 < d)%Z) by reflexivity.
  destruct (Z.log2_spec n Np) as [N1 N2]. destruct (Z.log2_spec d Dp) as [D1 D2].
  pose proof (Z.log2_nonneg n) as N0. pose proof (Z.log2_nonneg d) as D0.
  set (ln := Z.log2 n) in *. set (ld := Z.log2 d) in *.
  apply inject_le in N1, D1. apply inject_lt in N2, D2. rewrite <- two_Z in N1, D1, N2, D2 by lia.
  assert (Dq : 0 < inject_Z d) by (change 0 with (inject_Z 0); apply inject_lt; exact Dp).
  pose proof (abs_frac q) as Aq. fold n d in Aq.
  assert (Lo : 2 ^ (ln - ld - 1) < Qabs q).
  { rewrite Aq. apply Qlt_shift_div_l; [exact Dq|]. eapply Qlt_le_trans; [|exact N1].
    replace ln with ((ln - ld - 1) + (ld + 1))%Z at 2 by lia. rewrite two_plus.
    apply Qmult_lt_l; [apply two_pos|]. exact D2. }
  assert (Hi : Qabs q < 2 ^ (ln - ld + 1)).
  { rewrite Aq. apply Qlt_shift_div_r; [exact Dq|]. eapply Qlt_le_trans; [exact N2|].
    replace (Z.succ ln) with ((ln - ld + 1) + ld)%Z by lia. rewrite two_plus.
    apply Qmult_le_l; [apply two_pos|]. exact D1. }
  destruct (Qle_bool (2 ^ (ln - ld)) (Qabs q)) eqn:C.
  - exists (ln - ld)%Z. apply Qle_bool_iff in C. auto.
  - exists (ln - ld - 1)%Z. split; [apply Qlt_le_weak, Lo|]. split; [|reflexivity].
    apply Qnot_le_lt. intros K. replace (ln - ld - 1 + 1)%Z with (ln - ld)%Z in K by lia. apply Qle_bool_iff in K. congruence.
Qed.

(** ** Rounding to doubles *)

Lemma rnd_proper p q : p == q -> rnd p = rnd q.
Proof. intros E. unfold rnd. rewrite (Qred_complete _ _ E). reflexivity. Qed.

Lemma rnd_zero q : q == 0 -> rnd q = 0.
Proof. intros E. rewrite (rnd_proper _ _ E). reflexivity. Qed.

(** The shape of a rounded value. *)
Lemma rnd_shape q : ~ q == 0 -> exists e : Z, (-1074 <= e)%Z /\
  rnd q == inject_Z (nearest_int (q / 2 ^ e)) * 2 ^ e /\
  Qabs (q / 2 ^ e) < inject_Z (2 ^ 53) /\ (e = (-1074)%Z \/ inject_Z (2 ^ 52) <= Qabs (q / 2 ^ e)).
Proof.
  intros N. assert (Nr : ~ Qred q == 0) by (rewrite Qred_correct; exact N).
  destruct (log2_place _ Nr) as (l & L1 & L2 & Lp). exists (last_place (Qred q)).
  assert (A : Qabs (q / 2 ^ last_place (Qred q)) == Qabs (Qred q) * 2 ^ (- last_place (Qred q))).
  { generalize (last_place (Qred q)). intros e. unfold Qdiv. rewrite Qabs_Qmult. rewrite Qred_correct. rewrite <- Qpower_opp. rewrite (Qabs_pos (2 ^ _)); [reflexivity|]. apply Qlt_le_weak, two_pos. }
  set (e := last_place (Qred q)) in *. split; [lia|]. split; [|split].
  - unfold rnd. destruct (Z.eqb_spec (Qnum (Qred q)) 0) as [E|E].
    + exfalso. apply Nr. unfold Qeq. rewrite E. reflexivity.
    + fold e. rewrite Qred_correct. erewrite nearest_int_proper; [reflexivity|]. rewrite Qred_correct. reflexivity.
  - rewrite A. apply Qlt_le_trans with (2 ^ (l + 1) * 2 ^ (- e)).
    + apply Qmult_lt_r; [apply two_pos|exact L2].
    + rewrite <- two_plus. rewrite <- two_Z by lia. apply two_mono. lia.
  - destruct (Z.eq_dec e (-1074)) as [E|E]; [auto|right]. rewrite A. rewrite <- two_Z by lia.
    apply Qle_trans with (2 ^ l * 2 ^ (- e)); [rewrite <- two_plus; apply two_mono; lia|].
    apply Qmult_le_compat_r; [exact L1|]. apply Qlt_le_weak, two_pos.
Qed.

Lemma nearest_int_bound y b : Qabs y <= inject_Z b -> (Z.abs (nearest_int y) <= b)%Z.
Proof.
  intros H. apply abs_le in H as [A B]. rewrite <- inject_Z_opp in A.
  apply nearest_int_mono in A, B. rewrite nearest_int_fix in A, B. lia.
Qed.

Lemma nearest_int_big y b : inject_Z b <= Qabs y -> (b <= Z.abs (nearest_int y))%Z.
Proof.
  intros H. destruct (abs_cases y) as [[Y E]|[Y E]]; rewrite E in H.
  - apply nearest_int_mono in H. rewrite nearest_int_fix in H. lia.
  - assert (K : y <= inject_Z (- b)) by (rewrite inject_Z_opp; lra).
    apply nearest_int_mono in K. rewrite nearest_int_fix in K. lia.
Qed.

Lemma scaled_abs x q e : Qabs (x * 2 ^ e - q) == Qabs (x - q / 2 ^ e) * 2 ^ e.
Proof.
  pose proof (two_pos e) as P. rewrite <- (Qabs_pos (2 ^ e)) at 3 by lra. rewrite <- Qabs_Qmult.
  apply Qabs_wd. field. lra.
Qed.

Lemma rounded_zero : rounded 0 0.
Proof.
  split; [|split].
  - exists 0%Z, 0%Z. repeat split; cbn; lia.
  - intros f _. setoid_replace (0 - 0) with 0 by ring. apply Qabs_nonneg.
  - intros f _ N E. exfalso. apply N. revert E. qabs; lra.
Qed.

Lemma grid e' e m : (e <= e')%Z -> exists k : Z, inject_Z m * 2 ^ e' == inject_Z k * 2 ^ e.
Proof.
  intros L. exists (m * 2 ^ (e' - e))%Z. rewrite inject_Z_mult, <- two_Z by lia.
  replace e' with ((e' - e) + e)%Z at 1 by lia. rewrite two_plus. ring.
Qed.

Lemma rnd_rounded q : rounded q (rnd q).
Proof.
  destruct (Qeq_dec q 0) as [Z0|N].
  - rewrite (rnd_zero _ Z0). destruct rounded_zero as (A & B & C). split; [exact A|]. split; intros f.
    + rewrite Z0. apply B.
    + rewrite Z0. apply C.
  - destruct (rnd_shape q N) as (e & Le & Sh & Hi & Lo). set (y := q / 2 ^ e) in *.
    set (x := nearest_int y) in *. destruct (nearest_int_rounded y) as [Nr Tie]. fold x in Nr, Tie.
    pose proof (two_pos e) as P.
    assert (Xb : (Z.abs x <= 2 ^ 53)%Z) by (apply nearest_int_bound; apply Qlt_le_weak; exact Hi).
    (* a double is an integer in this scale, or below all of the scale *)
    assert (Cases : forall f, double f -> (exists k, f == inject_Z k * 2 ^ e) \/
      (e <> (-1074)%Z /\ Qabs f <= inject_Z (2 ^ 52) * 2 ^ e)).
    { intros f (m & e' & Mb & Eb & Ef). destruct (Z_le_gt_dec e e') as [G|G].
      - left. destruct (grid e' e m G) as (k & Ek). exists k. rewrite Ef. exact Ek.
      - right. split; [lia|]. rewrite Ef. rewrite Qabs_Qmult. rewrite (Qabs_pos (2 ^ e')) by (apply Qlt_le_weak, two_pos).
        rewrite <- two_Z by lia. rewrite <- two_plus. apply Qle_trans with (2 ^ 53 * 2 ^ e').
        + apply Qmult_le_compat_r; [|apply Qlt_le_weak, two_pos]. change (Qabs (inject_Z m)) with (inject_Z (Z.abs m)).
          rewrite two_Z by lia. apply inject_le. exact Mb.
        + rewrite <- two_plus. apply two_mono. lia. }
    assert (Small : forall f, e <> (-1074)%Z -> Qabs f <= inject_Z (2 ^ 52) * 2 ^ e ->
      exists k, Qabs (inject_Z k - y) <= Qabs (f / 2 ^ e - y) /\
        (Qabs (f / 2 ^ e - y) <= Qabs (inject_Z k - y) -> f / 2 ^ e == inject_Z k)).
    { intros f Ne Fb. destruct Lo as [|Lo]; [contradiction|].
      assert (Fe : Qabs (f / 2 ^ e) <= inject_Z (2 ^ 52)).
      { unfold Qdiv. rewrite Qabs_Qmult, (Qabs_pos (/ 2 ^ e)) by (apply Qinv_le_0_compat; lra).
        apply Qle_shift_div_r; auto. }
      set (g := f / 2 ^ e) in *. clearbody g y. clear - Fe Lo.
      set (b := (2 ^ 52)%Z) in *. destruct (Qlt_le_dec y 0) as [Y|Y].
      - exists (- b)%Z. rewrite inject_Z_opp. revert Fe Lo. split; revert Fe Lo; qabs; intros; lra.
      - exists b. split; revert Fe Lo; qabs; intros; lra. }
    assert (Dist : forall f, Qabs (f - q) == Qabs (f / 2 ^ e - y) * 2 ^ e).
    { intros f. unfold y. rewrite <- scaled_abs. apply Qabs_wd. field. lra. }
    split; [|split].
    + exists x, e. auto.
    + intros f D. rewrite Sh, scaled_abs, Dist. fold y. apply Qmult_le_compat_r; [|lra].
      destruct (Cases f D) as [(k & Ek)|[Ne Fb]].
      * setoid_replace (f / 2 ^ e) with (inject_Z k) by (rewrite Ek; field; lra). apply Nr.
      * destruct (Small f Ne Fb) as (k & Hk & _). eapply Qle_trans; [apply (Nr k)|exact Hk].
    + intros f D Nf Eq. rewrite Sh, scaled_abs, Dist in Eq. fold y in Eq.
      apply Qmult_inj_r in Eq; [|lra].
      assert (Ek : exists k, f / 2 ^ e == inject_Z k).
      { destruct (Cases f D) as [(k & Ek)|[Ne Fb]].
        - exists k. rewrite Ek. field. lra.
        - destruct (Small f Ne Fb) as (k & _ & Hk). exists k. apply Hk. rewrite Eq. apply Nr. }
      destruct Ek as (k & Ek). rewrite Ek in Eq.
      exists x, e. split; [exact Xb|]. split; [exact Le|]. split; [exact Sh|]. split.
      * destruct Lo as [->|Lo]; [auto|left]. 
        apply nearest_int_big. exact Lo.
      * apply (Tie k); [|exact Eq]. intros ->. apply Nf. rewrite Sh. rewrite <- Ek. field. lra.
Qed.

Lemma rnd_mono p q : p <= q -> rnd p <= rnd q.
Proof.
  intros L. apply Qle_lteq in L as [L|E]; [|rewrite (rnd_proper _ _ E); apply Qle_refl].
  destruct (rnd_rounded p) as (Dp & Np & _). destruct (rnd_rounded q) as (Dq & Nq & _).
  eapply nearest_mono; [exact L|apply Np; exact Dq|apply Nq; exact Dp].
Qed.

Lemma rnd_fix q : double q -> rnd q == q.
Proof.
  intros D. destruct (rnd_rounded q) as (_ & N & _). specialize (N q D).
  setoid_replace (q - q) with 0 in N by ring. change (Qabs 0) with 0 in N.
  apply abs_le in N as [A B]. lra.
Qed.
Lemma rnd_rnd q : rnd (rnd q) == rnd q.
Proof. apply rnd_fix, rnd_rounded. Qed.

Lemma double_int z : (Z.abs z <= 2 ^ 53)%Z -> double (inject_Z z).
Proof. intros H. exists z, 0%Z. split; [exact H|]. split; [lia|]. change (2 ^ 0) with 1. ring. Qed.
Lemma rnd_int z : (Z.abs z <= 2 ^ 53)%Z -> rnd (inject_Z z) == inject_Z z.
Proof. intros H. apply rnd_fix, double_int, H. Qed.
Lemma rnd_0 : rnd 0 == 0.
Proof. reflexivity. Qed.

Definition ulp1 : Q := 1 # (2 ^ 53).
Lemma ulp1_two : ulp1 == 2 ^ (-53).
Proof. reflexivity. Qed.

Lemma rnd_err q b : Qabs q <= b -> 1 <= b -> Qabs (rnd q - q) <= b * ulp1.
Proof.
  intros B B1. destruct (Qeq_dec q 0) as [Z0|N].
  { rewrite (rnd_zero _ Z0), Z0. setoid_replace (0 - 0) with 0 by ring. change (Qabs 0) with 0.
    apply Qmult_le_0_compat; [lra|discriminate]. }
  destruct (rnd_shape q N) as (e & Le & -> & Hi & Lo). rewrite scaled_abs. pose proof (two_pos e) as P.
  apply Qle_trans with ((1 # 2) * 2 ^ e).
  { apply Qmult_le_compat_r; [|lra]. apply nearest_int_half. }
  setoid_replace ((1 # 2) * 2 ^ e) with (2 ^ (e - 1)).
  2:{ replace (e - 1)%Z with (e + -1)%Z by lia. rewrite two_plus. change (2 ^ -1) with (1 # 2). ring. }
  rewrite ulp1_two.
  assert (K : 2 ^ (e - 1 + 53) <= b).
  { destruct Lo as [->|Lo].
    - apply Qle_trans with 1; [|exact B1]. change 1 with (2 ^ 0) at 1. apply two_mono. lia.
    - apply Qle_trans with (Qabs q); [|exact B].
      replace (e - 1 + 53)%Z with (52 + e)%Z by lia. rewrite two_plus.
      apply Qle_trans with (Qabs (q / 2 ^ e) * 2 ^ e).
      + apply Qmult_le_compat_r; [rewrite two_Z by lia; exact Lo|lra].
      + rewrite <- (Qabs_pos (2 ^ e)) at 2 by lra. rewrite <- Qabs_Qmult. apply Qle_lteq. right. apply Qabs_wd. field. lra. }
  replace (e - 1)%Z with ((e - 1 + 53) + -53)%Z by lia. rewrite two_plus.
  apply Qmult_le_compat_r; [exact K|]. apply Qlt_le_weak, two_pos.
Qed.

Lemma rnd_nonneg q : 0 <= q -> 0 <= rnd q.
Proof. intros H. rewrite <- rnd_0. apply rnd_mono. exact H. Qed.

(** ** Towards zero *)

Lemma trunc_nonneg q : 0 <= q -> trunc q = Qfloor q /\ (0 <= trunc q)%Z.
Proof.
  destruct q as [n d]. unfold Qle. cbn [Qnum Qden]. intros H. unfold trunc, Qfloor. cbn [Qnum Qden].
  rewrite Z.quot_div_nonneg by lia. split; [reflexivity|]. apply Z.div_pos; lia.
Qed.
Lemma trunc_neg q : q <= 0 -> (trunc q <= 0)%Z.
Proof.
  destruct q as [n d]. unfold Qle. cbn [Qnum Qden]. intros H. unfold trunc. cbn [Qnum Qden].
  assert (H2 : (n <= 0)%Z) by lia. rewrite <- (Z.opp_involutive n). rewrite Z.quot_opp_l by lia.
  rewrite Z.quot_div_nonneg by lia. assert (0 <= - n / Z.pos d)%Z by (apply Z.div_pos; lia). lia.
Qed.

(** Integer division, done in floating point. *)
Lemma float_division t s : (0 <= t < 2 ^ 53)%Z -> (0 < s <= 2 ^ 53)%Z ->
  trunc (rnd (rnd (inject_Z t) / rnd (inject_Z s))) = (t / s)%Z.
Proof.
  intros T S. set (q := rnd (inject_Z t) / rnd (inject_Z s)).
  assert (Sp : 0 < inject_Z s) by (change 0 with (inject_Z 0); apply inject_lt; lia).
  assert (Tp : 0 <= inject_Z t) by (change 0 with (inject_Z 0); apply inject_le; lia).
  assert (E : q == inject_Z t / inject_Z s) by (unfold q; rewrite !rnd_int by lia; reflexivity).
  rewrite (rnd_proper _ _ E). clearbody q. clear q E. set (q := inject_Z t / inject_Z s).
  assert (Qs : q * inject_Z s == inject_Z t) by (unfold q; field; lra).
  assert (Q0 : 0 <= q) by (unfold q; apply Qle_shift_div_l; [exact Sp|lra]).
  pose proof (rnd_nonneg _ Q0) as R0. destruct (trunc_nonneg _ R0) as [-> _].
  set (f := (t / s)%Z). assert (F : (s * f <= t < s * (f + 1) /\ 0 <= f <= t)%Z).
  { unfold f. pose proof (Z.div_mod t s). pose proof (Z.mod_pos_bound t s). split; [nia|]. split; [apply Z.div_pos; lia|]. apply Z.div_le_upper_bound; nia. }
  assert (Lo : inject_Z f <= rnd q).
  { rewrite <- (rnd_int f) by lia. apply rnd_mono. apply Qle_shift_div_l; [exact Sp|]. rewrite <- inject_Z_mult. apply inject_le. lia. }
  assert (Hi : rnd q < inject_Z (f + 1)).
  { assert (G : q + 1 / inject_Z s <= inject_Z (f + 1)).
    { setoid_replace (q + 1 / inject_Z s) with (inject_Z (t + 1) / inject_Z s) by (rewrite inject_succ; unfold q; field; lra).
      apply Qle_shift_div_r; [exact Sp|]. rewrite <- inject_Z_mult. apply inject_le. lia. }
    destruct (Qlt_le_dec q 1) as [Q1|Q1].
    - (* below one: at most the double next to one *)
      assert (Dn : double (1 - ulp1)) by (exists (2 ^ 53 - 1)%Z, (-53)%Z; split; [lia|split; [lia|reflexivity]]).
      apply Qle_lt_trans with (1 - ulp1).
      + rewrite <- (rnd_fix _ Dn). apply rnd_mono.
        assert (Ts : inject_Z t < inject_Z s) by (rewrite <- Qs; rewrite <- (Qmult_1_l (inject_Z s)) at 2; apply Qmult_lt_r; assumption).
        pose proof (proj1 (inject_lt _ _) Ts) as Ts'. assert (K : inject_Z t + 1 <= inject_Z s) by (rewrite <- inject_succ; apply inject_le; lia).
        assert (Sb : inject_Z s * ulp1 <= 1).
        { apply Qle_trans with (inject_Z (2 ^ 53) * ulp1); [|vm_compute; discriminate].
          apply Qmult_le_compat_r; [apply inject_le; lia|vm_compute; discriminate]. }
        apply Qle_shift_div_r; [exact Sp|]. lra.
      + assert (inject_Z 1 <= inject_Z (f + 1)) by (apply inject_le; lia). change (inject_Z 1) with 1 in *.
        assert (0 < ulp1) by reflexivity. lra.
    - assert (Er : Qabs (rnd q - q) <= q * ulp1) by (apply rnd_err; [apply abs_le; lra|lra]).
      apply abs_le in Er as [_ Er].
      assert (Sm : q * ulp1 < 1 / inject_Z s).
      { apply Qlt_shift_div_l; [exact Sp|]. setoid_replace (q * ulp1 * inject_Z s) with (inject_Z t * ulp1) by (rewrite <- Qs; ring).
        assert (inject_Z t < inject_Z (2 ^ 53)) by (apply inject_lt; lia).
        apply Qlt_le_trans with (inject_Z (2 ^ 53) * ulp1); [|vm_compute; discriminate].
        apply Qmult_lt_r; [reflexivity|assumption]. }
      lra. }
  apply Z.le_antisymm.
  - assert (inject_Z (Qfloor (rnd q)) < inject_Z (f + 1)) by (eapply Qle_lt_trans; [apply Qfloor_le|exact Hi]).
    apply (proj1 (inject_lt _ _)) in H. lia.
  - pose proof (Qlt_floor (rnd q)). assert (inject_Z f < inject_Z (Qfloor (rnd q) + 1)) by (eapply Qle_lt_trans; [exact Lo|assumption]).
    apply (proj1 (inject_lt _ _)) in H0. lia.
Qed.
