(** Lemmas about ramps. *)
From Coq Require Import ZifyBool ZifyNat Lia.
From Coq Require Import QArith Qround Qabs Qpower Qfield Lqa.
From Verif Require Import Py PyLemmas FloatModel FloatSpec FloatProofs TypesModel CompilerModel VmModel TypesSpec VmProps
  NodeModel NodeDataModel NodeDataSpec NodeDataProofs NodeInitProofs ClientModel ClientSpec ClientProofs ClientProps TesterModel TesterSpec.
Ltac Zify.zify_post_hook ::= Z.div_mod_to_equations.
Local Open Scope Q_scope.

(** ** The numbers *)

Lemma ulp1_pos : 0 < ulp1.
Proof. reflexivity. Qed.

Lemma nearest_below x b : x < inject_Z b + (1 # 2) -> (nearest_int x <= b)%Z.
Proof.
  intros H. apply Znot_gt_le. intros G.
  assert (K : inject_Z b + 1 <= inject_Z (nearest_int x)) by (rewrite <- inject_succ; apply inject_le; lia).
  pose proof (nearest_int_half x) as E. apply abs_le in E. lra.
Qed.

Lemma nearest_rnd_int a : (Z.abs a <= 2 ^ 53)%Z -> nearest_int (rnd (inject_Z a)) = a.
Proof. intros H. rewrite (nearest_int_proper _ _ (rnd_int a H)). apply nearest_int_fix. Qed.

(** Adding a step does not go back. *)
Lemma step_up x step : 0 <= step -> rnd x <= rnd (rnd x + step).
Proof. intros H. rewrite <- (rnd_rnd x) at 1. apply rnd_mono. lra. Qed.

Lemma loop_up step : 0 <= step -> forall n x, Forall (fun v => nearest_int (rnd x) <= v)%Z (ramp_loop n x step).
Proof.
  intros S. induction n as [|n IH]; intros x; cbn [ramp_loop]; [constructor|].
  assert (K : (nearest_int (rnd x) <= nearest_int (rnd (rnd x + step)))%Z) by (apply nearest_int_mono, step_up, S).
  constructor; [exact K|]. eapply Forall_impl; [|apply IH]. cbv beta. intros v V.
  rewrite (nearest_int_proper _ _ (rnd_rnd _)) in V. lia.
Qed.

(** One step, with the error of rounding. *)
Lemma step_err x step m : (1 <= m)%Z -> - inject_Z m <= x + step -> x + step <= inject_Z m + 1 ->
  rnd (x + step) <= x + step + (inject_Z m + 1) * ulp1.
Proof.
  intros M A B. assert (M1 : 1 <= inject_Z m) by (change 1 with (inject_Z 1); apply inject_le; lia).
  assert (E : Qabs (rnd (x + step) - (x + step)) <= (inject_Z m + 1) * ulp1) by (apply rnd_err; [apply abs_le|]; lra).
  apply abs_le in E. lra.
Qed.

Lemma rnd_comp_step x y step : x == y -> rnd (x + step) = rnd (y + step).
Proof. intros E. apply rnd_proper. rewrite E. reflexivity. Qed.

Lemma loop_climbs step m b : 0 <= step -> (1 <= m)%Z -> (b <= m)%Z -> forall n x, rnd x == x -> - inject_Z m <= x ->
  x + inject_Z (Z.of_nat n) * (step + (inject_Z m + 1) * ulp1) < inject_Z b + (1 # 2) ->
  climb (nearest_int x) (ramp_loop n x step ++ [b]) b.
Proof.
  intros Sp M Bm. induction n as [|n IH]; intros x Rx Lx Ux; cbn [ramp_loop app].
  - constructor. apply nearest_below. change (inject_Z (Z.of_nat 0)) with 0 in Ux. lra.
  - assert (Sn : inject_Z (Z.of_nat (S n)) == inject_Z (Z.of_nat n) + 1) by (rewrite <- inject_succ; apply inject_eq; lia).
    rewrite Sn in Ux. set (d := (inject_Z m + 1) * ulp1) in *.
    assert (N0 : 0 <= inject_Z (Z.of_nat n)) by (change 0 with (inject_Z 0); apply inject_le; lia).
    assert (M1 : 1 <= inject_Z m) by (change 1 with (inject_Z 1); apply inject_le; lia).
    assert (Bq : inject_Z b <= inject_Z m) by (apply inject_le; exact Bm).
    assert (D0 : 0 <= d) by (apply Qmult_le_0_compat; [lra|discriminate]).
    assert (P : 0 <= inject_Z (Z.of_nat n) * (step + d)) by (apply Qmult_le_0_compat; lra).
    rewrite (rnd_comp_step _ _ step Rx).
    set (y := rnd (x + step)).
    assert (Ux' : x + step + d + inject_Z (Z.of_nat n) * (step + d) < inject_Z b + (1 # 2)) by (clear - Ux; lra).
    assert (E : y <= x + step + d).
    { apply step_err; [exact M|lra|]. lra. }
    assert (Up : x <= y). { rewrite <- Rx. apply rnd_mono. lra. }
    constructor; [apply nearest_int_mono; exact Up|]. apply IH; [apply rnd_rnd|lra|lra].
Qed.

Lemma climb_cons_inv a l b : climb a l b -> exists l', l = l' ++ [b].
Proof. induction 1 as [a b L|a v l b L C [l' ->]]; [exists []; reflexivity|exists (v :: l'); reflexivity]. Qed.

Lemma loop_length n : forall x step, length (ramp_loop n x step) = n.
Proof. induction n as [|n IH]; intros; cbn [ramp_loop length]; [reflexivity|]. rewrite IH. reflexivity. Qed.

(** ** The values of a ramp *)

Definition small (n : Z) (a b : Z) : Prop := (n * Z.max (Z.abs a) (Z.abs b) <= 2 ^ 50)%Z.

Lemma not_huge q m : Qabs q <= inject_Z m -> (m <= 2 ^ 1000)%Z -> huge q = false.
Proof.
  intros A B. unfold huge. destruct (Qle_bool _ _) eqn:E; [|reflexivity]. exfalso. apply Qle_bool_iff in E.
  assert (K : inject_Z (2 ^ 1024) <= inject_Z m).
  { rewrite <- two_Z by lia. eapply Qle_trans; eauto. }
  apply (proj1 (inject_le _ _)) in K.
  assert (2 ^ 1000 < 2 ^ 1024)%Z by (apply Z.pow_lt_mono_r; lia). lia.
Qed.

Lemma pow50 : (2 ^ 50 <= 2 ^ 1000)%Z.
Proof. apply Z.pow_le_mono_r; lia. Qed.

Section Values.
Context (a b : Z) (steps : Q).
Let n := trunc steps.
Let m := Z.max (Z.abs a) (Z.abs b).
Context (Ab : (m <= 2 ^ 50)%Z) (Ne : a <> b) (S0 : 0 < steps) (Sm : small n a b).

Lemma steps_trunc : (0 <= n)%Z /\ inject_Z n <= steps /\ steps < inject_Z n + 1.
Proof.
  destruct (trunc_nonneg steps) as [E N]; [lra|]. fold n in E, N. split; [exact N|]. rewrite E. apply floor_bounds.
Qed.

Let diff := if (a <? b)%Z then (b - a)%Z else (a - b)%Z.
Let step := rnd (rnd (inject_Z diff) / steps).

Lemma diff_bounds : (1 <= diff <= 2 * m)%Z /\ (1 <= m)%Z.
Proof. unfold diff, m. destruct (Z.ltb_spec a b); lia. Qed.

Lemma values_shape : ramp_values a b steps = Ok (ramp_loop (Z.to_nat (n - 1)) (inject_Z a) step ++ [b]).
Proof.
  unfold ramp_values. rewrite (proj2 (Z.eqb_neq _ _) Ne). fold diff.
  destruct diff_bounds as [D M]. destruct steps_trunc as (N0 & N1 & N2).
  assert (Rd : rnd (inject_Z diff) == inject_Z diff) by (apply rnd_int; lia).
  rewrite (not_huge _ diff); [|rewrite Rd; apply abs_le; split; [rewrite <- inject_Z_opp; apply inject_le; lia|apply Qle_refl]|pose proof pow50; lia].
  destruct (Qeq_bool steps 0) eqn:E; [apply Qeq_bool_iff in E; exfalso; lra|].
  fold step. fold n.
  rewrite (not_huge _ (n + 1)).
  - destruct (Z.ltb_spec 0 n) as [L|L]; [reflexivity|]. replace (Z.to_nat (n - 1)) with 0%nat by lia. reflexivity.
  - rewrite inject_succ. apply abs_le. assert (0 <= inject_Z n) by (change 0 with (inject_Z 0); apply inject_le; lia). lra.
  - unfold small in Sm. fold m in Sm. pose proof pow50. nia.
Qed.

Lemma step_nonneg : 0 <= step.
Proof.
  destruct diff_bounds as [D M]. apply rnd_nonneg. rewrite (rnd_int diff) by lia. apply Qle_shift_div_l; [exact S0|].
  rewrite Qmult_0_l. change 0 with (inject_Z 0). apply inject_le. lia.
Qed.

Lemma step_bound : (1 <= n)%Z -> step <= inject_Z diff / steps + inject_Z diff * ulp1.
Proof.
  intros N. destruct diff_bounds as [D M]. destruct steps_trunc as (N0 & N1 & N2).
  assert (Nq : 1 <= inject_Z n) by (change 1 with (inject_Z 1); apply inject_le; lia).
  assert (Dq : 1 <= inject_Z diff) by (change 1 with (inject_Z 1); apply inject_le; lia).
  assert (Rd : rnd (inject_Z diff) / steps == inject_Z diff / steps) by (rewrite (rnd_int diff) by lia; reflexivity).
  unfold step. rewrite (rnd_proper _ _ Rd).
  assert (E : Qabs (rnd (inject_Z diff / steps) - inject_Z diff / steps) <= inject_Z diff * ulp1).
  { apply rnd_err; [|exact Dq]. assert (0 <= inject_Z diff / steps) by (apply Qle_shift_div_l; lra).
    assert (inject_Z diff / steps <= inject_Z diff).
    { apply Qle_shift_div_r; [lra|]. rewrite <- (Qmult_1_r (inject_Z diff)) at 1. rewrite !(Qmult_comm (inject_Z diff)).
      apply Qmult_le_compat_r; lra. }
    apply abs_le. lra. }
  apply abs_le in E. lra.
Qed.

Lemma values_climb : (a < b)%Z -> climb a (ramp_loop (Z.to_nat (n - 1)) (inject_Z a) step ++ [b]) b.
Proof.
  intros L. destruct diff_bounds as [D M]. destruct steps_trunc as (N0 & N1 & N2).
  destruct (Z.eq_dec n 0) as [Z0|Np].
  { rewrite Z0. cbn. constructor. lia. }
  assert (Np1 : (1 <= n)%Z) by lia. pose proof (step_bound Np1) as Sb. pose proof step_nonneg as Sn.
  rewrite <- (nearest_int_fix a) at 1. apply loop_climbs with (m := m).
  - exact Sn.
  - exact M.
  - unfold m. lia.
  - apply rnd_int. unfold m in Ab. lia.
  - rewrite <- inject_Z_opp. apply inject_le. unfold m. lia.
  - rewrite Z2Nat.id by lia.
    assert (Df : inject_Z diff == inject_Z b - inject_Z a).
    { unfold diff. rewrite (proj2 (Z.ltb_lt _ _) L). unfold Z.sub. rewrite inject_Z_plus, inject_Z_opp. ring. }
    assert (Nq : 1 <= inject_Z n) by (change 1 with (inject_Z 1); apply inject_le; lia).
    assert (Dq : 1 <= inject_Z diff) by (change 1 with (inject_Z 1); apply inject_le; lia).
    assert (Mq : 1 <= inject_Z m) by (change 1 with (inject_Z 1); apply inject_le; lia).
    assert (Dm : inject_Z diff <= 2 * inject_Z m) by (change 2 with (inject_Z 2); rewrite <- inject_Z_mult; apply inject_le; lia).
    assert (Nm : inject_Z n * inject_Z m <= inject_Z (2 ^ 50)) by (rewrite <- inject_Z_mult; apply inject_le; exact Sm).
    replace (n - 1)%Z with (n + -1)%Z by lia. rewrite inject_Z_plus. change (inject_Z (-1)) with (-1 # 1).
    set (N := inject_Z n) in *. set (DD := inject_Z diff) in *. set (MM := inject_Z m) in *. set (u := ulp1) in *.
    assert (U0 : 0 < u) by reflexivity. assert (Uk : inject_Z (2 ^ 50) * (4 * u) == 1 # 2) by reflexivity.
    set (r := DD / steps) in *. assert (Rs : r * steps == DD) by (unfold r; field; lra).
    assert (R0 : 0 < r) by (unfold r; apply Qlt_shift_div_l; lra).
    (* the exact steps end one step before the target *)
    assert (H1 : (N + (-1 # 1)) * r <= DD - r).
    { assert (N * r <= DD); [|lra]. rewrite <- Rs. rewrite (Qmult_comm r). apply Qmult_le_compat_r; lra. }
    (* the errors sum up to at most one half *)
    assert (H2 : (N + (-1 # 1)) * (DD * u + (MM + 1) * u) <= 1 # 2).
    { rewrite <- Uk. apply Qle_trans with (N * (4 * MM * u)).
      - apply Qle_trans with (N * (DD * u + (MM + 1) * u)).
        + apply Qmult_le_compat_r; [lra|]. setoid_replace (DD * u + (MM + 1) * u) with ((DD + MM + 1) * u) by ring. apply Qmult_le_0_compat; lra.
        + rewrite !(Qmult_comm N). apply Qmult_le_compat_r; [|lra].
          setoid_replace (DD * u + (MM + 1) * u) with ((DD + MM + 1) * u) by ring. apply Qmult_le_compat_r; lra.
      - setoid_replace (N * (4 * MM * u)) with (N * MM * (4 * u)) by ring. apply Qmult_le_compat_r; lra. }
    assert (H3 : (N + (-1 # 1)) * (step + (MM + 1) * u) <= (N + (-1 # 1)) * r + (N + (-1 # 1)) * (DD * u + (MM + 1) * u)).
    { rewrite <- Qmult_plus_distr_r. rewrite !(Qmult_comm (N + (-1 # 1))). apply Qmult_le_compat_r; lra. }
    lra.
Qed.
End Values.

(** ** The client *)
Local Open Scope Z_scope.

Lemma deliver_readable ins data : Forall always_readable ins -> len data = total ins -> Forall regular ins ->
  forall l, Forall (fun i => (i < length ins)%nat) l -> snd (deliver ins data l) = true.
Proof.
  intros R L Rg. induction 1 as [|i l Hi _ IH]; [reflexivity|]. cbn [deliver].
  destruct (nth_error ins i) as [t|] eqn:N; [|apply nth_error_None in N; lia].
  pose proof (proj1 (Forall_forall _ _) R t (nth_error_In _ _ N)) as Rt.
  pose proof (proj1 (Forall_forall _ _) Rg t (nth_error_In _ _ N)) as [Wf _].
  specialize (Rt (part_of ins data i)).
  destruct (readable t (part_of ins data i)); [destruct (deliver ins data l); exact IH|]. exfalso. apply Rt; [|reflexivity].
  pose proof (port_start_total ins i Rg) as [P0 _]. pose proof (port_start_total ins (S i) Rg) as [_ P1].
  rewrite (port_start_S _ _ _ N) in P1. pose proof (VmPackProofs.tlen_nonneg t Wf) as Tn.
  unfold part_of. rewrite N. unfold len in *. rewrite firstn_length, skipn_length. lia.
Qed.

Lemma affected_ports ins off n : Forall (fun i => (i < length ins)%nat) (affected ins off n).
Proof. apply Forall_forall. intros i H. apply filter_In in H as [H _]. apply in_seq in H. lia. Qed.

Section Client.
Context (W : world) (nd : node) (ins outs : list ty) (inname : str) (Ids : ids_ok W nd) (Kinds : kinds_ok W nd)
  (Rg : Forall regular ins) (Rd : Forall always_readable ins).

(** Values that could be written. *)
Definition vals_fit (s : astate) : Prop :=
  forall i k z, nth_error outs i = Some (TInt k) -> nth_error (a_vals s) i = Some (OVal (VInt z)) -> in_range k z = true.

Lemma step_fits live s op s' r : astep ins outs live true s op s' r -> length (a_vals s) = length outs ->
  vals_fit s -> vals_fit s'.
Proof.
  intros A L V. assert (K : forall i t v b, nth_error outs i = Some t -> enc t v = Some b ->
    forall j k z, nth_error outs j = Some (TInt k) -> nth_error (replaced (a_vals s) i (OVal v)) j = Some (OVal (VInt z)) -> in_range k z = true).
  { intros i t v b N En j k z Nj Nv. assert (i < length (a_vals s))%nat by (rewrite L; apply nth_error_Some; congruence).
    rewrite replaced_nth in Nv by auto. destruct (Nat.eqb_spec j i) as [->|]; [|eapply V; eauto].
    rewrite N in Nj. injection Nj as ->. injection Nv as ->. cbn [enc enc_int] in En. destruct (in_range k z); congruence. }
  inversion A; subst; auto; intros j k z; cbn [a_vals]; eauto.
Qed.

Lemma passive_move s e s' calls x : cmove W nd ins outs inname s e s' calls x -> passive e ->
  len (a_in (k_node s)) = total ins -> a_stuck (k_node s) = false ->
  a_vals (k_node s') = a_vals (k_node s) /\ a_stuck (k_node s') = false.
Proof.
  intros M P L St. inversion M; subst; cbn [passive k_node] in *; try contradiction; auto;
    match goal with X : astep _ _ _ _ _ _ _ _ |- _ => inversion X; subst; cbn [a_vals a_stuck] in *; auto end.
  - exfalso. match goal with X : nth_error ins ?i = Some ?t, Y : readable _ _ = None |- _ =>
      pose proof (proj1 (Forall_forall _ _) Rd t (nth_error_In _ _ X)) as Rt;
      pose proof (deliver_readable ins (a_in s0) Rd L Rg [i]) as K; cbn [deliver] in K; rewrite X, Y in K end.
    discriminate K. constructor; [|constructor]. apply nth_error_Some. congruence.
  - split; [reflexivity|]. rewrite St.
    match goal with X : deliver ins ?dd ?l = _ |- _ => set (data := dd) in X; set (hit := l) in X; rename X into De end.
    assert (Ld : len data = total ins).
    { unfold data. pose proof (len_nonneg d). rewrite !len_app, len_firstn, len_skipn. lia. }
    assert (Fh : Forall (fun i => (i < length ins)%nat) hit).
    { unfold hit. destruct (negb more && true); [apply affected_ports|constructor]. }
    pose proof (deliver_readable ins data Rd Ld Rg hit Fh) as K. rewrite De in K. cbn [snd] in K. rewrite K. reflexivity.
Qed.

Lemma passive_run evs : Forall passive evs -> Forall cok evs -> forall c D k, cinv W nd ins outs inname c D k ->
  a_stuck (k_node k) = false -> exists D' k', cinv W nd ins outs inname (fst (client_run c evs)) D' k' /\
    a_stuck (k_node k') = false /\ a_vals (k_node k') = a_vals (k_node k).
Proof.
  induction evs as [|e evs IH]; intros P C c D k Iv St; [exists D, k; auto|].
  pose proof (step_any _ _ _ _ _ Kinds c D k e Iv (Forall_inv C)) as (D1 & k1 & ob & cc & Mv & Iv1 & _).
  destruct (passive_move _ _ _ _ _ Mv (Forall_inv P)) as [V1 S1]; [eapply sim_inlen, ci_sim; exact Iv|exact St|].
  cbn [client_run]. destruct (client_step c e) as [c1 x]. cbn [fst snd] in *.
  destruct (IH (Forall_inv_tail P) (Forall_inv_tail C) _ _ _ Iv1 S1) as (D2 & k2 & Iv2 & S2 & V2).
  destruct (client_run c1 evs) as [c2 l2]. cbn [fst] in *. exists D2, k2. split; [exact Iv2|]. split; [exact S2|congruence].
Qed.

Lemma total_pos k i : Forall regular outs -> nth_error outs i = Some (TInt k) -> 0 < total outs.
Proof.
  intros Ro N. pose proof (port_start_total outs i Ro) as [P0 _]. pose proof (port_start_total outs (S i) Ro) as [_ P1].
  rewrite (port_start_S _ _ _ N) in P1. destruct k; cbn [tlen width] in P1; lia.
Qed.

(** Setting an integer port to a value of its range always works. *)
Lemma set_port c D k o i kd z : Forall regular outs -> cinv W nd ins outs inname c D k -> a_stuck (k_node k) = false ->
  nth_error (n_provide nd) i = Some o -> nth_error outs i = Some (TInt kd) -> in_range kd z = true ->
  exists c' D' k', client_write c (IdPort o) (VInt z) = (c', Done None) /\ cinv W nd ins outs inname c' D' k' /\
    a_stuck (k_node k') = false /\ nth_error (a_vals (k_node k')) i = Some (OVal (VInt z)).
Proof.
  intros Ro Iv St No Nt R.
  pose proof (step_write _ _ _ _ _ Kinds c D k (IdPort o) (VInt z) Iv) as (D1 & k1 & ob & cc & Mv & Iv1 & _).
  destruct (client_write c (IdPort o) (VInt z)) as [c1 x]. cbn [fst snd] in *.
  assert (Pk : picks W nd (IdPort o) true true i) by (apply pk_object; auto).
  exists c1, D1, k1. pose proof (sim_nvals _ _ _ _ _ _ _ _ (ci_sim _ _ _ _ _ _ _ _ Iv)) as Lv.
  inversion Mv; subst.
  2:{ exfalso. match goal with X : forall i, ~ picks _ _ _ _ _ _ |- _ => eapply X; exact Pk end. }
  match goal with X : picks _ _ _ _ _ ?j |- _ => assert (j = i) as -> end.
  { match goal with X : picks _ _ _ _ _ ?j |- _ => apply (write_target_picks W nd Ids Kinds) in X as [_ X]; apply (write_target_picks W nd Ids Kinds) in Pk as [_ Pk]; rewrite X in Pk; injection Pk as Pk; lia end. }
  cbn [k_node] in *.
  match goal with X : astep _ _ _ _ _ _ _ _ |- _ => inversion X; subst end;
    try match goal with X : Z.of_nat ?x = Z.of_nat i |- _ => assert (x = i) by lia; subst x end;
    try congruence.
  - match goal with X : answers _ _ |- _ => cbn [answers] in X; destruct x as [[?|]| |]; try contradiction end.
    split; [reflexivity|]. split; [exact Iv1|]. split; [reflexivity|]. cbn [a_vals].
    assert (i < length (a_vals s))%nat by (rewrite Lv; apply nth_error_Some; congruence).
    rewrite replaced_nth, Nat.eqb_refl by auto. reflexivity.
  - exfalso. pose proof (total_pos _ _ Ro Nt). lia.
  - exfalso. match goal with X : nth_error outs i = Some ?t |- _ => rewrite Nt in X; injection X as <- end.
    match goal with X : roomy _ _ -> _ |- _ => specialize (X Logic.I); cbn [enc enc_int] in X; rewrite R in X; discriminate end.
  - exfalso. assert (i < length outs)%nat by (apply nth_error_Some; congruence). unfold len in *. lia.
Qed.

Lemma read_port c D k id i v : cinv W nd ins outs inname c D k -> picks W nd id false true i ->
  nth_error (a_vals (k_node k)) i = Some v -> client_read c id = (c, Done (Some v)).
Proof.
  intros Iv Pk N. pose proof (step_read _ _ _ _ _ Kinds c D k id Iv) as (D1 & k1 & ob & cc & Mv & Iv1 & _).
  assert (fst (client_read c id) = c).
  { unfold client_read. rewrite (ci_node _ _ _ _ _ _ _ _ Iv), (ci_world _ _ _ _ _ _ _ _ Iv).
    rewrite (read_target_picks W nd Ids Kinds _ _ _ Pk). reflexivity. }
  destruct (client_read c id) as [c1 x]. cbn [fst snd] in *. subst c1. f_equal.
  inversion Mv; subst; cbn [k_node] in *.
  - match goal with X : picks _ _ _ _ false ?j |- _ => apply (read_target_picks W nd Ids Kinds) in X; apply (read_target_picks W nd Ids Kinds) in Pk; rewrite X in Pk; discriminate end.
  - match goal with X : picks _ _ _ _ true ?j |- _ => apply (read_target_picks W nd Ids Kinds) in X; apply (read_target_picks W nd Ids Kinds) in Pk; rewrite X in Pk; injection Pk as Pk end.
    match goal with X : Z.of_nat ?x = Z.of_nat i |- _ => assert (x = i) by lia; subst x end. congruence.
  - exfalso. match goal with X : named_type _ _ _ _ |- _ => destruct X as (q & Nq & Dq & _) end.
    inversion Pk as [|nm' wr p q' (o & _ & _ & Nt & _) _|]; subst. apply nth_error_In in Nq. eapply Nt; eauto.
  - exfalso. match goal with X : forall i p, ~ picks _ _ _ _ _ _ |- _ => eapply X; exact Pk end.
Qed.

(** Sets, one after the other. *)
Lemma ramp_sets_run o i kd : Forall regular outs -> nth_error (n_provide nd) i = Some o -> nth_error outs i = Some (TInt kd) ->
  forall vals, Forall (fun z => in_range kd z = true) vals -> forall idle c D k,
  Forall (Forall passive) idle -> Forall (Forall cok) idle ->
  cinv W nd ins outs inname c D k -> a_stuck (k_node k) = false ->
  exists D' k' c', ramp_sets c o vals idle = (c', Done tt) /\ fst (client_run c (weave o vals idle)) = c' /\
    cinv W nd ins outs inname c' D' k' /\ a_stuck (k_node k') = false /\
    forall v, last (map Some vals) None = Some v -> nth_error (a_vals (k_node k')) i = Some (OVal (VInt v)).
Proof.
  intros Ro No Nt. induction vals as [|z vals IH]; intros F idle c D k Pi Ci Iv St.
  - exists D, k, c. cbn [ramp_sets weave client_run fst map last]. split; [reflexivity|]. split; [reflexivity|]. split; [exact Iv|]. split; [exact St|]. intros v E. discriminate.
  - cbn [ramp_sets weave].
    assert (Ph : Forall passive (hd [] idle) /\ Forall cok (hd [] idle) /\ Forall (Forall passive) (tl idle) /\ Forall (Forall cok) (tl idle)).
    { destruct idle; cbn [hd tl]; [repeat split; constructor|]. pose proof (Forall_inv Pi). pose proof (Forall_inv Ci).
      pose proof (Forall_inv_tail Pi). pose proof (Forall_inv_tail Ci). auto. }
    destruct Ph as (P1 & C1 & P2 & C2).
    destruct (passive_run _ P1 C1 _ _ _ Iv St) as (D1 & k1 & Iv1 & S1 & _).
    destruct (set_port _ _ _ _ _ _ z Ro Iv1 S1 No Nt (Forall_inv F)) as (c2 & D2 & k2 & Wr & Iv2 & S2 & V2).
    destruct (IH (Forall_inv_tail F) (tl idle) c2 D2 k2 P2 C2 Iv2 S2) as (D3 & k3 & c3 & Rs & Rr & Iv3 & S3 & V3).
    exists D3, k3, c3. rewrite Wr. split; [exact Rs|]. split; [|split; [exact Iv3|split; [exact S3|]]].
    + pose proof (ClientProps.client_run_app (hd [] idle) (CWrite (IdPort o) (VInt z) :: weave o vals (tl idle)) c) as Ra.
      rewrite Ra. destruct (client_run c (hd [] idle)) as [c1 l1]. cbn [fst client_run client_step] in *. rewrite Wr.
      destruct (client_run c2 (weave o vals (tl idle))) as [c4 l4] eqn:R4. cbn [fst] in *. exact Rr.
    + intros v E. destruct vals as [|z' vals].
      * cbn [map last] in E. injection E as <-. cbn in Rs. injection Rs as <-.
        pose proof (ci_sim _ _ _ _ _ _ _ _ Iv3) as Sm3. pose proof (ci_sim _ _ _ _ _ _ _ _ Iv2) as Sm2.
        assert (D3 = D2) as -> by (pose proof (ci_node _ _ _ _ _ _ _ _ Iv3); pose proof (ci_node _ _ _ _ _ _ _ _ Iv2); congruence).
        rewrite <- (sim_vals _ _ _ _ _ _ _ _ Sm3), (sim_vals _ _ _ _ _ _ _ _ Sm2). exact V2.
      * apply V3. exact E.
Qed.
End Client.
