(** Property C47: ramps. *)
From Coq Require Import ZifyBool ZifyNat Lia.
From Coq Require Import QArith Qround Qabs Qpower Qfield Lqa.
From Verif Require Import Py PyLemmas FloatModel FloatSpec FloatProofs TypesModel CompilerModel VmModel TypesSpec VmProps
  TextModel SigModel AttrModel NodeModel ParserModel NodeDataModel NodeDataSpec NodeDataProofs NodeInitProofs NodeDataProps
  ClientModel ClientSpec ClientProofs ClientProps TesterModel TesterSpec TesterProofs.
Ltac Zify.zify_post_hook ::= Z.div_mod_to_equations.
Local Open Scope Z_scope.

(** ** The numbers *)

(** The rounding of the model is the rounding of double precision numbers. *)
Theorem rounding_to_nearest q : rounded q (rnd q) /\ rounded_int q (nearest_int q).
Proof. split; [apply rnd_rounded|apply nearest_int_rounded]. Qed.
Print Assumptions rounding_to_nearest.

(** 1/10 is not a double, 2^53 + 1 neither; ties go to even. *)
Example ex_rounding :
  rnd (1 # 10) = 3602879701896397 # 36028797018963968 /\ rnd (inject_Z (2 ^ 53 + 1)) = inject_Z (2 ^ 53) /\
  rnd (inject_Z (2 ^ 53 + 3)) = inject_Z (2 ^ 53 + 4) /\ nearest_int (5 # 2) = 2 /\ nearest_int (7 # 2) = 4.
Proof. vm_compute. repeat split. Qed.

Section Times.
Context (T s : Q) (K : Z).
Context (Dt : double T) (Ds : double s) (S0 : (0 < s)%Q) (S1 : (s < 2 ^ 1024)%Q) (T0 : (2 ^ (-1074) * s <= T)%Q)
  (T1 : (T < 2 ^ 1024)%Q) (Tk : (T <= inject_Z K * s)%Q) (Kb : K <= 2 ^ 53).

Lemma quot_rnd : rnd (rnd T / rnd s) = rnd (T / s).
Proof. apply rnd_proper. rewrite (rnd_fix _ Dt), (rnd_fix _ Ds). reflexivity. Qed.

Lemma T_pos : (0 < T)%Q.
Proof. pose proof (two_pos (-1074)) as P. eapply Qlt_le_trans; [|exact T0]. rewrite <- (Qmult_0_l s). apply Qmult_lt_r; assumption. Qed.

Lemma not_huge_below q : (0 < q)%Q -> (q < 2 ^ 1024)%Q -> double q -> huge (rnd q) = false.
Proof.
  intros P L D. unfold huge. destruct (Qle_bool _ _) eqn:E; [|reflexivity]. exfalso. apply Qle_bool_iff in E.
  assert (A : (Qabs (rnd q) == q)%Q) by (rewrite (rnd_fix _ D); apply Qabs_pos; apply Qlt_le_weak; exact P).
  rewrite A in E. revert E. apply Qlt_not_le. exact L.
Qed.

Lemma steps_known : ramp_steps T s = Ok (rnd (T / s)).
Proof.
  unfold ramp_steps. rewrite (not_huge_below T T_pos T1 Dt), (not_huge_below s S0 S1 Ds).
  destruct (Qeq_bool (rnd s) 0) eqn:E.
  - apply Qeq_bool_iff in E. rewrite (rnd_fix _ Ds) in E. rewrite E in S0. exfalso. revert S0. apply Qlt_irrefl.
  - rewrite quot_rnd. reflexivity.
Qed.

Lemma steps_pos : (0 < rnd (T / s))%Q.
Proof.
  assert (D : double (2 ^ (-1074))) by (exists 1, (-1074)%Z; split; [lia|split; [lia|ring]]).
  eapply Qlt_le_trans; [apply (two_pos (-1074))|]. rewrite <- (rnd_fix _ D). apply rnd_mono.
  apply Qle_shift_div_l; [exact S0|exact T0].
Qed.

Lemma K_pos : 1 <= K.
Proof.
  apply Znot_gt_le. intros G. pose proof T_pos as P.
  assert (inject_Z K <= 0)%Q by (change 0%Q with (inject_Z 0); apply inject_le; lia).
  assert (L : (inject_Z K * s <= 0 * s)%Q) by (apply Qmult_le_compat_r; [assumption|apply Qlt_le_weak; exact S0]).
  revert P L Tk. rewrite Qmult_0_l. intros. lra.
Qed.

Lemma steps_below : 0 <= trunc (rnd (T / s)) <= K.
Proof.
  pose proof steps_pos as P. destruct (trunc_nonneg (rnd (T / s))) as [E N]; [apply Qlt_le_weak; exact P|].
  split; [exact N|]. rewrite E. pose proof K_pos.
  assert (L : (rnd (T / s) <= inject_Z K)%Q).
  { rewrite <- (rnd_int K) by lia. apply rnd_mono. apply Qle_shift_div_r; assumption. }
  apply (proj1 (inject_le _ _)). eapply Qle_trans; [apply Qfloor_le|exact L].
Qed.

Lemma sleeps : sleep_fails s = false.
Proof.
  unfold sleep_fails. rewrite (proj2 (Qle_bool_iff _ _)); [reflexivity|]. apply rnd_nonneg.
  rewrite (rnd_fix _ Ds). apply Qmult_le_0_compat; [apply Qlt_le_weak; exact S0|]. vm_compute. discriminate.
Qed.
End Times.

Lemma climb_range a l b : climb a l b -> forall P : Z -> Prop, (forall v, a <= v <= b -> P v) -> Forall P l.
Proof.
  induction 1 as [a b L|a v l b L C IH]; intros P H; constructor; [apply H; lia|constructor|apply H|].
  - enough (v <= b) by lia. clear - C. induction C; lia.
  - apply IH. intros w Hw. apply H. lia.
Qed.

Lemma ints_fit kd a b v : in_range kd a = true -> in_range kd b = true -> a <= v <= b -> in_range kd v = true.
Proof. unfold in_range. intros. lia. Qed.

Lemma zero_fits kd : in_range kd 0 = true.
Proof. destruct kd; reflexivity. Qed.

(** Every value a client shows of an integer port can be written to the port. *)
Lemma shown_value_fits fuel W nd ins outs c0 evs c l D k i kd z :
  fresh_client fuel W nd ins outs c0 -> Forall cok evs -> client_run c0 evs = (c, l) ->
  cinv (c_world c0) nd ins outs (match n_name nd with Some n => n ++ lit ".in" | None => [] end) c D k ->
  nth_error outs i = Some (TInt kd) -> nth_error (a_vals (k_node k)) i = Some (OVal (VInt z)) -> in_range kd z = true.
Proof.
  intros Fc Ok R Ivc Nt Nv.
  pose proof Fc as (W' & F' & k' & D0 & name & Nd & Cw & Kinds & Nm & Iv)%fresh_cinv. rewrite Cw, Nm in Ivc.
  assert (V0 : vals_fit outs (first_state outs D0)).
  { intros j kj w _ Nw. unfold first_state in Nw. cbn [a_vals] in Nw.
    apply node_data_inv in Nd as (_ & _ & (m & p & ini & _ & E & _) & _); [|apply Fc].
    rewrite E in Nw. cbn [s_values] in Nw. apply nth_error_In, in_map_iff in Nw as (o & Fo & _).
    unfold first_value in Fo. destruct (init_of (w_ports W o)); try discriminate. injection Fo as <-. apply zero_fits. }
  assert (Run : forall evs c D k c' l, Forall cok evs -> cinv W' nd ins outs (name ++ lit ".in") c D k -> vals_fit outs (k_node k) ->
    client_run c evs = (c', l) -> exists D' k', cinv W' nd ins outs (name ++ lit ".in") c' D' k' /\ vals_fit outs (k_node k')).
  { clear - Kinds. induction evs as [|e evs IH]; intros c D k c' l Ok Iv V R; cbn [client_run] in R; [injection R as <- <-; eauto|].
    pose proof (step_any _ _ _ _ _ Kinds c D k e Iv (Forall_inv Ok)) as (D1 & k1 & ob & cc & Mv & Iv1 & _).
    destruct (client_step c e) as [c1 x]. destruct (client_run c1 evs) as [c2 l2] eqn:R2. injection R as <- <-.
    cbn [fst snd] in *. eapply IH; [exact (Forall_inv_tail Ok)|exact Iv1| |exact R2].
    pose proof (sim_nvals _ _ _ _ _ _ _ _ (ci_sim _ _ _ _ _ _ _ _ Iv)) as Ln.
    inversion Mv; subst; cbn [k_node] in *; auto; eapply step_fits; eauto. }
  destruct (Run _ _ _ _ _ _ Ok Iv V0 R) as (D2 & k2 & Iv2 & V2).
  assert (D2 = D) as -> by (pose proof (ci_node _ _ _ _ _ _ _ _ Iv2); pose proof (ci_node _ _ _ _ _ _ _ _ Ivc); congruence).
  apply (V2 i kd z Nt). rewrite <- (sim_vals _ _ _ _ _ _ _ _ (ci_sim _ _ _ _ _ _ _ _ Iv2)), (sim_vals _ _ _ _ _ _ _ _ (ci_sim _ _ _ _ _ _ _ _ Ivc)).
  exact Nv.
Qed.

Lemma named_unique W nd s i o : named W nd s true i -> nth_error (n_provide nd) i = Some o -> kinds_ok W nd ->
  node_find W nd (Some s) = Some (FPort o) /\ pt_provide (w_ports W o) = true.
Proof.
  intros N No K. split; [eapply named_find; eauto|]. apply (proj2 K). eapply nth_error_In; eauto.
Qed.

(** What a ramp is, once its port and its values are known. *)
Lemma ramp_opens fuel W nd ins outs c0 evs c l name i o a b T s K vals idle :
  fresh_client fuel W nd ins outs c0 -> Forall cok evs -> client_run c0 evs = (c, l) ->
  named (c_world c0) nd name true i -> nth_error (n_provide nd) i = Some o ->
  snd (client_read c (IdName name)) = Done (Some (OVal (VInt a))) -> a <> b ->
  double T -> double s -> (0 < s)%Q -> (s < 2 ^ 1024)%Q -> (2 ^ (-1074) * s <= T)%Q -> (T < 2 ^ 1024)%Q ->
  (T <= inject_Z K * s)%Q -> K <= 2 ^ 53 ->
  ramp_values a b (rnd (T / s)) = Ok vals -> vals <> [] ->
  ramp c name b T s idle = ramp_sets c o vals idle.
Proof.
  intros Fc Ok R Nm No Rd Ne Dt Ds S0 S1 T0 T1 Tk Kb Rv Nv.
  pose proof Fc as (W' & F' & k' & D0 & nname & Nd & Cw & Kinds & Nn & Iv)%fresh_cinv. rewrite Cw in *.
  destruct (run_any _ _ _ _ _ Kinds _ _ _ _ _ _ Iv Ok R) as (D1 & k1 & _ & _ & _ & Iv1 & _).
  pose proof (cinv_ids _ _ _ _ _ _ _ _ Iv1) as Ids.
  destruct (named_unique _ _ _ _ _ Nm No Kinds) as [Fd Pv].
  assert (Rp : client_read c (IdPort o) = (c, Done (Some (OVal (VInt a))))).
  { assert (Pi : picks W' nd (IdName name) false true i) by (apply pk_name; auto).
    assert (Po : picks W' nd (IdPort o) false true i) by (apply pk_object; auto).
    assert (Same : client_read c (IdPort o) = client_read c (IdName name)).
    { unfold client_read. rewrite (ci_node _ _ _ _ _ _ _ _ Iv1), (ci_world _ _ _ _ _ _ _ _ Iv1).
      rewrite (read_target_picks W' nd Ids Kinds _ _ _ Pi), (read_target_picks W' nd Ids Kinds _ _ _ Po). reflexivity. }
    rewrite Same. assert (fst (client_read c (IdName name)) = c).
    { unfold client_read. rewrite (ci_node _ _ _ _ _ _ _ _ Iv1), (ci_world _ _ _ _ _ _ _ _ Iv1).
      rewrite (read_target_picks W' nd Ids Kinds _ _ _ Pi). reflexivity. }
    destruct (client_read c (IdName name)) as [c1 x]. cbn [fst snd] in *. congruence. }
  unfold ramp. unfold client_find. rewrite (ci_node _ _ _ _ _ _ _ _ Iv1), (ci_world _ _ _ _ _ _ _ _ Iv1).
  rewrite Fd, Pv. cbn [negb]. rewrite Rp. rewrite (steps_known T s Dt Ds S0 S1 T0 T1). cbn [bind].
  rewrite Rv. destruct vals as [|v vals]; [contradiction|]. rewrite (sleeps s Ds S0). reflexivity.
Qed.

Lemma last_firstn (j : nat) : forall (vals : list Z) v, nth_error vals j = Some v -> last (map Some (firstn (S j) vals)) None = Some v.
Proof.
  induction j as [|j IH]; intros [|x vals] v Nj; try discriminate; cbn [nth_error] in Nj.
  - injection Nj as <-. reflexivity.
  - specialize (IH _ _ Nj). destruct vals as [|y vals]; [destruct j; discriminate|]. exact IH.
Qed.

(** A ramp from [a] up to [b]: in time [T] with steps of [s], for Python floats (or
    ints that are floats), at most [K] steps where [K] times the values stays below
    2^50.  Whatever the other threads do meanwhile, the ramp completes and the port
    shows values that climb from [a] to [b]. *)
Theorem ramp_climbs fuel W nd ins outs c0 evs c l name i kd a b T s K idle :
  fresh_client fuel W nd ins outs c0 -> Forall cok evs -> client_run c0 evs = (c, l) ->
  Forall always_readable ins -> unlocked c ->
  named (c_world c0) nd name true i -> nth_error outs i = Some (TInt kd) ->
  snd (client_read c (IdName name)) = Done (Some (OVal (VInt a))) -> a < b -> in_range kd b = true ->
  double T -> double s -> (0 < s)%Q -> (s < 2 ^ 1024)%Q -> (2 ^ (-1074) * s <= T)%Q -> (T < 2 ^ 1024)%Q ->
  (T <= inject_Z K * s)%Q -> K * Z.max (Z.abs a) (Z.abs b) <= 2 ^ 50 ->
  Forall (Forall passive) idle -> Forall (Forall cok) idle ->
  exists o vals, nth_error (n_provide nd) i = Some o /\ climb a vals b /\
    ramp c name b T s idle = (fst (client_run c (weave o vals idle)), Done tt) /\
    (forall j v, nth_error vals j = Some v ->
       snd (client_read (fst (client_run c (weave o (firstn (S j) vals) idle))) (IdName name)) = Done (Some (OVal (VInt v)))) /\
    (forall t u : Z, (T == inject_Z t)%Q -> (s == inject_Z u)%Q -> t < 2 ^ 53 -> u <= 2 ^ 53 ->
       len vals = Z.max 1 (t / u)).
Proof.
  intros Fc Ok R Rdb Ul Nm Nt Rd Lt Rb Dt Ds S0 S1 T0 T1 Tk Kb Pi Ci.
  pose proof Fc as (W' & F' & k' & D0 & nname & Nd & Cw & Kinds & Nn & Iv)%fresh_cinv.
  pose proof Nm as (o & No & _). cbn [ports_of] in No.
  destruct (run_any _ _ _ _ _ Kinds _ _ _ _ _ _ Iv Ok R) as (D1 & k1 & _ & _ & _ & Iv1 & _).
  pose proof (cinv_ids _ _ _ _ _ _ _ _ Iv1) as Ids.
  assert (St : a_stuck (k_node k1) = false).
  { destruct Ul as (nd' & D' & Cn & Ul). rewrite (ci_node _ _ _ _ _ _ _ _ Iv1) in Cn. injection Cn as <- <-.
    rewrite <- (sim_lock _ _ _ _ _ _ _ _ (ci_sim _ _ _ _ _ _ _ _ Iv1)). exact Ul. }
  assert (Pn : picks W' nd (IdName name) false true i) by (rewrite Cw in Nm; apply pk_name; auto).
  assert (Va : nth_error (a_vals (k_node k1)) i = Some (OVal (VInt a))).
  { pose proof (sim_nvals _ _ _ _ _ _ _ _ (ci_sim _ _ _ _ _ _ _ _ Iv1)) as Ln.
    destruct (nth_error (a_vals (k_node k1)) i) as [v|] eqn:Nv.
    - rewrite (read_port _ _ _ _ _ Ids Kinds _ _ _ _ _ _ Iv1 Pn Nv) in Rd. cbn [snd] in Rd. congruence.
    - apply nth_error_None in Nv. assert (i < length outs)%nat by (apply nth_error_Some; congruence). lia. }
  assert (Ra : in_range kd a = true).
  { eapply shown_value_fits with (c := c) (D := D1) (k := k1); eauto. rewrite Cw, Nn. exact Iv1. }
  pose proof (K_pos T s K S0 T0 Tk) as K1.
  assert (Kb' : K <= 2 ^ 53) by nia.
  assert (Mb : Z.max (Z.abs a) (Z.abs b) <= 2 ^ 50) by nia.
  pose proof (steps_pos T s S0 T0) as Sp. pose proof (steps_below T s K S0 T0 Tk Kb') as Sb.
  assert (Sm : small (trunc (rnd (T / s))) a b) by (unfold small; nia).
  assert (Ne : a <> b) by lia.
  pose proof (values_shape a b _ Mb Ne Sp Sm) as Vs. pose proof (values_climb a b _ Mb Ne Sp Sm Lt) as Vc.
  match type of Vs with _ = Py.Ok ?x => set (vals := x) in * end.
  assert (Fit : Forall (fun z => in_range kd z = true) vals) by (eapply climb_range; [exact Vc|]; intros v Hv; exact (ints_fit kd a b v Ra Rb Hv)).
  exists o, vals. split; [exact No|]. split; [exact Vc|]. split; [|split].
  - assert (Nv : vals <> []) by (intros E; rewrite E in Vc; inversion Vc).
    rewrite (ramp_opens fuel W nd ins outs c0 evs c l name i o a b T s K vals idle Fc Ok R Nm No Rd Ne Dt Ds S0 S1 T0 T1 Tk Kb' Vs Nv).
    destruct (ramp_sets_run _ _ _ _ _ Ids Kinds (fc_rins _ _ _ _ _ _ Fc) Rdb o i kd (fc_routs _ _ _ _ _ _ Fc) No Nt vals Fit idle c D1 k1 Pi Ci Iv1 St)
      as (D2 & k2 & c2 & Rs & Rr & _). rewrite Rs, Rr. reflexivity.
  - intros j v Nj. assert (Fj : Forall (fun z => in_range kd z = true) (firstn (S j) vals)).
    { apply Forall_forall. intros z Hz. rewrite <- (firstn_skipn (S j) vals) in Fit. apply Forall_app in Fit as [Fit _].
      eapply Forall_forall in Fit; eauto. }
    destruct (ramp_sets_run _ _ _ _ _ Ids Kinds (fc_rins _ _ _ _ _ _ Fc) Rdb o i kd (fc_routs _ _ _ _ _ _ Fc) No Nt _ Fj idle c D1 k1 Pi Ci Iv1 St)
      as (D2 & k2 & c2 & Rs & Rr & Iv2 & S2 & V2). rewrite Rr.
    rewrite (read_port _ _ _ _ _ (cinv_ids _ _ _ _ _ _ _ _ Iv2) Kinds _ _ _ _ _ _ Iv2 Pn (V2 v (last_firstn _ _ _ Nj))). reflexivity.
  - intros t u Et Eu Tb Ub. pose proof (T_pos T s S0 T0) as Tp.
    assert (0 < t) by (apply (proj1 (inject_lt _ _)); rewrite <- Et; exact Tp).
    assert (0 < u) by (apply (proj1 (inject_lt _ _)); rewrite <- Eu; exact S0).
    assert (Eq : trunc (rnd (T / s)) = t / u).
    { rewrite <- (float_division t u) by lia. f_equal. apply rnd_proper. rewrite !rnd_int by lia. rewrite Et, Eu. reflexivity. }
    unfold vals, len. rewrite app_length, loop_length, Eq. cbn [length]. assert (0 <= t / u) by (apply Z.div_pos; lia). lia.
Qed.
Print Assumptions ramp_climbs.

(** A ramp from [a] down to [b]: all values but the last one are at or above [a],
    that is, they move away from the target. *)
Theorem falling_ramp_moves_away fuel W nd ins outs c0 evs c l name i a b T s K idle :
  fresh_client fuel W nd ins outs c0 -> Forall cok evs -> client_run c0 evs = (c, l) ->
  named (c_world c0) nd name true i ->
  snd (client_read c (IdName name)) = Done (Some (OVal (VInt a))) -> b < a ->
  double T -> double s -> (0 < s)%Q -> (s < 2 ^ 1024)%Q -> (2 ^ (-1074) * s <= T)%Q -> (T < 2 ^ 1024)%Q ->
  (T <= inject_Z K * s)%Q -> K * Z.max (Z.abs a) (Z.abs b) <= 2 ^ 50 ->
  exists o up, nth_error (n_provide nd) i = Some o /\ Forall (fun v => a <= v) up /\
    ramp c name b T s idle = ramp_sets c o (up ++ [b]) idle /\
    (forall t u : Z, (T == inject_Z t)%Q -> (s == inject_Z u)%Q -> t < 2 ^ 53 -> u <= 2 ^ 53 ->
       len up = Z.max 0 (t / u - 1)).
Proof.
  intros Fc Ok R Nm Rd Lt Dt Ds S0 S1 T0 T1 Tk Kb.
  pose proof Nm as (o & No & _). cbn [ports_of] in No.
  pose proof (K_pos T s K S0 T0 Tk) as K1.
  assert (Kb' : K <= 2 ^ 53) by nia.
  assert (Mb : Z.max (Z.abs a) (Z.abs b) <= 2 ^ 50) by nia.
  pose proof (steps_pos T s S0 T0) as Sp. pose proof (steps_below T s K S0 T0 Tk Kb') as Sb.
  assert (Sm : small (trunc (rnd (T / s))) a b) by (unfold small; nia).
  assert (Ne : a <> b) by lia.
  pose proof (values_shape a b _ Mb Ne Sp Sm) as Vs. pose proof (step_nonneg a b _ Mb Ne Sp) as Sn.
  match type of Vs with _ = Py.Ok (?x ++ _) => set (up := x) in * end.
  exists o, up. split; [exact No|]. split; [|split].
  - pose proof (loop_up _ Sn (Z.to_nat (trunc (rnd (T / s)) - 1)) (inject_Z a)) as F. rewrite nearest_rnd_int in F by lia. exact F.
  - assert (Nv : up ++ [b] <> []) by (intros E; destruct up; discriminate).
    exact (ramp_opens fuel W nd ins outs c0 evs c l name i o a b T s K _ idle Fc Ok R Nm No Rd Ne Dt Ds S0 S1 T0 T1 Tk Kb' Vs Nv).
  - intros t u Et Eu Tb Ub. pose proof (T_pos T s S0 T0) as Tp.
    assert (0 < t) by (apply (proj1 (inject_lt _ _)); rewrite <- Et; exact Tp).
    assert (0 < u) by (apply (proj1 (inject_lt _ _)); rewrite <- Eu; exact S0).
    assert (Eq : trunc (rnd (T / s)) = t / u).
    { rewrite <- (float_division t u) by lia. f_equal. apply rnd_proper. rewrite !rnd_int by lia. rewrite Et, Eu. reflexivity. }
    unfold up, len. rewrite loop_length, Eq. assert (0 <= t / u) by (apply Z.div_pos; lia). lia.
Qed.
Print Assumptions falling_ramp_moves_away.

(** A ramp to the current value does nothing. *)
Theorem ramp_to_itself fuel W nd ins outs c0 evs c l name i a T s steps idle :
  fresh_client fuel W nd ins outs c0 -> Forall cok evs -> client_run c0 evs = (c, l) ->
  named (c_world c0) nd name true i ->
  snd (client_read c (IdName name)) = Done (Some (OVal (VInt a))) ->
  ramp_steps T s = Py.Ok steps -> ramp c name a T s idle = (c, Done tt).
Proof.
  intros Fc Ok R Nm Rd Rs.
  pose proof Nm as (o & No & _). cbn [ports_of] in No.
  pose proof Fc as (W' & F' & k' & D0 & nname & Nd & Cw & Kinds & Nn & Iv)%fresh_cinv. rewrite Cw in *.
  destruct (run_any _ _ _ _ _ Kinds _ _ _ _ _ _ Iv Ok R) as (D1 & k1 & _ & _ & _ & Iv1 & _).
  pose proof (cinv_ids _ _ _ _ _ _ _ _ Iv1) as Ids.
  destruct (named_unique _ _ _ _ _ Nm No Kinds) as [Fd Pv].
  assert (Pi : picks W' nd (IdName name) false true i) by (apply pk_name; auto).
  assert (Po : picks W' nd (IdPort o) false true i) by (apply pk_object; auto).
  unfold ramp, client_find. unfold client_read in *. rewrite (ci_node _ _ _ _ _ _ _ _ Iv1), (ci_world _ _ _ _ _ _ _ _ Iv1) in *.
  rewrite (read_target_picks W' nd Ids Kinds _ _ _ Pi) in Rd. rewrite Fd, Pv. cbn [negb].
  rewrite (read_target_picks W' nd Ids Kinds _ _ _ Po). cbn [negb] in *. cbn [snd] in Rd. rewrite Rd, Rs. cbn [bind].
  unfold ramp_values. rewrite Z.eqb_refl. reflexivity.
Qed.
Print Assumptions ramp_to_itself.

(** ** Long ramps: rounding errors sum up *)

Lemma last_place_21 m (d : Q) : 2 ^ 52 <= m < 2 ^ 53 - 1 -> (1 # 2 < d)%Q -> (d < 1)%Q ->
  (rnd (inject_Z m * 2 ^ (-21) + d * 2 ^ (-21)) == inject_Z (m + 1) * 2 ^ (-21))%Q.
Proof.
  intros M D0 D1. set (q := (inject_Z m * 2 ^ (-21) + d * 2 ^ (-21))%Q).
  assert (P : (0 < 2 ^ (-21))%Q) by reflexivity.
  assert (Eq : (q == (inject_Z m + d) * 2 ^ (-21))%Q) by (unfold q; ring).
  assert (Ml : (inject_Z (2 ^ 52) <= inject_Z m)%Q) by (apply inject_le; lia).
  assert (Mu : (inject_Z m + 2 <= inject_Z (2 ^ 53))%Q) by (change 2%Q with (inject_Z 2); rewrite <- inject_Z_plus; apply inject_le; lia).
  set (b52 := inject_Z (2 ^ 52)) in *. set (b53 := inject_Z (2 ^ 53)) in *.
  assert (B52 : (0 < b52)%Q) by reflexivity.
  assert (Qp : (0 < q)%Q) by (rewrite Eq; rewrite <- (Qmult_0_l (2 ^ (-21))); apply Qmult_lt_r; [exact P|lra]).
  destruct (rnd_shape q) as (e & Le & Sh & Hi & Lo); [lra|]. fold b52 b53 in Hi, Lo.
  assert (Aq : forall e, (Qabs (q / 2 ^ e) == (inject_Z m + d) * 2 ^ (-21 - e))%Q).
  { intros x. rewrite Qabs_pos.
    - rewrite Eq. replace (-21 - x) with (-21 + - x) by lia. rewrite two_plus, (Qpower_opp 2 x). unfold Qdiv. ring.
    - apply Qle_shift_div_l; [apply two_pos|]. rewrite Qmult_0_l. apply Qlt_le_weak. exact Qp. }
  rewrite Aq in Hi, Lo.
  assert (e = -21).
  { destruct (Z.lt_trichotomy e (-21)) as [L|[L|L]]; [exfalso|exact L|exfalso].
    - assert (K : (2 ^ 1 <= 2 ^ (-21 - e))%Q) by (apply two_mono; lia). change (2 ^ 1)%Q with 2%Q in K.
      assert (Hm : (0 <= inject_Z m + d)%Q) by lra.
      assert (K2 : ((inject_Z m + d) * 2 <= (inject_Z m + d) * 2 ^ (-21 - e))%Q) by (rewrite !(Qmult_comm (inject_Z m + d)); apply Qmult_le_compat_r; assumption).
      assert (b53 == 2 * b52)%Q by reflexivity. lra.
    - destruct Lo as [->|Lo]; [lia|].
      assert (K : (2 ^ (-21 - e) <= 2 ^ (-1))%Q) by (apply two_mono; lia). change (2 ^ (-1))%Q with (1 # 2)%Q in K.
      assert (Hm : (0 <= inject_Z m + d)%Q) by lra.
      assert (K2 : ((inject_Z m + d) * 2 ^ (-21 - e) <= (inject_Z m + d) * (1 # 2))%Q) by (rewrite !(Qmult_comm (inject_Z m + d)); apply Qmult_le_compat_r; assumption).
      assert (b53 == 2 * b52)%Q by reflexivity. lra. }
  subst e. rewrite Sh.
  assert (Ni : nearest_int (q / 2 ^ (-21)) = m + 1).
  { assert (Ey : (q / 2 ^ (-21) == inject_Z m + d)%Q) by (rewrite Eq; field; discriminate).
    rewrite (nearest_int_proper _ _ Ey). pose proof (nearest_int_half (inject_Z m + d)) as Nh. apply abs_le in Nh.
    apply Z.le_antisymm; apply Znot_gt_le; intros G.
    - assert (inject_Z (m + 2) <= inject_Z (nearest_int (inject_Z m + d)))%Q by (apply inject_le; lia).
      rewrite inject_Z_plus in *. change (inject_Z 2) with 2%Q in *. lra.
    - assert (inject_Z (nearest_int (inject_Z m + d)) <= inject_Z m)%Q by (apply inject_le; lia). lra. }
  rewrite Ni. reflexivity.
Qed.

Lemma long_loop (step : Q) d : (step == d * 2 ^ (-21))%Q -> (1 # 2 < d)%Q -> (d < 1)%Q -> forall n k m x, (x == inject_Z m * 2 ^ (-21))%Q ->
  2 ^ 52 <= m -> m + Z.of_nat n < 2 ^ 53 - 1 -> (k < n)%nat ->
  nth_error (ramp_loop n x step) k = Some (nearest_int (inject_Z (m + 1 + Z.of_nat k) * 2 ^ (-21))).
Proof.
  intros Es D0 D1. induction n as [|n IH]; intros k m x Ex M1 M2 Kn; [lia|]. cbn [ramp_loop].
  assert (Dx : double (inject_Z m * 2 ^ (-21))) by (exists m, (-21); split; [lia|split; [lia|reflexivity]]).
  assert (E : (rnd (rnd x + step) == inject_Z (m + 1) * 2 ^ (-21))%Q).
  { rewrite <- (last_place_21 m d) by (auto; lia). erewrite rnd_proper; [reflexivity|].
    rewrite (rnd_proper _ _ Ex), (rnd_fix _ Dx), Es. reflexivity. }
  destruct k as [|k]; cbn [nth_error].
  - f_equal. replace (m + 1 + Z.of_nat 0) with (m + 1) by lia. apply nearest_int_proper. exact E.
  - rewrite (IH k (m + 1) _ E) by lia. f_equal. f_equal. f_equal. f_equal. lia.
Qed.

(** The bound of [ramp_climbs] is needed: a ramp of 4000 seconds in steps of one
    millisecond, from 2^31 to 2^31 + 1, passes through 2^31 + 2. *)
Theorem long_ramp_stays_between_refuted :
  exists vals, ramp_steps (inject_Z 4000000) 1 = Py.Ok (inject_Z 4000000) /\
    ramp_values (2 ^ 31) (2 ^ 31 + 1) (inject_Z 4000000) = Py.Ok vals /\ In (2 ^ 31 + 2) vals.
Proof.
  assert (Es : ramp_steps (inject_Z 4000000) 1 = Py.Ok (inject_Z 4000000)) by (vm_compute; reflexivity).
  set (step := rnd (rnd (inject_Z 1) / inject_Z 4000000)).
  exists (ramp_loop (Z.to_nat 3999999) (inject_Z (2 ^ 31)) step ++ [2 ^ 31 + 1]). split; [exact Es|]. split.
  - unfold ramp_values. replace (2 ^ 31 =? 2 ^ 31 + 1) with false by reflexivity. replace (2 ^ 31 <? 2 ^ 31 + 1) with true by reflexivity.
    cbv zeta. replace (2 ^ 31 + 1 - 2 ^ 31) with 1 by reflexivity. fold step.
    replace (huge (rnd (inject_Z 1))) with false by (vm_compute; reflexivity).
    replace (Qeq_bool (inject_Z 4000000) 0) with false by (vm_compute; reflexivity).
    replace (huge (inject_Z 4000000)) with false by (vm_compute; reflexivity).
    replace (trunc (inject_Z 4000000)) with 4000000 by (vm_compute; reflexivity).
    replace (4000000 - 1) with 3999999 by reflexivity. reflexivity.
  - apply in_or_app. left. apply nth_error_In with (n := Z.to_nat 3999998).
    rewrite (long_loop step (step * 2 ^ 21)) with (m := 2 ^ 52).
    + rewrite Z2Nat.id by discriminate. vm_compute. reflexivity.
    + change (2 ^ (-21))%Q with (/ 2 ^ 21)%Q. field.
    + vm_compute. reflexivity.
    + vm_compute. reflexivity.
    + vm_compute. reflexivity.
    + lia.
    + rewrite Z2Nat.id; lia.
    + lia.
Qed.
Print Assumptions long_ramp_stays_between_refuted.

(** ** Examples: the node of tests/tester_test.py *)

Definition ramp_text : str := lit "APX/1.2
N""Tester""
T""VehicleSpeed_T""S
T""EngineSpeed_T""S
P""VehicleSpeed""T[""VehicleSpeed_T""]:=65535
P""EngineSpeed""T[""EngineSpeed_T""]:=65535
".
Definition speed : str := lit "VehicleSpeed".

Definition ramp_from (first : list cev) (target : Z) (T s : Q) (idle : list (list cev)) :=
  match client_with ramp_text with
  | Some (_, _, c) => let c := fst (client_run c first) in Some (ramp c speed target T s idle)
  | None => None
  end.
Definition shows_speed (x : option (client * pres unit)) : option (pres unit * pres (option oval)) :=
  match x with Some (c, r) => Some (r, snd (client_read c (IdName speed))) | None => None end.

(** The ramp of the test: the values between are those of an even division. *)
Example ex_ramp : ramp_values 0 65535 (inject_Z 5) = Py.Ok [13107; 26214; 39321; 52428; 65535] /\
  shows_speed (ramp_from [CWrite (IdName speed) (VInt 0); CStart; CConnect 5%nat] 65535 (inject_Z 100) (inject_Z 20)
    [[CWork]; [CMsg (open_msg 0); CWork]; []; [CWork; CWork]]) = Some (Done tt, Done (Some (OVal (VInt 65535)))).
Proof. vm_compute. split; reflexivity. Qed.

(** Fractions of milliseconds, negative values and a number of steps that does not
    divide the distance. *)
Example ex_fractions : ramp_steps (5 # 2) (3 # 4) = Py.Ok (7505999378950827 # 2251799813685248) /\
  ramp_values (-7) 4 (7505999378950827 # 2251799813685248) = Py.Ok [-4; 0; 4].
Proof. vm_compute. split; reflexivity. Qed.

Lemma ramp_facts :
  match client_with ramp_text with
  | Some (W, nd, c) =>
    n_require nd = [] /\ n_provide nd = [0%nat; 1%nat] /\ length (n_types nd) = 2%nat /\
    map (fun o => dt_name (w_types (c_world c) o)) (n_types nd) = [Some (lit "VehicleSpeed_T"); Some (lit "EngineSpeed_T")] /\
    map (fun o => denote 100 (w_types (c_world c)) (pt_elem (w_ports (c_world c) o))) [0; 1]%nat = map Some [TInt U16; TInt U16] /\
    map (fun o => pt_provide (w_ports W o)) [0; 1]%nat = [true; true] /\
    pt_name (w_ports (c_world c) 0%nat) = Some speed
  | None => False
  end.
Proof. vm_compute. repeat split. Qed.

Example ramp_client : exists W nd c, client_with ramp_text = Some (W, nd, c) /\
  fresh_client 100 W nd [] [TInt U16; TInt U16] c /\ named (c_world c) nd speed true 0.
Proof.
  pose proof ramp_facts as X. destruct (client_with ramp_text) as [[[W nd] c]|] eqn:E; [|contradiction].
  destruct X as (R & P & Lt & Tn & M & V & Nm). exists W, nd, c. split; [reflexivity|].
  apply client_with_inv in E as [_ A]. apply map_forall2 in M. cbn [map] in V. injection V as V1 V2. split.
  - constructor.
    + unfold separate. rewrite R. cbn [In]. intros o. tauto.
    + split; rewrite ?R, ?P; cbn [In]; intros o; [tauto|]. intros [<-|[<-|[]]]; assumption.
    + exact A.
    + rewrite R. constructor.
    + rewrite P. eapply Forall2_weaken; [|exact M]. intros o t D. exists 100%nat. apply denote_sound. exact D.
    + constructor.
    + repeat (apply Forall_cons || apply Forall_nil || split); cbn; try lia; try discriminate; repeat constructor; lia.
    + constructor.
  - exists 0%nat. cbn [ports_of]. rewrite P, R. split; [reflexivity|]. split; [exact Nm|]. split; [|split].
    + intros t It. apply (in_map (fun o => dt_name (w_types (c_world c) o))) in It. rewrite Tn in It.
      destruct It as [<-|[<-|[]]]; discriminate.
    + intros j o' J. lia.
    + intros _ o' [].
Qed.

(** The hypotheses of [ramp_climbs] can be met: here is such a ramp. *)
Example ex_climbs : exists vals, climb 0 vals 65535 /\ len vals = 5.
Proof.
  destruct ramp_client as (W & nd & c & Cw & Fc & Nm).
  assert (K : match client_after ramp_text [CWrite (IdName speed) (VInt 0)] with
    | Some (c1, _) => snd (client_read c1 (IdName speed)) = Done (Some (OVal (VInt 0))) /\
        match c_node c1 with Some (_, D) => d_locked D = false | None => False end
    | None => False end) by (vm_compute; split; reflexivity).
  rewrite (client_after_with _ _ _ _ _ Cw) in K.
  destruct (client_run c [CWrite (IdName speed) (VInt 0)]) as [c1 l1] eqn:R. destruct K as [K1 K2].
  destruct (ramp_climbs 100 W nd [] [TInt U16; TInt U16] c [CWrite (IdName speed) (VInt 0)] c1 l1 speed 0 U16 0 65535
    (inject_Z 100) (inject_Z 20) 5 [] Fc) as (o & vals & _ & Cl & _ & _ & Ln).
  - repeat constructor.
  - exact R.
  - constructor.
  - destruct (c_node c1) as [[nd1 D1]|] eqn:Cn; [|contradiction]. exists nd1, D1. auto.
  - exact Nm.
  - reflexivity.
  - exact K1.
  - lia.
  - reflexivity.
  - apply double_int. lia.
  - apply double_int. lia.
  - reflexivity.
  - vm_compute. reflexivity.
  - vm_compute. discriminate.
  - vm_compute. reflexivity.
  - vm_compute. discriminate.
  - vm_compute. discriminate.
  - constructor.
  - constructor.
  - exists vals. split; [exact Cl|]. rewrite (Ln 100 20); try reflexivity; lia.
Qed.

(** Falling: the first step already leaves the range of the port.  The machine
    refuses the value, the ramp raises, the port keeps its value and from now on
    every write waits for ever. *)
Theorem falling_ramp_reaches_target_refuted :
  ramp_values 60000 0 (inject_Z 5) = Py.Ok [72000; 84000; 96000; 108000; 0] /\
  match ramp_from [CWrite (IdName speed) (VInt 60000)] 0 (inject_Z 100) (inject_Z 20) [] with
  | Some (c, r) => r = Raised StructError /\ snd (client_read c (IdName speed)) = Done (Some (OVal (VInt 60000))) /\
      snd (client_write c (IdName speed) (VInt 1)) = Blocked
  | None => False
  end.
Proof. vm_compute. repeat split; reflexivity. Qed.
Print Assumptions falling_ramp_reaches_target_refuted.

(** A port that has its initial value cannot be ramped: its value is no number yet. *)
Theorem ramp_of_initial_value_refuted :
  shows_speed (ramp_from [] 0 (inject_Z 100) (inject_Z 20) []) =
    Some (Raised TypeError, Done (Some (OInit (IVInt 65535)))).
Proof. vm_compute. reflexivity. Qed.
Print Assumptions ramp_of_initial_value_refuted.

(** The other ways to fail. *)
Example ex_ramp_errors :
  map (fun x => option_map fst (shows_speed x))
    [ramp_from [CWrite (IdName speed) (VInt 0)] 9 (inject_Z 100) 0 [];
     ramp_from [CWrite (IdName speed) (VInt 0)] 9 0 (inject_Z 20) [];
     ramp_from [CWrite (IdName speed) (VInt 0)] 9 (inject_Z 100) (inject_Z (-20)) [];
     ramp_from [CWrite (IdName speed) (VInt 0)] 9 (inject_Z (2 ^ 1024)) 1 []] =
  [Some (Raised ZeroDivisionError); Some (Raised ZeroDivisionError); Some (Raised ValueError); Some (Raised OverflowError)].
Proof. vm_compute. reflexivity. Qed.
