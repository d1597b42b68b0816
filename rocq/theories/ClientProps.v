(** Properties C51, C56 and C57: clients, from a write to a read. *)
From Coq Require Import ZifyBool ZifyNat Lia.
From Verif Require Import Py PyLemmas TypesModel CompilerModel VmModel TypesSpec TypesProofs VmUnpackProofs VmProps
  TextModel SigModel AttrModel NodeModel NodeProofs ParserModel RmfModel RmfSpec RmfProofs FileModel FileProofs
  FileMapSpec FileMapProofs ManagerModel ManagerSpec ManagerProofs ManagerProps
  NodeDataModel NodeDataSpec NodeDataProofs NodeInitProofs NodeDataProps ClientModel ClientSpec ClientProofs.
Ltac Zify.zify_post_hook ::= Z.div_mod_to_equations.

(** A client right after [attach_node], for a node whose ports mean these types. *)
Record fresh_client (fuel : nat) (W : world) (nd : node) (ins outs : list ty) (c0 : client) : Prop := {
  fc_separate : separate nd;
  fc_kinds : kinds_ok W nd;
  fc_attached : attach_node fuel (new_client W) nd = Ok c0;
  fc_ins : Forall2 (port_means (c_world c0)) (n_require nd) ins;
  fc_outs : Forall2 (port_means (c_world c0)) (n_provide nd) outs;
  fc_rins : Forall regular ins;
  fc_routs : Forall regular outs;
  fc_pleasant : Forall pleasant ins
}.

Lemma fresh_cinv fuel W nd ins outs c0 : fresh_client fuel W nd ins outs c0 ->
  exists W' F' k' D name, node_data fuel W nd no_files 0 = Ok (W', F', k', D) /\ c_world c0 = W' /\ kinds_ok W' nd /\
  n_name nd = Some name /\
  cinv W' nd ins outs (name ++ lit ".in") c0 (with_client D true) (mk_cstate (first_state outs D) None false).
Proof.
  intros [Sep Kinds At Mi Mo Ri Ro Pl].
  pose proof At as (W' & F' & k' & D & Nd & Wd & _)%attach_inv. rewrite Wd in Mi, Mo.
  destruct (first_cinv _ _ _ _ _ _ _ _ _ _ At Nd Sep Kinds Mi Mo Ri Ro Pl) as (K & name & Nm & Iv).
  exists W', F', k', D, name. auto 6.
Qed.

(** ** C57 *)

(** What can be seen of the abstract client in the model. *)
Definition client_shows (c : client) (nd : node) (k : cstate) : Prop :=
  exists D, c_node c = Some (nd, D) /\ pictures (fm_heap (c_fm c)) D (k_node k) /\ c_hung c = k_hung k /\
  forall f, d_in D = Some f ->
    match k_box k with
    | Some b => f_isOpen (fm_heap (c_fm c) f) = true /\ f_address (fm_heap (c_fm c) f) = Some b
    | None => f_isOpen (fm_heap (c_fm c) f) = false
    end.

Lemma cinv_shows W nd ins outs inname c D k : cinv W nd ins outs inname c D k -> client_shows c nd k.
Proof.
  intros [Wd Nd Hg Sm Im Om Ad Lo Bx]. exists D. split; [exact Nd|]. split; [eapply sim_pictures; exact Sm|]. split; [exact Hg|].
  intros f Df. unfold boxed in Bx. rewrite Df in Bx. destruct Bx as (_ & _ & Bx). destruct (k_box k); [|apply Bx].
  destruct Bx as (_ & _ & A & B). auto.
Qed.

(** The first state: initial bytes and values, nothing opened. *)
Definition first_cstate (c0 : client) (outs : list ty) (k : cstate) : Prop :=
  exists nd D, c_node c0 = Some (nd, D) /\ k = mk_cstate (first_state outs D) None false.

(** For every history of writes, reads, messages (any bytes), connections and
    worker turns, a client answers and calls its listener as the abstract client. *)
Theorem client_refines fuel W nd ins outs c0 evs c l : fresh_client fuel W nd ins outs c0 -> Forall cok evs ->
  client_run c0 evs = (c, l) ->
  exists name k0 k calls, n_name nd = Some name /\ first_cstate c0 outs k0 /\ client_shows c0 nd k0 /\
    cmoves (c_world c0) nd ins outs (name ++ lit ".in") k0 false evs k calls l /\
    client_shows c nd k /\ heard_as nd (c_calls c) calls.
Proof.
  intros Fc Ok R. pose proof Fc as (W' & F' & k' & D & name & Nd & -> & Kinds & Nm & Iv)%fresh_cinv.
  pose proof (fc_attached _ _ _ _ _ _ Fc) as (W1 & F1 & k1 & D1 & Nd1 & _ & Cn & Ls & Cs & _)%attach_inv.
  destruct (run_any _ _ _ _ _ Kinds _ _ _ _ _ _ Iv Ok R) as (D' & k2 & objs & calls & Ms & Iv2 & Hd & Cc).
  rewrite Ls in Ms. rewrite Cs in Cc. cbn [app] in Cc. subst objs.
  exists name. eexists. exists k2, calls. split; [exact Nm|]. split; [|split; [|split; [exact Ms|split; [|exact Hd]]]].
  - exists nd, (with_client D true). split; [|reflexivity]. rewrite (ci_node _ _ _ _ _ _ _ _ Iv). reflexivity.
  - eapply cinv_shows; exact Iv.
  - eapply cinv_shows; exact Iv2.
Qed.
Print Assumptions client_refines.

(** ** The sender *)

Lemma client_run_app a : forall b c, client_run c (a ++ b) =
  let '(c1, l1) := client_run c a in let '(c2, l2) := client_run c1 b in (c2, l1 ++ l2).
Proof.
  induction a as [|e a IH]; intros b c; cbn [client_run app].
  - destruct (client_run c b). reflexivity.
  - destruct (client_step c e) as [c1 x]. rewrite IH. destruct (client_run c1 a) as [c2 l2].
    destruct (client_run c2 b). reflexivity.
Qed.

Lemma client_run_len evs : forall c c' l, client_run c evs = (c', l) -> length l = length evs.
Proof.
  induction evs as [|e evs IH]; intros c c' l E; cbn [client_run] in E; [injection E as <- <-; reflexivity|].
  destruct (client_step c e) as [c1 x]. destruct (client_run c1 evs) eqn:R. injection E as <- <-. cbn. erewrite IH; eauto.
Qed.

Lemma sender_roles fuel W nd W' F' k' D : separate nd -> node_data fuel W nd no_files 0 = Ok (W', F', k', D) ->
  roles F' k' (fun j => j = d_def D \/ d_out D = Some j) (fun j => d_in D = Some j) /\
  (forall j, j = d_def D \/ d_out D = Some j -> f_kind (F' j) = KOutput).
Proof.
  intros Sep Nd.
  pose proof (node_data_files _ _ _ _ _ _ _ _ _ Nd) as (Nin & Nout & Dm & Do & Da & Dk & Dl & Dp & Oth).
  apply node_data_inv in Nd as (S & (m1 & p1 & i1 & L1 & E1 & Q1 & Fi) & (m2 & p2 & i2 & L2 & E2 & Q2 & Fo) & _ & _ & Ap & _ & Rg & _); auto.
  assert (Out : forall o, d_out D = Some o -> side_file Pack (sum_len m2) (concat i2) (F' o) /\ 0 < sum_len m2).
  { intros o X. rewrite X in Fo. tauto. }
  split.
  - constructor.
    + intros j [->|X] Y; [contradiction|]. destruct Ap as [A|[A|A]]; congruence.
    + intros j X. apply Rg. intuition.
    + intros j. destruct (Nat.eq_dec (d_def D) j) as [<-|N1]; [exact Dm|].
      destruct (d_in D) as [i|] eqn:Di; [destruct (Nat.eq_dec i j) as [->|N2]|].
      * apply Fi.
      * destruct (d_out D) as [o|] eqn:Dd; [destruct (Nat.eq_dec o j) as [->|N3]|].
        -- apply (Out j eq_refl).
        -- rewrite Oth by congruence. reflexivity.
        -- rewrite Oth by congruence. reflexivity.
      * destruct (d_out D) as [o|] eqn:Dd; [destruct (Nat.eq_dec o j) as [->|N3]|].
        -- apply (Out j eq_refl).
        -- rewrite Oth by congruence. reflexivity.
        -- rewrite Oth by congruence. reflexivity.
    + intros j [->|X]; [auto|]. destruct (Out j X) as ((A1 & A2 & A3 & A4 & A5 & A6) & P).
      rewrite A2, A3, A5, A6. repeat split; auto; lia.
  - intros j [->|X]; [exact Dk|]. apply (Out j X).
Qed.

Definition no_connect (e : cev) : Prop := match e with CConnect _ => False | _ => True end.
Definition offline (e : cev) : Prop := match e with CConnect _ | CMsg _ => False | _ => True end.

Lemma first_attaches D : flat_map attaches (first_events D) = match d_out D with Some o => [o; d_def D] | None => [d_def D] end.
Proof. unfold first_events. destruct (d_in D), (d_out D); reflexivity. Qed.

Lemma part_attaches out evs pe : Forall (fun x => exists e, In e evs /\ part_event out e x) pe -> flat_map attaches pe = [].
Proof.
  induction 1 as [|x pe (e & _ & P) _ IH]; [reflexivity|]. cbn [flat_map]. rewrite IH. destruct x; try reflexivity. contradiction.
Qed.

Lemma wire_image fuel W nd ins outs c0 before h after c l D o a rep :
  fresh_client fuel W nd ins outs c0 -> Forall cok (before ++ CConnect h :: after) ->
  Forall offline before -> Forall no_connect after ->
  client_run c0 (before ++ CConnect h :: after) = (c, l) ->
  (exists t, y_wrk (c_sys c) = WRun t) -> fm_queue (c_fm c) = [] ->
  c_node c = Some (nd, D) -> d_out D = Some o ->
  f_isOpen (fm_heap (c_fm c) o) = true -> f_address (fm_heap (c_fm c) o) = Some a ->
  len rep = total outs ->
  fold_left (apply_write a) (flat_map data_msg (map snd (y_sent (c_sys c)))) rep = f_data (fm_heap (c_fm c) o).
Proof.
  intros Fc Ok Bf Af R (t & Wk) Qe Cn Do Op Ad Lr.
  pose proof Fc as (W' & F' & k' & D0 & name & Nd & Cw & Kinds & Nm & Iv)%fresh_cinv.
  pose proof (fc_attached _ _ _ _ _ _ Fc) as (W1 & F1 & k1 & D1 & Nd1 & _ & Cn0 & _ & _ & _ & Yw & Ys & Yr & Q0 & _ & _ & Lc & F2 & Ch1 & Ch2)%attach_inv.
  rewrite Nd in Nd1. injection Nd1 as <- <- <- <-.
  destruct (sender_roles _ _ _ _ _ _ _ (fc_separate _ _ _ _ _ _ Fc) Nd) as [Ro Kd].
  apply Forall_app in Ok as [Ok1 Ok2]. inversion Ok2 as [|? ? _ Ok3]; subst.
  rewrite client_run_app in R. destruct (client_run c0 before) as [c1 l1] eqn:R1.
  cbn [client_run] in R. destruct (client_step c1 (CConnect h)) as [c2 x] eqn:R2.
  destruct (client_run c2 after) as [c3 l3] eqn:R3. injection R as <- <-.
  destruct (run_any _ _ _ _ _ Kinds _ _ _ _ _ _ Iv Ok1 R1) as (D1' & k1' & _ & _ & _ & Iv1 & _).
  destruct (project_run _ _ _ _ _ Kinds _ _ _ _ _ _ Iv Ok1 R1) as (O1 & P1).
  destruct (project_step _ _ _ _ _ _ _ _ (CConnect h) Iv1) as (O2 & P2). rewrite R2 in O2, P2. cbn [fst] in O2, P2.
  pose proof (step_any _ _ _ _ _ Kinds c1 _ _ (CConnect h) Iv1 I) as (D2' & k2' & _ & _ & _ & Iv2 & _). rewrite R2 in Iv2. cbn [fst] in Iv2.
  destruct (run_any _ _ _ _ _ Kinds _ _ _ _ _ _ Iv2 Ok3 R3) as (D3' & k3' & _ & _ & _ & Iv3 & _).
  destruct (project_run _ _ _ _ _ Kinds _ _ _ _ _ _ Iv2 Ok3 R3) as (O3 & P3).
  set (z0 := mk_sys (c_fm c0) (WRun None) []) in *.
  destruct (P1 z0) as (p1 & z1 & q1 & Y1 & M1 & Fp1); [unfold mrel; rewrite Yw, Ys; repeat split|].
  destruct (P2 z1 M1) as (p2 & z2 & q2 & Y2 & M2 & Fp2 & ->).
  destruct (P3 z2 M2) as (p3 & z3 & q3 & Y3 & M3 & Fp3).
  assert (Oo : out_of c0 = d_out D0) by (unfold out_of; rewrite Cn0; reflexivity).
  assert (OoC : out_of c3 = Some o) by (unfold out_of; rewrite Cn; exact Do).
  assert (Do0 : d_out D0 = Some o) by congruence.
  destruct M3 as (A & B & C). rewrite Wk in C.
  assert (Roles : forall evs pe, Forall (fun x => exists e, In e evs /\ part_event (out_of c0) e x) pe ->
    Forall (fun e => match e with EAttach j => j = d_def D0 \/ d_out D0 = Some j | ERequest j => d_in D0 = Some j
       | EWrite j _ _ => j = d_def D0 \/ d_out D0 = Some j -> f_kind (F' j) = KOutput | _ => True end) pe).
  { intros evs pe. apply Forall_impl. intros y (e & _ & P). destruct y; auto; contradiction. }
  assert (Fp3' : Forall (fun x => exists e, In e after /\ part_event (out_of c0) e x) p3).
  { rewrite O2, O1 in Fp3. exact Fp3. }
  assert (Kr : keeps_roles F' (fun j => j = d_def D0 \/ d_out D0 = Some j) (fun j => d_in D0 = Some j)
    ((first_events D0 ++ p1) ++ EConnect h :: p3)).
  { split.
    + rewrite !flat_map_app, first_attaches, (part_attaches _ _ _ Fp1). cbn [flat_map attaches app].
      rewrite (part_attaches _ _ _ Fp3'), Do0. rewrite !app_nil_r.
      pose proof (node_data_files _ _ _ _ _ _ _ _ _ Nd) as (_ & Nout & _). rewrite Do0 in Nout.
      repeat constructor; cbn [In]; intuition congruence.
    + apply Forall_app. split; [apply Forall_app; split|].
      * unfold first_events. rewrite Do0. destruct (d_in D0); cbn [app]; repeat (apply Forall_cons; [auto|]); apply Forall_nil.
      * eapply Roles; eauto.
      * constructor; [exact I|]. eapply Roles; eauto. }
  assert (Yall : yrun (fresh F' k') ((first_events D0 ++ p1) ++ EConnect h :: p3) = (z3, q1 ++ q2 ++ q3)).
  { rewrite yrun_app. rewrite yrun_app, Yr. fold z0. rewrite Y1. cbn [yrun] in Y2 |- *.
    destruct (ystep z1 (EConnect h)) as [zz qq]. injection Y2 as <- <-. rewrite Y3. rewrite app_nil_r. reflexivity. }
  pose proof (winv_fresh _ _ _ _ Ro _ _ _ Kr Yall) as Wi. rewrite <- A in Wi.
  assert (Dq : D3' = D) by (pose proof (ci_node _ _ _ _ _ _ _ _ Iv3); congruence). subst D3'.
  pose proof (sim_out _ _ _ _ _ _ _ _ (ci_sim _ _ _ _ _ _ _ _ Iv3)) as So. rewrite Do in So. destruct So as (_ & _ & So & _).
  unfold c_fm in *. rewrite B.
  replace (f_data (fm_heap (y_fm (c_sys c3)) o)) with (f_data (fm_heap (y_fm z3) o)) by (rewrite <- A; reflexivity).
  apply (replica_converges_wire F' k' (fun j => j = d_def D0 \/ d_out D0 = Some j) (fun j => d_in D0 = Some j)
    (first_events D0 ++ p1) p3 h z3 (q1 ++ q2 ++ q3) o a rep); auto.
  - apply Forall_app. split.
    + unfold first_events. rewrite Do0. destruct (d_in D0); cbn [app]; repeat constructor; intros [? Y]; discriminate.
    + eapply Forall_impl; [|exact Fp1]. intros y (e & In_e & P). rewrite Forall_forall in Bf. specialize (Bf e In_e).
      split; intros [w ->]; cbn in P; subst e; contradiction.
  - eapply Forall_impl; [|exact Fp3']. intros y (e & In_e & P) [w ->]. rewrite Forall_forall in Af. specialize (Af e In_e).
    cbn in P. subst e. contradiction.
  - eauto.
  - rewrite <- A. exact Qe.
  - rewrite <- A. destruct (in_dec Nat.eq_dec o (m_items (fm_local (y_fm (c_sys c3))))) as [Y|Y]; [exact Y|].
    destruct (w_un _ _ _ _ _ _ Wi o (or_intror Do0) Y) as [Z _]. congruence.
  - rewrite <- A. exact Op.
  - rewrite <- A. exact Ad.
  - rewrite <- A. rewrite Lr. destruct (w_len _ _ _ _ _ _ Wi o (or_intror Do0)) as [-> _]. rewrite So.
    symmetry. apply sized_concat. eapply sim_parts. eapply ci_sim. exact Iv3.
Qed.

Section Abstract.
Context (W : world) (nd : node) (ins outs : list ty) (inname : str) (Ids : ids_ok W nd) (Kinds : kinds_ok W nd).

Lemma picks_write_unique id i j : picks W nd id true true i -> picks W nd id true true j -> i = j.
Proof.
  intros A B. apply (write_target_picks W nd Ids Kinds) in A as [_ A]. apply (write_target_picks W nd Ids Kinds) in B as [_ B].
  rewrite A in B. injection B as B. lia.
Qed.
Lemma picks_read_unique id p q i j : picks W nd id false p i -> picks W nd id false q j -> p = q /\ i = j.
Proof.
  intros A B. apply (read_target_picks W nd Ids Kinds) in A. apply (read_target_picks W nd Ids Kinds) in B.
  rewrite A in B. injection B as B C. destruct p, q; cbn in B; try discriminate; split; auto; lia.
Qed.

(** A successful write to provide port [i]. *)
Definition stores (i : nat) (e : cev) (a : pres (option oval)) : Prop :=
  exists id v, e = CWrite id v /\ picks W nd id true true i /\ a = Done None.

Lemma move_parts s e s' calls a i : cmove W nd ins outs inname s e s' calls a ->
  length (a_parts (k_node s)) = length outs -> ~ stores i e a ->
  nth_error (a_parts (k_node s')) i = nth_error (a_parts (k_node s)) i /\ length (a_parts (k_node s')) = length outs.
Proof.
  intros M L N. inversion M; subst; cbn [k_node] in *; auto;
    match goal with X : astep _ _ _ _ _ _ _ _ |- _ => inversion X; subst; cbn [a_parts] in *; auto end.
  assert (B : (i1 < length (a_parts s0))%nat) by (rewrite L; apply nth_error_Some; congruence).
  rewrite replaced_nth, replaced_length by auto. destruct (Nat.eqb_spec i i1) as [->|]; auto.
  assert (i1 = i0) as -> by lia. exfalso. apply N. exists id, v. split; [reflexivity|]. split; [auto|].
  destruct a as [[o|]| |]; cbn [answers] in *; try contradiction; reflexivity.
Qed.

Lemma moves_parts i s on evs s' calls l : cmoves W nd ins outs inname s on evs s' calls l ->
  length (a_parts (k_node s)) = length outs -> Forall2 (fun e a => ~ stores i e a) evs l ->
  nth_error (a_parts (k_node s')) i = nth_error (a_parts (k_node s)) i.
Proof.
  induction 1 as [|s on e s1 c1 a evs s2 c2 l M Ms IH]; intros L F; [reflexivity|].
  inversion F; subst. destruct (move_parts _ _ _ _ _ i M L) as [P Q]; [assumption|]. rewrite IH; auto.
Qed.

Lemma move_store s id v s' calls i : cmove W nd ins outs inname s (CWrite id v) s' calls (Done None) ->
  length (a_parts (k_node s)) = length outs -> picks W nd id true true i ->
  exists t b, nth_error outs i = Some t /\ enc t v = Some b /\ nth_error (a_parts (k_node s')) i = Some b /\
    length (a_parts (k_node s')) = length outs.
Proof.
  intros M L P. inversion M; subst; cbn [k_node] in *.
  pose proof (picks_write_unique _ _ _ P H1) as ->.
  match goal with X : astep _ _ _ _ _ _ _ _ |- _ => inversion X; subst; cbn [answers] in *; try contradiction end.
  match goal with X : Z.of_nat ?x = Z.of_nat ?y |- _ => assert (x = y) by lia; subst x end. exists t, b0. cbn [a_parts].
  assert (B : (i0 < length (a_parts s0))%nat) by (rewrite L; apply nth_error_Some; congruence).
  rewrite replaced_nth, replaced_length, Nat.eqb_refl by auto. auto.
Qed.

End Abstract.

Lemma app_eq_app_len {A} (a c b d : list A) : a ++ b = c ++ d -> length a = length c -> a = c /\ b = d.
Proof.
  revert c. induction a as [|x a IH]; intros [|y c] E L; try discriminate; auto. cbn [app] in E. injection E as -> E.
  destruct (IH c E) as [-> ->]; auto.
Qed.

(** What the peer knows of the output file: its image after the data messages
    transmitted so far, whatever it held before. *)
Definition peer_image (c : client) (a : Z) (image : bytes) : bytes :=
  fold_left (apply_write a) (flat_map data_msg (map snd (y_sent (c_sys c)))) image.

(** The output file is open at address [a], and nothing waits for transmission. *)
Definition output_settled (c : client) (a : Z) : Prop :=
  (exists t, y_wrk (c_sys c) = WRun t) /\ fm_queue (c_fm c) = [] /\
  exists nd D o, c_node c = Some (nd, D) /\ d_out D = Some o /\
    f_isOpen (fm_heap (c_fm c) o) = true /\ f_address (fm_heap (c_fm c) o) = Some a.

Lemma parts_length W nd ins outs inname c D k : cinv W nd ins outs inname c D k -> length (a_parts (k_node k)) = length outs.
Proof. intros Iv. apply sized_length. eapply sim_parts. eapply ci_sim. exact Iv. Qed.

(** The last value written to a provide port is what the peer has in the place of
    that port, no matter when the connection was made and the file was opened. *)
Theorem written_value_reaches_peer fuel W nd ins outs c0 before h after pre id v post l1 l2 c i a image :
  fresh_client fuel W nd ins outs c0 -> Forall cok (before ++ CConnect h :: after) ->
  Forall offline before -> Forall no_connect after ->
  before ++ CConnect h :: after = pre ++ CWrite id v :: post ->
  client_run c0 (pre ++ CWrite id v :: post) = (c, l1 ++ Done None :: l2) -> length l1 = length pre ->
  picks (c_world c0) nd id true true i -> Forall2 (fun e x => ~ stores (c_world c0) nd i e x) post l2 ->
  output_settled c a -> len image = total outs ->
  exists t, nth_error outs i = Some t /\ enc t v = Some (part_of outs (peer_image c a image) i).
Proof.
  intros Fc Ok Bf Af Ev R Ll Pk Later (Wk & Qe & nd' & D & o & Cn & Do & Op & Ad) Li.
  pose proof Fc as (W' & F' & k' & D0 & name & Nd & Cw & Kinds & Nm & Iv)%fresh_cinv.
  rewrite Cw in Pk, Later.
  pose proof R as R0. rewrite client_run_app in R. destruct (client_run c0 pre) as [c1 x1] eqn:R1.
  cbn [client_run] in R. destruct (client_step c1 (CWrite id v)) as [c2 x] eqn:R2.
  destruct (client_run c2 post) as [c3 x3] eqn:R3. injection R as -> Lq.
  pose proof (client_run_len _ _ _ _ R1) as Lx. 
  apply app_eq_app_len in Lq as [-> Lq]; [|congruence]. injection Lq as -> ->.
  rewrite Ev in Ok. apply Forall_app in Ok as [Ok1 Ok2]. inversion Ok2 as [|? ? _ Ok3]; subst.
  destruct (run_any _ _ _ _ _ Kinds _ _ _ _ _ _ Iv Ok1 R1) as (D1 & k1 & _ & _ & _ & Iv1 & _).
  pose proof (step_any _ _ _ _ _ Kinds c1 _ _ (CWrite id v) Iv1 I) as (D2 & k2 & _ & cc & Mv & Iv2 & _). rewrite R2 in Mv, Iv2. cbn [fst snd] in Mv, Iv2.
  destruct (run_any _ _ _ _ _ Kinds _ _ _ _ _ _ Iv2 Ok3 R3) as (D3 & k3 & _ & cc3 & Ms & Iv3 & _).
  destruct (move_store _ _ _ _ _ (cinv_ids _ _ _ _ _ _ _ _ Iv1) Kinds _ _ _ _ _ _ Mv (parts_length _ _ _ _ _ _ _ _ Iv1) Pk) as (t & b & Nt & En & Np & L2).
  rewrite <- (moves_parts _ _ _ _ _ _ _ _ _ _ _ _ Ms L2 Later) in Np.
  assert (nd' = nd /\ D3 = D) as [-> ->] by (pose proof (ci_node _ _ _ _ _ _ _ _ Iv3); split; congruence).
  exists t. split; [exact Nt|]. rewrite En. f_equal.
  unfold peer_image. rewrite (wire_image fuel W nd ins outs c0 before h after c (l1 ++ Done None :: l2) D o a image Fc); auto;
    [|rewrite Ev; apply Forall_app; auto|rewrite Ev; exact R0].
  pose proof (sim_out _ _ _ _ _ _ _ _ (ci_sim _ _ _ _ _ _ _ _ Iv3)) as So. rewrite Do in So. destruct So as (_ & _ & -> & _).
  rewrite (part_of_concat _ _ _ _ (fc_routs _ _ _ _ _ _ Fc) (sim_parts _ _ _ _ _ _ _ _ (ci_sim _ _ _ _ _ _ _ _ Iv3)) Nt) in Np.
  injection Np as <-. reflexivity.
Qed.
Print Assumptions written_value_reaches_peer.

(** ** The receiver *)

Lemma part_outside ts d off x j t : 0 <= off -> off + len x <= len d -> nth_error ts j = Some t -> 0 <= port_start ts j -> 0 <= tlen t ->
  off + len x <= port_start ts j \/ port_start ts j + tlen t <= off ->
  part_of ts (firstn (Z.to_nat off) d ++ x ++ skipn (Z.to_nat (off + len x)) d) j = part_of ts d j.
Proof.
  intros O Ox N Ps Pt C. unfold part_of. rewrite N. unfold len in *.
  set (s := Z.to_nat (port_start ts j)). set (n := Z.to_nat (tlen t)).
  assert (Lf : length (firstn (Z.to_nat off) d) = Z.to_nat off) by (rewrite firstn_length; lia).
  destruct C as [C|C].
  - f_equal. rewrite app_assoc. rewrite skipn_app. rewrite skipn_all2 by (rewrite app_length, Lf; lia).
    rewrite app_length, Lf. cbn [app]. rewrite VmProofs.skipn_skipn. f_equal. lia.
  - rewrite skipn_app, Lf. replace (s - Z.to_nat off)%nat with 0%nat by lia. cbn [skipn].
    rewrite firstn_app. rewrite skipn_length, Lf. replace (n - (Z.to_nat off - s))%nat with 0%nat by lia. cbn [firstn]. rewrite app_nil_r.
    rewrite skipn_firstn_comm, firstn_firstn. f_equal. lia.
Qed.

Lemma part_replaced ts d x j t : nth_error ts j = Some t -> 0 <= port_start ts j -> len x = tlen t -> port_start ts j + len x <= len d ->
  part_of ts (firstn (Z.to_nat (port_start ts j)) d ++ x ++ skipn (Z.to_nat (port_start ts j + len x)) d) j = x.
Proof.
  intros N Ps Lx B. unfold part_of. rewrite N, <- Lx. unfold len in *.
  assert (Lf : length (firstn (Z.to_nat (port_start ts j)) d) = Z.to_nat (port_start ts j)) by (rewrite firstn_length; lia).
  rewrite skipn_app, Lf, skipn_all2, Nat.sub_diag by lia. cbn [app skipn]. rewrite Nat2Z.id, firstn_app, firstn_all, Nat.sub_diag.
  cbn [firstn]. apply app_nil_r.
Qed.

Lemma sorted_single (l : list nat) j : (forall i, In i l <-> i = j) -> Sorted.StronglySorted lt l -> l = [j].
Proof.
  intros E S. destruct l as [|a l]; [destruct (proj2 (E j) eq_refl)|].
  assert (a = j) as -> by (apply E; left; reflexivity). f_equal. destruct l as [|b l]; [reflexivity|].
  assert (b = j) as -> by (apply E; right; left; reflexivity). inversion S as [|? ? _ F]; subst. inversion F; subst. lia.
Qed.

Lemma affected_port ts j t : Forall regular ts -> nth_error ts j = Some t -> 0 < tlen t ->
  affected ts (port_start ts j) (tlen t) = [j].
Proof.
  intros Rg N P. destruct (affected_meaning ts (port_start ts j) (tlen t) j) as [_ So]. apply sorted_single; [|exact So].
  intros i. rewrite (proj1 (affected_meaning ts (port_start ts j) (tlen t) i)). split.
  - intros (u & x & Nu & A & B). destruct (Nat.lt_trichotomy i j) as [L|[L|L]]; [|exact L|].
    + pose proof (port_start_mono ts (S i) j Rg L). rewrite (port_start_S _ _ _ Nu) in *. lia.
    + pose proof (port_start_mono ts (S j) i Rg L). rewrite (port_start_S _ _ _ N) in *. lia.
  - intros ->. exists t, (port_start ts j). split; [exact N|]. lia.
Qed.

(** The input file is open at address [a], the lock is free and the socket thread lives. *)
Definition input_open (c : client) (a : Z) : Prop :=
  exists nd D f, c_node c = Some (nd, D) /\ d_in D = Some f /\
    f_isOpen (fm_heap (c_fm c) f) = true /\ f_address (fm_heap (c_fm c) f) = Some a.
Definition unlocked (c : client) : Prop := exists nd D, c_node c = Some (nd, D) /\ d_locked D = false.

Lemma input_open_box W nd ins outs inname c D k a : cinv W nd ins outs inname c D k -> input_open c a -> k_box k = Some a /\ 0 < total ins.
Proof.
  intros Iv (nd' & D' & f & Cn & Df & Op & Ad). pose proof (ci_node _ _ _ _ _ _ _ _ Iv) as Cn'. rewrite Cn' in Cn. injection Cn as <- <-.
  pose proof (ci_box _ _ _ _ _ _ _ _ Iv) as Bx. pose proof (sim_in _ _ _ _ _ _ _ _ (ci_sim _ _ _ _ _ _ _ _ Iv)) as Si.
  unfold boxed in Bx. rewrite Df in Bx, Si. split; [|apply Si].
  destruct Bx as (_ & _ & Bx). destruct (k_box k); [|destruct Bx as (_ & _ & Bx); congruence].
  destruct Bx as (_ & _ & Bx & _). congruence.
Qed.

(** What the peer sends to write the bytes [b] of require port [j]. *)
Definition port_update (ins : list ty) (a : Z) (j : nat) (b : bytes) : bytes :=
  hdr_wire (a + port_start ins j) false ++ b.

Section Receiver.
Context (W : world) (nd : node) (ins outs : list ty) (inname : str) (Rg : Forall regular ins).

Lemma update_carries a j b : 0 <= a -> a + port_start ins j < 0x3FFFFC00 -> b <> [] ->
  carries (port_update ins a j b) (a + port_start ins j) b false.
Proof.
  intros A B N. unfold carries, port_update. pose proof (port_start_total ins j Rg) as [P _].
  rewrite unpackHeader_wire; [|lia|auto].
  eexists. split; [reflexivity|]. split; [|split; [exact B|]].
  - unfold hdr_wire. cbv zeta. destruct (a + port_start ins j <? 16384); reflexivity.
  - unfold len. rewrite Nat2Z.id, skipn_app, skipn_all, Nat.sub_diag. reflexivity.
Qed.

Lemma move_update s a j t v b s' calls x : cmove W nd ins outs inname s (CMsg (port_update ins a j b)) s' calls x ->
  k_box s = Some a -> k_hung s = false -> a_stuck (k_node s) = false -> len (a_in (k_node s)) = total ins ->
  nth_error ins j = Some t -> 0 < tlen t -> flat t -> len b = tlen t -> dec t b = Some v ->
  0 <= a -> a + port_start ins j < 0x3FFFFC00 ->
  calls = [(j, v)] /\ x = Done None /\ k_box s' = Some a /\ a_stuck (k_node s') = false /\
  part_of ins (a_in (k_node s')) j = b /\ len (a_in (k_node s')) = total ins.
Proof.
  intros M Bx Hu Su Ln N Pt Fl Lb De A B.
  assert (Nb : b <> []) by (intros ->; (unfold len in Lb; cbn [length Z.of_nat] in Lb; lia)).
  pose proof (update_carries a j b A B Nb) as Ca.
  pose proof (port_start_total ins j Rg) as [P0 _]. pose proof (port_start_total ins (S j) Rg) as [_ P1].
  rewrite (port_start_S _ _ _ N) in P1.
  assert (La : lands a (total ins) (a + port_start ins j) b) by (unfold lands; lia).
  inversion M; subst; cbn [k_box k_hung k_node] in *; try discriminate.
  - injection Bx as ->. match goal with X : carries _ _ _ _ |- _ =>
      destruct X as (k1 & U1 & _ & _ & E1); destruct Ca as (k2 & U2 & _ & _ & E2); rewrite U1 in U2; injection U2 as -> -> -> end.
    rewrite <- E2 in E1. subst d. replace (a + port_start ins j - a) with (port_start ins j) in * by lia.
    match goal with X : astep _ _ _ _ _ _ _ _ |- _ => inversion X; subst end; [exfalso; lia|].
    cbn [negb andb] in *. rewrite Lb in *. rewrite (affected_port ins j t Rg N Pt) in *.
    match goal with X : deliver _ ?d _ = _ |- _ => assert (Pr : part_of ins d j = b) end.
    { rewrite <- Lb. apply part_replaced with (t := t); auto; lia. }
    match goal with X : deliver _ _ _ = _ |- _ => cbn [deliver] in X; rewrite N, Pr, readable_flat, De in X by exact Fl; injection X as <- <- end.
    rewrite Su in *. cbn [answers calls_of orb negb] in *. destruct x as [[?|]| |]; try contradiction.
    repeat split; auto. cbn [a_in]. rewrite !len_app, len_firstn, len_skipn by lia. lia.
  - exfalso. match goal with X : forall x d more b, carries _ _ _ _ -> _ |- _ => eapply X; eauto end.
Qed.

(** A message that leaves the bytes [from, to) of the peer's address space alone. *)
Definition spares (from to : Z) (e : cev) : Prop :=
  match e with
  | CMsg m => forall x d more, carries m x d more -> x + len d <= from \/ to <= x
  | _ => True
  end.

Lemma move_spares s e s' calls x a j t : cmove W nd ins outs inname s e s' calls x ->
  k_box s = Some a -> len (a_in (k_node s)) = total ins -> nth_error ins j = Some t ->
  spares (a + port_start ins j) (a + port_start ins j + tlen t) e ->
  k_box s' = Some a /\ len (a_in (k_node s')) = total ins /\
  part_of ins (a_in (k_node s')) j = part_of ins (a_in (k_node s)) j.
Proof.
  intros M Bx Ln N Sp. pose proof (port_start_total ins j Rg) as [P0 _].
  pose proof (proj1 (Forall_forall _ _) Rg t (nth_error_In _ _ N)) as [Wf _]. pose proof (VmPackProofs.tlen_nonneg t Wf) as Tn.
  inversion M; subst; cbn [k_box k_hung k_node] in *; auto; try discriminate;
    match goal with X : astep _ _ _ _ _ _ _ _ |- _ => inversion X; subst; cbn [a_in] in *; auto end.
  injection Bx as ->. cbn [spares] in Sp. match goal with X : carries _ _ _ _ |- _ => apply Sp in X end.
  split; [reflexivity|]. split.
  - pose proof (len_nonneg d). rewrite !len_app, len_firstn, len_skipn. lia.
  - apply part_outside with (t := t); auto; lia.
Qed.

Lemma moves_spares a j t s on evs s' calls l : cmoves W nd ins outs inname s on evs s' calls l ->
  k_box s = Some a -> len (a_in (k_node s)) = total ins -> nth_error ins j = Some t ->
  Forall (spares (a + port_start ins j) (a + port_start ins j + tlen t)) evs ->
  part_of ins (a_in (k_node s')) j = part_of ins (a_in (k_node s)) j.
Proof.
  induction 1 as [|s on e s1 c1 x evs s2 c2 l M Ms IH]; intros Bx L N F; [reflexivity|].
  inversion F; subst. destruct (move_spares _ _ _ _ _ a j t M Bx L N) as (A & B & C); [assumption|]. rewrite IH; auto.
Qed.

Lemma move_reads s id j t v s' calls x : ids_ok W nd -> kinds_ok W nd ->
  cmove W nd ins outs inname s (CRead id) s' calls x ->
  picks W nd id false false j -> nth_error ins j = Some t -> a_stuck (k_node s) = false -> 0 < total ins ->
  flat t -> dec t (part_of ins (a_in (k_node s)) j) = Some v ->
  x = Done (Some (OVal v)).
Proof.
  intros Ids Kinds M Pk N Su Pt Fl De. inversion M; subst; cbn [k_node] in *.
  - match goal with X : picks _ _ _ _ _ ?i |- _ => destruct (picks_read_unique W nd Ids Kinds _ _ _ _ _ Pk X) as [_ <-] end.
    match goal with X : astep _ _ _ _ _ _ _ _ |- _ => inversion X; subst; try congruence end.
    + match goal with X : Z.of_nat ?x = Z.of_nat j |- _ => assert (x = j) by lia; subst x end.
      match goal with X : nth_error ins j = Some _ |- _ => rewrite N in X; injection X as <- end.
      rewrite readable_flat in * by assumption. destruct x as [[o|]| |]; cbn [answers] in *; try contradiction. congruence.
    + match goal with X : Z.of_nat ?x = Z.of_nat j |- _ => assert (x = j) by lia; subst x end.
      match goal with X : nth_error ins j = Some _ |- _ => rewrite N in X; injection X as <- end.
      rewrite readable_flat in * by assumption. congruence.
    + exfalso. assert (j < length ins)%nat by (apply nth_error_Some; congruence). unfold len in *. lia.
  - match goal with X : picks _ _ _ _ true ?i |- _ => destruct (picks_read_unique W nd Ids Kinds _ _ _ _ _ Pk X) as [Q _] end. discriminate.
  - exfalso. match goal with X : named_type _ _ _ _ |- _ => destruct X as (q & Nq & Dq & _) end.
    inversion Pk as [|nm' wr p q' (o & _ & _ & Nt & _) _|]; subst. apply nth_error_In in Nq. eapply Nt; eauto.
  - exfalso. match goal with X : forall i p, ~ picks _ _ _ _ _ _ |- _ => eapply X; exact Pk end.
Qed.
End Receiver.

(** What a client can tell of an arriving port: the listener is called once, with
    the port and the value, and the thread goes on. *)
Theorem arriving_value_is_reported fuel W nd ins outs c0 evs c1 l1 c2 x a j t v b :
  fresh_client fuel W nd ins outs c0 -> Forall cok evs -> client_run c0 evs = (c1, l1) ->
  input_open c1 a -> unlocked c1 -> c_hung c1 = false ->
  nth_error ins j = Some t -> 0 < tlen t -> flat t -> exact t v -> enc t v = Some b ->
  0 <= a -> a + port_start ins j < 0x3FFFFC00 ->
  client_step c1 (CMsg (port_update ins a j b)) = (c2, x) ->
  x = Done None /\ input_open c2 a /\ unlocked c2 /\ c_hung c2 = false /\
  exists o, nth_error (n_require nd) j = Some o /\ c_calls c2 = c_calls c1 ++ (if c_listener c1 then [(o, v)] else []).
Proof.
  intros Fc Ok R Io (nd' & D' & Cn & Ul) Hu N Pt Fl Ex En A B St.
  pose proof Fc as (W' & F' & k' & D0 & name & Nd & Cw & Kinds & Nm & Iv)%fresh_cinv.
  destruct (run_any _ _ _ _ _ Kinds _ _ _ _ _ _ Iv Ok R) as (D1 & k1 & _ & _ & _ & Iv1 & _).
  assert (nd' = nd /\ D' = D1) as [-> ->] by (pose proof (ci_node _ _ _ _ _ _ _ _ Iv1); split; congruence).
  pose proof (ci_sim _ _ _ _ _ _ _ _ Iv1) as Sm1.
  destruct (input_open_box _ _ _ _ _ _ _ _ _ Iv1 Io) as [Bx Tp].
  pose proof (proj1 (Forall_forall _ _) (fc_rins _ _ _ _ _ _ Fc) t (nth_error_In _ _ N)) as [Wf _].
  destruct (exact_dec t Wf (flat_distinct t Fl) v Ex) as (b' & En' & Lb & Bo & De). rewrite En in En'. injection En' as <-.
  assert (Okm : bytes_ok (port_update ins a j b)).
  { unfold port_update. apply bytes_ok_app. split; [|exact Bo]. apply hdr_wire_ok.
    pose proof (port_start_total ins j (fc_rins _ _ _ _ _ _ Fc)). lia. }
  pose proof (step_any _ _ _ _ _ Kinds c1 _ _ (CMsg (port_update ins a j b)) Iv1 Okm) as (D2 & k2 & ob & cc & Mv & Iv2 & Hd & Cs & Ls).
  rewrite St in Mv, Iv2, Cs, Ls. cbn [fst snd] in Mv, Iv2, Cs, Ls.
  destruct (move_update _ _ _ _ _ (fc_rins _ _ _ _ _ _ Fc) _ _ _ t v _ _ _ _ Mv Bx) as (-> & -> & Bx2 & St2 & Pa & Ln); auto.
  { rewrite <- (ci_hung _ _ _ _ _ _ _ _ Iv1). exact Hu. }
  { rewrite <- (sim_lock _ _ _ _ _ _ _ _ Sm1). exact Ul. }
  { eapply sim_inlen; exact Sm1. }
  pose proof (ci_sim _ _ _ _ _ _ _ _ Iv2) as Sm2.
  split; [reflexivity|]. split; [|split; [|split]].
  - pose proof (ci_box _ _ _ _ _ _ _ _ Iv2) as Bo2. unfold boxed in Bo2. rewrite Bx2 in Bo2.
    destruct (d_in D2) as [f|] eqn:Df; [|destruct Bo2; discriminate]. destruct Bo2 as (_ & _ & _ & _ & Ad & Op).
    exists nd, D2, f. rewrite (ci_node _ _ _ _ _ _ _ _ Iv2). auto.
  - exists nd, D2. rewrite (ci_node _ _ _ _ _ _ _ _ Iv2). split; [reflexivity|]. rewrite (sim_lock _ _ _ _ _ _ _ _ Sm2). exact St2.
  - rewrite (ci_hung _ _ _ _ _ _ _ _ Iv2). inversion Mv; subst; auto. 
  - inversion Hd as [|[o w] ? ? ? [Ho Hw] Hr]; subst. inversion Hr; subst. cbn [fst snd] in Ho, Hw. subst w.
    exists o. split; [exact Ho|]. exact Cs.
Qed.
Print Assumptions arriving_value_is_reported.

(** ... and it stays there to be read until the peer sends something else for the
    same bytes, whatever else happens. *)
Theorem received_value_is_read fuel W nd ins outs c0 evs c1 l1 c2 x later c3 l3 id c4 y a j t v b :
  fresh_client fuel W nd ins outs c0 -> Forall cok evs -> client_run c0 evs = (c1, l1) ->
  input_open c1 a -> unlocked c1 -> c_hung c1 = false ->
  nth_error ins j = Some t -> 0 < tlen t -> flat t -> exact t v -> enc t v = Some b ->
  0 <= a -> a + port_start ins j < 0x3FFFFC00 ->
  client_step c1 (CMsg (port_update ins a j b)) = (c2, x) ->
  Forall cok later -> Forall (spares (a + port_start ins j) (a + port_start ins j + tlen t)) later ->
  client_run c2 later = (c3, l3) -> unlocked c3 ->
  picks (c_world c0) nd id false false j -> client_step c3 (CRead id) = (c4, y) ->
  y = Done (Some (OVal v)).
Proof.
  intros Fc Ok R Io (nd' & D' & Cn & Ul) Hu N Pt Fl Ex En A B St Ok2 Sp R3 (nd3 & D3' & Cn3 & Ul3) Pk Rd.
  pose proof Fc as (W' & F' & k' & D0 & name & Nd & Cw & Kinds & Nm & Iv)%fresh_cinv. rewrite Cw in Pk.
  destruct (run_any _ _ _ _ _ Kinds _ _ _ _ _ _ Iv Ok R) as (D1 & k1 & _ & _ & _ & Iv1 & _).
  assert (nd' = nd /\ D' = D1) as [-> ->] by (pose proof (ci_node _ _ _ _ _ _ _ _ Iv1); split; congruence).
  pose proof (ci_sim _ _ _ _ _ _ _ _ Iv1) as Sm1.
  destruct (input_open_box _ _ _ _ _ _ _ _ _ Iv1 Io) as [Bx Tp].
  pose proof (proj1 (Forall_forall _ _) (fc_rins _ _ _ _ _ _ Fc) t (nth_error_In _ _ N)) as [Wf _].
  destruct (exact_dec t Wf (flat_distinct t Fl) v Ex) as (b' & En' & Lb & Bo & De). rewrite En in En'. injection En' as <-.
  assert (Okm : bytes_ok (port_update ins a j b)).
  { unfold port_update. apply bytes_ok_app. split; [|exact Bo]. apply hdr_wire_ok.
    pose proof (port_start_total ins j (fc_rins _ _ _ _ _ _ Fc)). lia. }
  pose proof (step_any _ _ _ _ _ Kinds c1 _ _ (CMsg (port_update ins a j b)) Iv1 Okm) as (D2 & k2 & ob & cc & Mv & Iv2 & Hd & Cs & Ls).
  rewrite St in Mv, Iv2. cbn [fst snd] in Mv, Iv2.
  destruct (move_update _ _ _ _ _ (fc_rins _ _ _ _ _ _ Fc) _ _ _ t v _ _ _ _ Mv Bx) as (_ & _ & Bx2 & St2 & Pa & Ln); auto.
  { rewrite <- (ci_hung _ _ _ _ _ _ _ _ Iv1). exact Hu. }
  { rewrite <- (sim_lock _ _ _ _ _ _ _ _ Sm1). exact Ul. }
  { eapply sim_inlen; exact Sm1. }
  destruct (run_any _ _ _ _ _ Kinds _ _ _ _ _ _ Iv2 Ok2 R3) as (D3 & k3 & _ & cc3 & Ms & Iv3 & _).
  assert (nd3 = nd /\ D3' = D3) as [-> ->] by (pose proof (ci_node _ _ _ _ _ _ _ _ Iv3); split; congruence).
  pose proof (moves_spares _ _ _ _ _ (fc_rins _ _ _ _ _ _ Fc) a j t _ _ _ _ _ _ Ms Bx2 Ln N Sp) as Pa3.
  pose proof (step_any _ _ _ _ _ Kinds c3 _ _ (CRead id) Iv3 I) as (D4 & k4 & ob4 & cc4 & Mv4 & _). rewrite Rd in Mv4. cbn [snd] in Mv4.
  eapply (move_reads _ _ _ _ _ _ id j t v _ _ _ (cinv_ids _ _ _ _ _ _ _ _ Iv3) Kinds Mv4 Pk N); auto.
  - rewrite <- (sim_lock _ _ _ _ _ _ _ _ (ci_sim _ _ _ _ _ _ _ _ Iv3)). exact Ul3.
  - rewrite Pa3, Pa. exact De.
Qed.
Print Assumptions received_value_is_read.

(** ** C56 *)

(** However a port is named, by its object, by name or by number, the operation is
    the same. *)
Theorem same_port_same_operation fuel W nd ins outs c0 evs c l id id' i :
  fresh_client fuel W nd ins outs c0 -> Forall cok evs -> client_run c0 evs = (c, l) ->
  (picks (c_world c0) nd id true true i -> picks (c_world c0) nd id' true true i -> forall v,
   client_step c (CWrite id v) = client_step c (CWrite id' v)) /\
  (forall p, picks (c_world c0) nd id false p i -> picks (c_world c0) nd id' false p i ->
   client_step c (CRead id) = client_step c (CRead id')).
Proof.
  intros Fc Ok R.
  pose proof Fc as (W' & F' & k' & D0 & name & Nd & Cw & Kinds & Nm & Iv)%fresh_cinv.
  destruct (run_any _ _ _ _ _ Kinds _ _ _ _ _ _ Iv Ok R) as (D1 & k1 & _ & _ & _ & Iv1 & _).
  pose proof (cinv_ids _ _ _ _ _ _ _ _ Iv1) as Ids. rewrite Cw. split.
  - intros P P' v. cbn [client_step]. unfold client_write. rewrite (ci_node _ _ _ _ _ _ _ _ Iv1), (ci_world _ _ _ _ _ _ _ _ Iv1).
    apply (write_target_picks _ _ Ids Kinds) in P as [_ ->]. apply (write_target_picks _ _ Ids Kinds) in P' as [_ ->]. reflexivity.
  - intros p P P'. cbn [client_step]. unfold client_read. rewrite (ci_node _ _ _ _ _ _ _ _ Iv1), (ci_world _ _ _ _ _ _ _ _ Iv1).
    apply (read_target_picks _ _ Ids Kinds) in P as ->. apply (read_target_picks _ _ Ids Kinds) in P' as ->. reflexivity.
Qed.
Print Assumptions same_port_same_operation.

(** An identifier means at most one port. *)
Theorem identifier_is_unambiguous fuel W nd ins outs c0 id writing p q i j :
  fresh_client fuel W nd ins outs c0 ->
  picks (c_world c0) nd id writing p i -> picks (c_world c0) nd id writing q j -> p = q /\ i = j.
Proof.
  intros Fc. pose proof Fc as (W' & F' & k' & D0 & name & Nd & Cw & Kinds & Nm & Iv)%fresh_cinv.
  pose proof (cinv_ids _ _ _ _ _ _ _ _ Iv) as Ids. rewrite Cw. intros P Q. destruct writing.
  - pose proof (proj1 (write_target_picks _ _ Ids Kinds _ _ _ P)) as ->.
    pose proof (proj1 (write_target_picks _ _ Ids Kinds _ _ _ Q)) as ->. split; [reflexivity|].
    eapply picks_write_unique; eauto.
  - eapply picks_read_unique; eauto.
Qed.
Print Assumptions identifier_is_unambiguous.

Lemma index_range {A} (l : list A) k :
  match index l k with
  | Ok _ => (k <? - len l) || (len l <=? k) = false
  | Err e => e = IndexError /\ (k <? - len l) || (len l <=? k) = true
  end.
Proof.
  destruct (index l k) as [x|e] eqn:Ix.
  - apply index_in in Ix as (i & N & K). assert (i < length l)%nat by (apply nth_error_Some; congruence). unfold len in *. lia.
  - split; [eapply index_err; eauto|]. unfold index in Ix. pose proof (len_nonneg l).
    destruct (Z.ltb_spec k 0) as [L|L].
    + destruct (Z.ltb_spec (k + len l) 0) as [M|M]; [lia|]. destruct (nth_error l (Z.to_nat (k + len l))) eqn:N; [discriminate|].
      apply nth_error_None in N. unfold len in *. lia.
    + destruct (Z.ltb_spec k 0); [lia|]. destruct (nth_error l (Z.to_nat k)) eqn:N; [discriminate|].
      apply nth_error_None in N. unfold len in *. lia.
Qed.

(** Writing to something that is no provide port of the node changes nothing at all. *)
Theorem wrong_write_is_rejected fuel W nd ins outs c0 evs c l id v :
  fresh_client fuel W nd ins outs c0 -> Forall cok evs -> client_run c0 evs = (c, l) ->
  (forall i, ~ picks (c_world c0) nd id true true i) ->
  exists e, client_step c (CWrite id v) = (c, Raised e) /\
    match id with
    | IdName _ => e = AttributeError
    | IdNum _ => e = IndexError
    | IdPort o => match pt_id (w_ports (c_world c0) o) with
                  | None => e = TypeError
                  | Some k => if (k <? - len (n_provide nd)) || (len (n_provide nd) <=? k) then e = IndexError
                              else e = if pt_provide (w_ports (c_world c0) o) then AttributeError else ValueError
                  end
    end.
Proof.
  intros Fc Ok R Np.
  pose proof Fc as (W' & F' & k' & D0 & name & Nd & Cw & Kinds & Nm & Iv)%fresh_cinv.
  destruct (run_any _ _ _ _ _ Kinds _ _ _ _ _ _ Iv Ok R) as (D1 & k1 & _ & _ & _ & Iv1 & _).
  pose proof (cinv_ids _ _ _ _ _ _ _ _ Iv1) as Ids. rewrite Cw in *. cbn [client_step]. unfold client_write.
  rewrite (ci_node _ _ _ _ _ _ _ _ Iv1), (ci_world _ _ _ _ _ _ _ _ Iv1).
  destruct (write_target W' nd id) as [z|e] eqn:T; [apply (write_target_inv _ _ Ids Kinds) in T as (i & _ & P); destruct (Np i P)|].
  exists e. split; [reflexivity|]. destruct id as [o|s|k].
  - unfold write_target, is_own in T. destruct (pt_id (w_ports W' o)) as [k|] eqn:Pi; cbn [bind] in T; [|congruence].
    pose proof (index_range (n_provide nd) k) as Ir.
    destruct (index (n_provide nd) k) as [q|e'] eqn:Ix; cbn [bind] in T; [rewrite Ir|destruct Ir as [Ie ->]; congruence].
    destruct (Nat.eqb_spec q o) as [->|Nq]; cbn [bind] in T; [discriminate|].
    destruct (pt_provide (w_ports W' o)); cbn [bind] in T; congruence.
  - unfold write_target in T. destruct (node_find W' nd (Some s)) as [[t|o]|] eqn:Fd; cbn [bind] in T; try congruence.
    destruct (pt_provide (w_ports W' o)) eqn:Pv; cbn [bind] in T; [|congruence].
    apply find_named in Fd as (p & i & _ & N). rewrite (Ids _ _ _ N) in T. discriminate.
  - unfold write_target in T. destruct (index (n_provide nd) k) as [q|e'] eqn:Ix; cbn [bind] in T.
    + apply index_in in Ix as (i & N & _). rewrite (Ids true _ _ N) in T. discriminate.
    + apply index_err in Ix. congruence.
Qed.
Print Assumptions wrong_write_is_rejected.

(** Reading what is neither a port of the node nor a type name changes nothing. *)
Theorem wrong_read_is_rejected fuel W nd ins outs c0 evs c l id :
  fresh_client fuel W nd ins outs c0 -> Forall cok evs -> client_run c0 evs = (c, l) ->
  (forall p i, ~ picks (c_world c0) nd id false p i) ->
  (forall s t, id = IdName s -> ~ named_type (c_world c0) nd s t) ->
  exists e, client_step c (CRead id) = (c, Raised e) /\
    match id with
    | IdName _ => e = AttributeError
    | IdNum _ => e = IndexError
    | IdPort o => let ports := ports_of nd (pt_provide (w_ports (c_world c0) o)) in
                  match pt_id (w_ports (c_world c0) o) with
                  | None => e = TypeError
                  | Some k => if (k <? - len ports) || (len ports <=? k) then e = IndexError else e = ValueError
                  end
    end.
Proof.
  intros Fc Ok R Np Nt.
  pose proof Fc as (W' & F' & k' & D0 & name & Nd & Cw & Kinds & Nm & Iv)%fresh_cinv.
  destruct (run_any _ _ _ _ _ Kinds _ _ _ _ _ _ Iv Ok R) as (D1 & k1 & _ & _ & _ & Iv1 & _).
  pose proof (cinv_ids _ _ _ _ _ _ _ _ Iv1) as Ids. rewrite Cw in *. cbn [client_step]. unfold client_read.
  rewrite (ci_node _ _ _ _ _ _ _ _ Iv1), (ci_world _ _ _ _ _ _ _ _ Iv1).
  destruct (read_target W' nd id) as [[r z]|e] eqn:T.
  { apply (read_target_inv _ _ Ids Kinds) in T as [(i & _ & P)|(_ & s & t & -> & Nm' & _)]; [destruct (Np _ _ P)|destruct (Nt s t eq_refl Nm')]. }
  exists e. split; [reflexivity|]. unfold read_target in T. destruct id as [o|s|k].
  - cbv zeta. set (ports := ports_of nd (pt_provide (w_ports W' o))).
    replace (if pt_provide (w_ports W' o) then n_provide nd else n_require nd) with ports in T
      by (unfold ports, ports_of; destruct (pt_provide _); reflexivity).
    unfold is_own in T. destruct (pt_id (w_ports W' o)) as [k|] eqn:Pi; cbn [bind] in T; [|congruence].
    pose proof (index_range ports k) as Ir.
    destruct (index ports k) as [q|e'] eqn:Ix; cbn [bind] in T; [rewrite Ir|destruct Ir as [Ie ->]; congruence].
    destruct (Nat.eqb_spec q o) as [->|Nq]; cbn [bind need_id] in T; congruence.
  - destruct (node_find W' nd (Some s)) as [[t|o]|] eqn:Fd; cbn [bind] in T; try congruence.
    + apply named_type_find in Fd. destruct (Nt s t eq_refl Fd).
    + apply find_named in Fd as (p & i & _ & N). rewrite (Ids _ _ _ N) in T. discriminate.
  - destruct (index (n_require nd) k) as [q|e'] eqn:Ix; cbn [bind] in T.
    + apply index_in in Ix as (i & N & _). rewrite (Ids false _ _ N) in T. discriminate.
    + apply index_err in Ix. congruence.
Qed.
Print Assumptions wrong_read_is_rejected.

(** ** Examples: a client with the node of tests/node_data_test.py *)

Definition client_with (s : str) : option (world * node * client) :=
  match loads empty_world s with
  | Ok (W, nd) =>
    match attach_node 100 (new_client W) nd with
    | Ok c => Some (W, nd, c)
    | Err _ => None
    end
  | Err _ => None
  end.

Lemma client_facts :
  match client_with test_text with
  | Some (W, nd, c) =>
    n_require nd = [4%nat; 5%nat; 6%nat] /\ n_provide nd = [0%nat; 1%nat; 2%nat; 3%nat] /\
    map (fun o => denote 100 (w_types (c_world c)) (pt_elem (w_ports (c_world c) o))) [4; 5; 6]%nat = map Some test_ins /\
    map (fun o => denote 100 (w_types (c_world c)) (pt_elem (w_ports (c_world c) o))) [0; 1; 2; 3]%nat = map Some test_outs /\
    map (fun o => pt_provide (w_ports W o)) [0; 1; 2; 3; 4; 5; 6]%nat = [true; true; true; true; false; false; false]
  | None => False
  end.
Proof. vm_compute. repeat split. Qed.

Lemma map_forall2 {A B} (f : A -> option B) : forall l ts, map f l = map Some ts -> Forall2 (fun o t => f o = Some t) l ts.
Proof.
  induction l as [|o l IH]; intros [|t ts] E; try discriminate; [constructor|]. cbn [map] in E.
  apply (f_equal (fun x => match x with a :: r => Some (a, r) | [] => None end)) in E.
  pose proof (f_equal (option_map fst) E) as E1. pose proof (f_equal (option_map snd) E) as E2. cbn [option_map fst snd] in E1, E2.
  constructor; [congruence|apply IH; congruence].
Qed.

Lemma Forall2_weaken {A B} (P Q : A -> B -> Prop) l m : (forall a b, P a b -> Q a b) -> Forall2 P l m -> Forall2 Q l m.
Proof. intros H. induction 1; constructor; auto. Qed.

Lemma client_with_inv s W nd c : client_with s = Some (W, nd, c) ->
  loads empty_world s = Ok (W, nd) /\ attach_node 100 (new_client W) nd = Ok c.
Proof.
  unfold client_with. intros E. destruct (loads empty_world s) as [[W0 nd0]|]; [|discriminate].
  destruct (attach_node 100 (new_client W0) nd0) as [c1|] eqn:A; [|discriminate]. injection E as -> -> ->. auto.
Qed.

Example client_fresh : exists W nd c, client_with test_text = Some (W, nd, c) /\ fresh_client 100 W nd test_ins test_outs c.
Proof.
  pose proof client_facts as X. destruct (client_with test_text) as [[[W nd] c]|] eqn:E; [|contradiction].
  destruct X as (R & P & M1 & M2 & V). exists W, nd, c. split; [reflexivity|].
  apply client_with_inv in E as [_ A].
  apply map_forall2 in M1, M2. cbn [map] in V. injection V as V1 V2 V3 V4 V5 V6 V7.
  constructor.
  - unfold separate. rewrite R, P. cbn [In]. intros o. lia.
  - clear M1 M2. split; rewrite ?R, ?P; cbn [In]; intros o [<-|[<-|[<-|F]]]; try assumption; try contradiction.
    destruct F as [<-|[]]. assumption.
  - exact A.
  - rewrite R. eapply Forall2_weaken; [|exact M1]. intros o t D. exists 100%nat. apply denote_sound. exact D.
  - rewrite P. eapply Forall2_weaken; [|exact M2]. intros o t D. exists 100%nat. apply denote_sound. exact D.
  - repeat (apply Forall_cons || apply Forall_nil || split); cbn; try lia; try discriminate; repeat constructor; lia.
  - repeat (apply Forall_cons || apply Forall_nil || split); cbn; try lia; try discriminate; repeat constructor; lia.
  - repeat (apply Forall_cons || apply Forall_nil); left; try exact I. cbn. split; [repeat constructor|].
    repeat constructor; cbn; intuition discriminate.
Qed.

(** What the peer sends: it opens the output file, announces the input file and
    writes to it. *)
Definition open_msg (a : Z) : bytes := hdr_wire 0x3FFFFC00 false ++ le_num 4 10 ++ le_num 4 a.
Definition in_info : finfo := mk_finfo (lit "TestNode.in") 27 0 None 0 (zeros 32).
Definition history : list cev :=
  [CWrite (IdName (lit "MainBeam")) (VInt 1); CStart; CListen true; CConnect 5%nat; CMsg (open_msg 0);
   CMsg (announce_msg in_info 0x10000); CWrite (IdNum 1) (VInt 2); CWrite (IdNum (-4)) (VInt 513); CWork; CWork; CWork;
   CMsg (port_update test_ins 0x10000 0 [7]); CMsg (port_update test_ins 0x10000 1 (lit "Hi" ++ zeros 6));
   CWrite (IdPort 0%nat) (VInt 3); CRead (IdNum 0); CRead (IdName (lit "StrSignal")); CRead (IdPort 2%nat);
   CWork; CWork; CWork; CWork; CWork; CWork; CWork].

Definition client_after (s : str) (evs : list cev) : option (client * list (pres (option oval))) :=
  match client_with s with Some (_, _, c) => Some (client_run c evs) | None => None end.

Lemma client_after_with s evs W nd c : client_with s = Some (W, nd, c) -> client_after s evs = Some (client_run c evs).
Proof. unfold client_after. intros ->. reflexivity. Qed.

Example ex_history :
  match client_after test_text history with
  | Some (c, l) =>
    map (fun x => match x with Done (Some v) => Some v | _ => None end) (firstn 3 (skipn 14 l)) =
      [Some (OVal (VInt 7)); Some (OVal (VStr (lit "Hi"))); Some (OInit (IVInt 4294967295))] /\
    c_calls c = [(4%nat, VInt 7); (5%nat, VStr (lit "Hi"))] /\
    flat_map data_msg (map snd (y_sent (c_sys c))) =
      [(0, [255; 255; 1] ++ repeat 255 14); (2, [2]); (0, [1; 2]); (0, [3; 0])] /\
    peer_image c 0 (zeros 17) = [3; 0; 2] ++ repeat 255 14
  | None => False
  end.
Proof. vm_compute. repeat split. Qed.

(** The hypotheses of the theorems hold for this history. *)
Example ex_settled :
  match client_after test_text history with
  | Some (c, l) => output_settled c 0 /\ input_open c 0x10000 /\ unlocked c /\ c_hung c = false
  | None => False
  end.
Proof.
  destruct (client_after test_text history) as [[c l]|] eqn:E; [|vm_compute in E; discriminate].
  assert (X : match client_after test_text history with
    | Some (c, l) => match c_node c with
        | Some (nd, D) => (d_in D, d_out D, d_locked D, c_hung c, length (fm_queue (c_fm c)), y_wrk (c_sys c),
            match d_in D with Some f => (f_isOpen (fm_heap (c_fm c) f), f_address (fm_heap (c_fm c) f)) | None => (false, None) end,
            match d_out D with Some f => (f_isOpen (fm_heap (c_fm c) f), f_address (fm_heap (c_fm c) f)) | None => (false, None) end)
          = (Some 0%nat, Some 1%nat, false, false, 0%nat, WRun (Some 5%nat), (true, Some 0x10000), (true, Some 0))
        | None => False end
    | None => False end) by (vm_compute; reflexivity).
  rewrite E in X. destruct (c_node c) as [[nd D]|] eqn:N; [|contradiction].
  injection X as Di Do Lk Hu Q Wk A B. rewrite Di in A. rewrite Do in B. injection A as A1 A2. injection B as B1 B2.
  repeat split.
  - eauto.
  - destruct (fm_queue (c_fm c)); [reflexivity|discriminate].
  - exists nd, D, 1%nat. auto.
  - exists nd, D, 0%nat. auto.
  - exists nd, D. auto.
  - exact Hu.
Qed.

(** A port of the wrong kind is refused with an AttributeError instead of the
    ValueError the code means to raise: the message asks for [self.port]. *)
Theorem wrong_kind_is_value_error_refuted :
  ~ (forall fuel W nd ins outs c s v i, fresh_client fuel W nd ins outs c -> named (c_world c) nd s false i ->
       snd (client_step c (CWrite (IdName s) v)) = Raised ValueError).
Proof.
  intros H. destruct client_fresh as (W & nd & c & E & Fc).
  assert (X : match client_with test_text with
    | Some (W, nd, c) => snd (client_step c (CWrite (IdName (lit "StrSignal")) (VInt 0))) = Raised AttributeError /\
        n_require nd = [4%nat; 5%nat; 6%nat] /\ n_types nd = [0%nat] /\ 
        map (fun o => pt_name (w_ports (c_world c) o)) [4%nat; 5%nat] = [Some (lit "RheostatLevelRqst"); Some (lit "StrSignal")] /\
        dt_name (w_types (c_world c) 0%nat) = Some (lit "InactiveActive_T")
    | None => False end) by (vm_compute; repeat split).
  rewrite E in X. destruct X as (X & R & T & P & N). cbn [map] in P. injection P as P1 P2.
  assert (Y : snd (client_step c (CWrite (IdName (lit "StrSignal")) (VInt 0))) = Raised ValueError).
  { apply (H _ _ _ _ _ _ _ _ 1%nat Fc). exists 5%nat. cbn [ports_of]. rewrite R, T.
    split; [reflexivity|]. split; [exact P2|]. split; [|split; [|discriminate]].
    - intros t [<-|[]]. rewrite N. discriminate.
    - intros [|[|q]] o' L M; try lia. injection M as <-. rewrite P1. discriminate. }
  rewrite X in Y. discriminate.
Qed.
Print Assumptions wrong_kind_is_value_error_refuted.

(** One value that does not fit and the socket thread is lost with the next update. *)
Example ex_bad_write_hangs :
  match client_after test_text [CStart; CConnect 5%nat; CMsg (announce_msg in_info 0x10000); CListen true;
      CMsg (port_update test_ins 0x10000 0 [7]); CWrite (IdName (lit "VehicleSpeed")) (VInt 65536);
      CMsg (port_update test_ins 0x10000 0 [8]); CMsg (port_update test_ins 0x10000 0 [9])] with
  | Some (c, l) => skipn 4 l = [Done None; Raised StructError; Blocked; Blocked] /\
      c_hung c = true /\ c_calls c = [(4%nat, VInt 7)]
  | None => False
  end.
Proof. vm_compute. repeat split. Qed.

Theorem clients_never_hang_refuted :
  ~ (forall fuel W nd ins outs c0 evs c l, fresh_client fuel W nd ins outs c0 -> Forall cok evs ->
       client_run c0 evs = (c, l) -> c_hung c = false).
Proof.
  intros H. pose proof ex_bad_write_hangs as X.
  destruct client_fresh as (W & nd & c & E & Fc). rewrite (client_after_with _ _ _ _ _ E) in X.
  match type of X with context [client_run c ?evs] => destruct (client_run c evs) as [c' l] eqn:R; pose proof (fun ok => H _ _ _ _ _ _ evs c' l Fc ok R) as Y end.
  destruct X as (_ & Hu & _). assert (K : c_hung c' = false).
  { apply Y. clear.
    repeat (apply Forall_cons; [exact I || (vm_compute; repeat constructor; discriminate)|]). apply Forall_nil. }
  rewrite Hu in K. discriminate K.
Qed.
Print Assumptions clients_never_hang_refuted.
