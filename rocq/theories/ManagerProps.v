(** Properties of the file manager: C18-C22, C49. *)
From Coq Require Import ZifyBool ZifyNat Lia.
From Verif Require Import Py PyLemmas RmfModel RmfSpec RmfProofs FileModel FileProofs FileMapSpec FileMapProofs
  ManagerModel ManagerSpec ManagerProofs.
Ltac Zify.zify_post_hook ::= Z.div_mod_to_equations.

(** A small program used by the examples: an output file, a definition file and a
    requested input file. *)
Definition demo_file (k : fkind) (name : str) (d : bytes) (h : bool) : file :=
  mk_file k (mk_finfo name (len d) 0 None 0 (zeros 32)) false false h d.
Definition demo_heap : heap := fun i =>
  match i with
  | 0%nat => demo_file KOutput (lit "TestNode.out") [1; 2; 3] false
  | 1%nat => demo_file KFile (lit "TestNode.apx") (lit "APX/1.2") false
  | _ => demo_file KInput (lit "TestNode.in") [0; 0; 0; 0] true
  end.
Definition demo_L (j : nat) : Prop := (j < 2)%nat.
Definition demo_R (j : nat) : Prop := (j = 2)%nat.

Lemma demo_roles : roles demo_heap 3 demo_L demo_R.
Proof.
  split; unfold demo_L, demo_R.
  - lia.
  - lia.
  - intros [|[|j]]; auto.
  - intros [|[|j]] H; try lia; vm_compute; auto.
Qed.

Definition open_msg (a : Z) : bytes := hdr_wire 0x3FFFFC00 false ++ num_wire Little 4 10 ++ num_wire Little 4 a.
Definition demo_before : list ev := [EAttach 0; EAttach 1; ERequest 2; EWrite 0 0 [7]].
Definition demo_after : list ev :=
  [EWork; EWork; EWork; EMsg (open_msg 0); EWrite 0 1 [8; 9]; EWrite 0 2 [5; 5]; EWork; EMsg (open_msg 1); EWork;
   EWrite 0 0 [4]; EWork; EWork].

(** ** C49 *)

(** At every moment of every run, the queue holds exactly the entries that were
    queued and not yet taken; the worker took the others in order and transmitted
    exactly what they ask for, up to a stop request or an entry that cannot be
    encoded. *)
Theorem worker_in_order (H : heap) (n : nat) (evs : list ev) (y : sys) (hist : list qmsg) :
  yrun (fresh H n) evs = (y, hist) ->
  exists done, hist = done ++ fm_queue (y_fm y) /\
  match y_wrk y with
  | WNew => False
  | WRun _ => ~ In QStop done /\ y_sent y = expected None done
  | WEnded => exists d, done = d ++ [QStop] /\ ~ In QStop d /\ y_sent y = expected None d
  | WDied e => exists d q, done = d ++ [q] /\ wire_of q = Err e /\ ~ In QStop d /\ y_sent y = expected None d
  end.
Proof.
  intros Hr.
  assert (I : yinv2 y hist).
  { change hist with ([] ++ hist). eapply yinv2_run; [apply fresh_inv2 | eauto]. }
  destruct I as (done & E & W & T). exists done. split; auto.
  pose proof (work_all_expected done None) as X. rewrite W in X.
  destruct (y_wrk y) as [|t| |e]; auto.
  - tauto.
  - destruct X as (d & r & Ed & A & _ & B). destruct (T ltac:(discriminate)) as (d' & q & Ed' & Wd).
    exists d. assert (r = []) as ->; [|auto].
    destruct r as [|q' r] using rev_ind; auto. exfalso.
    rewrite Ed in Ed'. rewrite app_comm_cons, app_assoc in Ed'. apply app_inj_tail in Ed' as [Ed' <-].
    destruct Wd as (t & o & Wd). pose proof (work_all_expected d' None) as Y. rewrite Wd in Y.
    destruct Y as (Y & _). apply Y. rewrite <- Ed'. apply in_or_app. right. left. auto.
  - destruct X as (d & q0 & r & Ed & A & B & _ & C). destruct (T ltac:(discriminate)) as (d' & q & Ed' & Wd).
    exists d, q0. assert (r = []) as ->; [|auto].
    destruct r as [|q' r] using rev_ind; auto. exfalso.
    rewrite Ed in Ed'. rewrite app_comm_cons, app_assoc in Ed'. apply app_inj_tail in Ed' as [Ed' <-].
    destruct Wd as (t & o & Wd). pose proof (work_all_expected d' None) as Y. rewrite Wd in Y.
    destruct Y as (_ & Y & _). specialize (Y q0). rewrite A in Y.
    assert (false = true); [|discriminate]. apply Y. rewrite <- Ed'. apply in_or_app. right. left. auto.
Qed.
Print Assumptions worker_in_order.

(** A running worker never stalls: one turn takes one entry. *)
Theorem worker_progress (y : sys) (t : option nat) (q : qmsg) (r : list qmsg) :
  y_wrk y = WRun t -> fm_queue (y_fm y) = q :: r ->
  fm_queue (y_fm (work y)) = r /\ exists out, y_sent (work y) = y_sent y ++ out /\ (length out <= 1)%nat.
Proof.
  intros Ew Eq. unfold work. rewrite Ew, Eq. destruct (work1 (WRun t) q) as [w o] eqn:E. cbn. split; auto.
  exists o. split; auto. unfold work1 in E.
  destruct q; try (destruct (wire_of _) as [[?|]|]); try destruct t; invc E; cbn; lia.
Qed.
Print Assumptions worker_progress.

(** So enough turns empty the queue, or the worker has stopped. *)
Theorem worker_drains (k : nat) : forall y,
  (length (fm_queue (y_fm y)) <= k)%nat ->
  fm_queue (y_fm (turns k y)) = [] \/ forall t, y_wrk (turns k y) <> WRun t.
Proof.
  induction k as [|k IH]; intros y Hk.
  - left. cbn. destruct (fm_queue (y_fm y)); cbn in *; auto; lia.
  - cbn [turns]. destruct (y_wrk y) eqn:Ew; try (right; intros t';
      assert (X : work y = y) by (unfold work; rewrite Ew; auto); rewrite X; clear IH Hk;
      assert (Y : turns k y = y) by (clear -X; induction k; cbn; congruence); rewrite Y, Ew; discriminate).
    destruct (fm_queue (y_fm y)) as [|q r] eqn:Eq.
    + assert (X : work y = y) by (unfold work; rewrite Ew, Eq; auto). rewrite X. apply IH. rewrite Eq. cbn; lia.
    + destruct (worker_progress y transmit q r Ew Eq) as (A & _). apply IH. rewrite A. cbn in Hk. lia.
Qed.
Print Assumptions worker_drains.

(** The bytes transmitted for each kind of entry. *)
Theorem transmitted_format :
  (forall info, wire_of (QFileInfo info) = Ok (Some (hdr_wire 0x3FFFFC00 false ++ info))) /\
  (forall a d, 0 <= a < 2 ^ 30 -> wire_of (QWrite a d) = Ok (Some (hdr_wire a false ++ d))) /\
  (forall a d, 2 ^ 30 <= a -> wire_of (QWrite a d) = Err ValueError) /\
  (forall a, 0 <= a < 2 ^ 32 -> wire_of (QFileOpen a) = Ok (Some (open_msg a))) /\
  (forall a, ~ 0 <= a < 2 ^ 32 -> wire_of (QFileOpen a) = Err StructError).
Proof.
  split; [|split; [|split; [|split]]]; intros; cbn [wire_of].
  - rewrite cmd_wire. auto.
  - rewrite packHeader_wire by auto. auto.
  - rewrite packHeader_rejects by auto. auto.
  - rewrite packFileOpen_wire by auto. cbn [bind]. rewrite cmd_wire. auto.
  - rewrite packFileOpen_rejects by auto. auto.
Qed.
Print Assumptions transmitted_format.

(** Example: a stop request in the middle; the write queued after it is not sent. *)
Example worker_stop_ex :
  let y := fst (yrun (fresh demo_heap 3)
     (demo_before ++ [EConnect 5%nat; EMsg (open_msg 0); EStop; EWrite 0 0 [4]] ++ repeat EWork 9)) in
  y_wrk y = WEnded /\ map fst (y_sent y) = [5; 5; 5]%nat /\ fm_queue (y_fm y) = [QWrite 0 [4]] /\
  nth_error (y_sent y) 2 = Some (5%nat, [0; 0; 7; 2; 3]).
Proof. vm_compute. auto. Qed.

(** After [stop] the same manager cannot be started again. *)
Example restart_ex : snd (start (mk_sys (init_fm demo_heap 3) WEnded [])) = Some AttributeError.
Proof. reflexivity. Qed.

(** ** C18 *)

Theorem nothing_before_connect (H : heap) (n : nat) (evs : list ev) (y : sys) (hist : list qmsg) :
  Forall (fun e => ~ is_connect e) evs -> yrun (fresh H n) evs = (y, hist) -> y_sent y = [].
Proof.
  intros F Hr. assert (I : yinv y hist).
  { change hist with ([] ++ hist). eapply yinv_run; [apply fresh_inv | eauto]. }
  apply sent_prefix in I as (d & r & E & -> & _). pose proof (noconnect_run _ _ _ _ F Hr) as N.
  rewrite <- (app_nil_r d). rewrite expected_none; auto. intros h Hi. apply (N h). rewrite E. apply in_or_app; auto.
Qed.
Print Assumptions nothing_before_connect.

(** After a connection, whatever happened before and happens afterwards, the first
    transmissions are the announcements of the files that were local at that
    moment, one each, in the order of the local map. *)
Theorem startup_announcements (H : heap) (n : nat) (evs1 evs2 : list ev) (h : nat) (y1 y2 : sys) (q1 q2 : list qmsg) :
  Forall (fun e => ~ is_connect e) evs1 -> Forall (fun e => ~ is_connect e) evs2 ->
  yrun (fresh H n) evs1 = (y1, q1) ->
  (forall i, In i (m_items (fm_local (y_fm y1))) -> exists a, finfo_ok (f_info (fm_heap (y_fm y1) i)) a) ->
  yrun y1 (EConnect h :: evs2) = (y2, q2) ->
  exists anns, Forall2 (fun i b => announcement (f_info (fm_heap (y_fm y1) i)) b) (m_items (fm_local (y_fm y1))) anns /\
  (exists k, firstn (length anns) (y_sent y2) = firstn k (map (fun b => (h, b)) anns)) /\
  ((exists t, y_wrk y2 = WRun t) -> fm_queue (y_fm y2) = [] ->
   firstn (length anns) (y_sent y2) = map (fun b => (h, b)) anns).
Proof.
  intros F1 F2 R1 Fi R2.
  set (items := m_items (fm_local (y_fm y1))) in *. set (H1 := fm_heap (y_fm y1)) in *.
  assert (Fi' : forall i, In i items -> finfo_ok (f_info (H1 i)) (addr H1 i)).
  { intros i Hi. destruct (Fi i Hi) as (a & Ha). pose proof (finfo_addr H1 i a Ha). subst a. auto. }
  exists (map (fun i => hdr_wire 0x3FFFFC00 false ++ ann_wire H1 i) items).
  assert (I1 : yinv y1 q1).
  { change q1 with ([] ++ q1). eapply yinv_run; [apply fresh_inv | eauto]. }
  assert (I2 : yinv y2 (q1 ++ q2)) by (eapply yinv_run; eauto).
  cbn [yrun ystep] in R2.
  destruct (yrun (mk_sys (st_of (apistep (y_fm y1) (EConnect h))) (y_wrk y1) (y_sent y1)) evs2) as [y' q'] eqn:R3. invc R2.
  assert (Eq : added (y_fm y1) (st_of (onConnected (y_fm y1) h)) =
               QConnect h :: map (fun i => QFileInfo (ann_wire H1 i)) items).
  { apply added_some. unfold onConnected. fold items. rewrite (announce_ok H1 items Fi' (put (y_fm y1) (QConnect h)) eq_refl).
    cbn [st_of fine fst fm_queue put]. rewrite <- app_assoc. auto. }
  set (anns := map (fun i => QFileInfo (ann_wire H1 i)) items) in *.
  assert (N1 : forall k, ~ In (QConnect k) q1) by (apply (noconnect_run _ _ _ _ F1 R1)).
  rewrite Eq in I2. apply sent_prefix in I2 as (d & r & Ed & Es & Er).
  rewrite map_length, map_map.
  split; [|split].
  - clear -Fi'. induction items as [|i l IH]; cbn [map]; constructor.
    + apply ann_decodes. apply Fi'. left; auto.
    + apply IH. intros; apply Fi'; right; auto.
  - (* how far did the worker get? *)
    rewrite Es. clear Er Es.
    destruct (Compare_dec.le_lt_dec (length d) (length q1)) as [Hd|Hd].
    + exists 0%nat. destruct (app_cut q1 (((QConnect h :: anns) ++ q')) d r Ed Hd) as (e & Ee & _).
      replace d with (d ++ []) by apply app_nil_r. rewrite expected_none; [cbn; rewrite firstn_nil; auto|].
      intros k Hk. apply (N1 k). rewrite Ee. apply in_or_app; auto.
    + assert (exists d', d = q1 ++ QConnect h :: d' /\ d' ++ r = anns ++ q') as (d' & -> & Ed').
      { destruct (app_cut d r (q1 ++ [QConnect h]) (anns ++ q')) as (d' & -> & E').
        - rewrite <- Ed, <- app_assoc. auto.
        - rewrite app_length. cbn. lia.
        - exists d'. rewrite <- app_assoc. auto. }
      rewrite expected_none by auto. cbn [expected].
      destruct (Compare_dec.le_lt_dec (length d') (length anns)) as [Hd'|Hd'].
      * exists (length d'). assert (X : d' ++ skipn (length d') anns = anns).
        { destruct (app_cut anns q' d' r (eq_sym Ed') Hd') as (e & Ee & _). rewrite Ee at 1 2.
          rewrite skipn_app, skipn_all, Nat.sub_diag. auto. }
        rewrite (expected_anns_part H1 items h d' _ X). rewrite firstn_firstn.
        f_equal. unfold anns in Hd'. rewrite map_length in Hd'. lia.
      * exists (length items). assert (exists d2, d' = anns ++ d2) as (d2 & ->).
        { destruct (app_cut d' r anns q' Ed' ltac:(lia)) as (e & Ee & _). eauto. }
        unfold anns. rewrite expected_anns. rewrite firstn_app, map_length, Nat.sub_diag. cbn [firstn]. rewrite app_nil_r. auto.
  - intros Hw Hq. rewrite (Er Hw), Hq, app_nil_r in Ed. rewrite Es, <- Ed.
    rewrite expected_none by auto. cbn [expected]. rewrite <- app_assoc || idtac. cbn [app]. cbn [expected].
    unfold anns. rewrite expected_anns. rewrite firstn_app, map_length, Nat.sub_diag. cbn [firstn]. rewrite app_nil_r.
    rewrite firstn_all2; auto. rewrite map_length. auto.
Qed.
Print Assumptions startup_announcements.

Example startup_ex :
  let y1 := fst (yrun (fresh demo_heap 3) demo_before) in
  let y2 := fst (yrun y1 (EConnect 5%nat :: demo_after)) in
  m_items (fm_local (y_fm y1)) = [0; 1]%nat /\
  (forall i, In i (m_items (fm_local (y_fm y1))) -> exists a, finfo_ok (f_info (fm_heap (y_fm y1) i)) a) /\
  map (fun p => skipn 52 (snd p)) (firstn 2 (y_sent y2)) = [lit "TestNode.out"; lit "TestNode.apx"].
Proof.
  split; [reflexivity|]. split; [|reflexivity].
  intros i [<-|[<-|[]]]; [exists 0 | exists 0x4000000]; unfold finfo_ok; vm_compute;
    (repeat split); try discriminate; repeat constructor; discriminate.
Qed.

(** The local map is in address order, no two files share a byte, and every file is
    properly placed, whatever the peer sends. *)
Theorem local_files_stay_placed (H : heap) (n : nat) (L R : nat -> Prop) (evs : list ev) (y : sys) (hist : list qmsg) :
  roles H n L R -> keeps_roles H L R evs -> yrun (fresh H n) evs = (y, hist) ->
  map_ok (fm_heap (y_fm y)) (fm_local (y_fm y)) /\
  forall i, In i (m_items (fm_local (y_fm y))) -> well_placed (fm_heap (y_fm y)) i.
Proof.
  intros Ro K Hr. pose proof (winv_fresh _ _ _ _ Ro _ _ _ K Hr) as W. split; [apply W | intros; eapply w_wp; eauto].
Qed.
Print Assumptions local_files_stay_placed.

(** ** C19 *)

(** At every moment: replaying what was queued so far on any replica of the right
    size gives the file, for every local file the peer has opened. *)
Theorem replica_converges (H : heap) (n : nat) (L R : nat -> Prop) (evs : list ev) (y : sys) (hist : list qmsg)
    (i : nat) (a : Z) (rep : bytes) :
  roles H n L R -> keeps_roles H L R evs -> yrun (fresh H n) evs = (y, hist) ->
  In i (m_items (fm_local (y_fm y))) -> f_isOpen (fm_heap (y_fm y) i) = true ->
  f_address (fm_heap (y_fm y) i) = Some a -> len rep = f_length (fm_heap (y_fm y) i) ->
  replay a rep hist = f_data (fm_heap (y_fm y) i).
Proof.
  intros Ro K Hr. pose proof (winv_fresh _ _ _ _ Ro _ _ _ K Hr) as W. intros. eapply w_rep; eauto.
Qed.
Print Assumptions replica_converges.

(** The same in terms of the bytes transmitted over one connection, once the worker
    has emptied the queue. *)
Theorem replica_converges_wire (H : heap) (n : nat) (L R : nat -> Prop) (evs1 evs2 : list ev) (h : nat) (y : sys)
    (hist : list qmsg) (i : nat) (a : Z) (rep : bytes) :
  roles H n L R -> keeps_roles H L R (evs1 ++ EConnect h :: evs2) ->
  Forall (fun e => ~ is_connect e /\ ~ is_msg e) evs1 -> Forall (fun e => ~ is_connect e) evs2 ->
  yrun (fresh H n) (evs1 ++ EConnect h :: evs2) = (y, hist) ->
  (exists t, y_wrk y = WRun t) -> fm_queue (y_fm y) = [] ->
  In i (m_items (fm_local (y_fm y))) -> f_isOpen (fm_heap (y_fm y) i) = true ->
  f_address (fm_heap (y_fm y) i) = Some a -> len rep = f_length (fm_heap (y_fm y) i) ->
  fold_left (apply_write a) (flat_map data_msg (map snd (y_sent y))) rep = f_data (fm_heap (y_fm y) i).
Proof.
  intros Ro K F1 F2 Hr Hw Hq Hi Ho Ha Hl.
  pose proof K as [Nd Fo].
  rewrite yrun_app in Hr. destruct (yrun (fresh H n) evs1) as [y1 q1] eqn:R1.
  destruct (yrun y1 (EConnect h :: evs2)) as [y2 q2] eqn:R2. invc Hr.
  assert (I1 : yinv y1 q1) by (change q1 with ([] ++ q1); eapply yinv_run; [apply fresh_inv | eauto]).
  assert (I2 : yinv y (q1 ++ q2)) by (eapply yinv_run; eauto).
  assert (F1c : Forall (fun e => ~ is_connect e) evs1) by (eapply Forall_impl; [|exact F1]; cbn; tauto).
  assert (F1m : Forall (fun e => ~ is_msg e) evs1) by (eapply Forall_impl; [|exact F1]; cbn; tauto).
  rewrite flat_map_app in Nd. cbn [flat_map attaches app] in Nd.
  apply Forall_app in Fo as [Fo1 Fo2].
  assert (K1 : keeps_roles H L R evs1).
  { split; auto. clear -Nd. induction (flat_map attaches evs1); [constructor|]. cbn [app] in Nd. invc Nd. constructor; auto.
    intros X. apply H1. apply in_or_app; auto. }
  pose proof (winv_fresh _ _ _ _ Ro _ _ _ K1 R1) as W1.
  assert (No : forall j, L j -> f_isOpen (fm_heap (y_fm y1) j) = false).
  { eapply noopen_run; eauto. intros j Hj. destruct (ro_local _ _ _ _ Ro j Hj) as (_ & X & _). exact X. }
  pose proof (winv_restart _ _ _ _ _ _ W1 No) as W0.
  assert (At : forall j, In j (m_items (fm_local (y_fm y1))) -> In j (flat_map attaches evs1)).
  { intros j Hj. destruct (attach_run _ _ _ _ R1 j Hj) as [[]|]; auto. }
  assert (W2 : winv H n L R (y_fm y) ([] ++ q2)).
  { eapply winv_run; eauto.
    - cbn [flat_map attaches app]. clear -Nd. induction (flat_map attaches evs1); auto. cbn [app] in Nd. invc Nd. auto.
    - cbn [flat_map attaches app]. intros j Hj Hin. apply At in Hin. clear -Nd Hj Hin.
      induction (flat_map attaches evs1); [contradiction|]. cbn [app] in Nd. invc Nd. destruct Hin as [<-|Hin]; auto.
      apply H1. apply in_or_app; auto. }
  cbn [app] in W2.
  rewrite <- (w_rep _ _ _ _ _ _ W2 i a rep Hi Ho Ha Hl).
  apply sent_prefix in I2 as (d & r & Ed & Es & Er). rewrite (Er Hw), Hq, app_nil_r in Ed. subst d.
  rewrite Es. rewrite expected_none by (apply (noconnect_run _ _ _ _ F1c R1)).
  cbn [yrun ystep] in R2.
  destruct (yrun (mk_sys (st_of (apistep (y_fm y1) (EConnect h))) (y_wrk y1) (y_sent y1)) evs2) as [y' q'] eqn:R3. invc R2.
  cbn [apistep] in *. unfold onConnected in *.
  pose proof (announce_facts (m_items (fm_local (y_fm y1))) (put (y_fm y1) (QConnect h))) as (_ & _ & _ & _ & _ & q & F & G).
  assert (Eq : added (y_fm y1) (st_of (announce (put (y_fm y1) (QConnect h)) (m_items (fm_local (y_fm y1))))) = QConnect h :: q).
  { apply added_some. rewrite F. cbn [put fm_queue]. rewrite <- app_assoc. auto. }
  rewrite Eq in *. cbn [app expected].
  assert (Nq : forall k, ~ In (QConnect k) q).
  { pose proof (announce_only (m_items (fm_local (y_fm y1))) (put (y_fm y1) (QConnect h)) _ F) as X.
    intros k Hk. apply X in Hk as (b & Hb). discriminate. }
  rewrite peer_replay.
  - unfold replay. cbn [flat_map data_of app]. auto.
  - intros k Hk. apply in_app_iff in Hk as [Hk|Hk]; [eapply Nq; eauto | eapply (noconnect_run _ _ _ _ F2 R3); eauto].
  - intros x d Hx. eapply (w_q _ _ _ _ _ _ W2). right. auto.
Qed.
Print Assumptions replica_converges_wire.

Example replica_ex :
  let evs := demo_before ++ EConnect 5%nat :: demo_after in
  let y := fst (yrun (fresh demo_heap 3) evs) in
  keeps_roles demo_heap demo_L demo_R evs /\ fm_queue (y_fm y) = [] /\ f_isOpen (fm_heap (y_fm y) 0%nat) = true /\
  f_data (fm_heap (y_fm y) 0%nat) = [4; 8; 9] /\
  flat_map data_msg (map snd (y_sent y)) = [(0, [7; 2; 3]); (1, [8; 9]); (0, [7; 8; 9]); (0, [4])].
Proof.
  split; [|vm_compute; auto]. split; [repeat constructor; cbn; intuition lia|].
  repeat constructor; unfold demo_L, demo_R; lia.
Qed.

(** ** C20 *)

(** Whatever the state and the message: a data message leaves everything as it is,
    except possibly the contents of one open remote file. *)
Theorem data_message_frame (s : fm) (msg : bytes) (k a : Z) (more : bool) :
  unpackHeader msg = (k, Some a, more) -> a < 0x3FFFFC00 ->
  let s' := st_of (onMsgReceived s msg) in
  fm_local s' = fm_local s /\ fm_remote s' = fm_remote s /\ fm_requested s' = fm_requested s /\
  fm_queue s' = fm_queue s /\ fm_next s' = fm_next s /\
  (fm_heap s' = fm_heap s \/
   exists i d, In i (m_items (fm_remote s)) /\ f_isOpen (fm_heap s i) = true /\ f_kind (fm_heap s i) = KInput /\
   fm_heap s' = upd (fm_heap s) i (with_data (fm_heap s i) d) /\ len d = len (f_data (fm_heap s i))).
Proof.
  intros Eh Ha. unfold onMsgReceived. rewrite Eh. destruct (0 <? k); [|cbn; auto 8].
  change RMF_CMD_START_ADDR with 0x3FFFFC00. replace (a =? 0x3FFFFC00) with false by lia.
  replace (a <? 0x3FFFFC00) with true by lia. unfold processFileWrite.
  destruct (findByAddress _ _ _) as [i|] eqn:Ef; [|cbn; auto 8]. apply find_in in Ef.
  destruct (f_isOpen _) eqn:Op; [|cbn; auto 8]. destruct (f_address _); [|cbn; auto 8].
  destruct (_ && _); [|cbn; auto 8]. unfold write3. destruct (f_kind _) eqn:Ek; try (cbn; auto 8; fail).
  set (dd := slice_from msg k). clearbody dd.
  destruct (input_write _ _ _ _) as [[f' r] evs] eqn:Ew. cbn [st_of fst with_heap fm_local fm_remote fm_requested fm_queue fm_next fm_heap].
  repeat (split; [auto|]). right. unfold input_write, file_write in Ew. pose proof (len_nonneg dd).
  destruct ((_ <? 0) || _) eqn:E in Ew.
  - assert (f' = fm_heap s i) as -> by (repeat match type of Ew with context [if ?b then _ else _] => destruct b end; invc Ew; auto).
    exists i, (f_data (fm_heap s i)).
    replace (with_data (fm_heap s i) (f_data (fm_heap s i))) with (fm_heap s i) by (destruct (fm_heap s i); auto). auto 6.
  - assert (f' = with_data (fm_heap s i) (splice (f_data (fm_heap s i)) (a - z) (a - z + len dd) dd)) as ->
      by (repeat match type of Ew with context [if ?b then _ else _] => destruct b end; invc Ew; auto).
    exists i, (splice (f_data (fm_heap s i)) (a - z) (a - z + len dd) dd).
    do 4 (split; [auto|]). apply len_splice; lia.
Qed.
Print Assumptions data_message_frame.

(** Exact effect when the remote files are laid out properly. *)
Theorem data_message_hits (s : fm) (a b n : Z) (more : bool) (d : bytes) (i : nat) :
  map_ok (fm_heap s) (fm_remote s) ->
  0 <= a < 0x3FFFFC00 -> a < 16384 \/ d <> [] ->
  In i (m_items (fm_remote s)) -> range (fm_heap s) i b n -> b <= a < b + n -> a + len d <= b + n ->
  f_isOpen (fm_heap s i) = true -> f_kind (fm_heap s i) = KInput -> len (f_data (fm_heap s i)) = n ->
  let '(s', evs, ex) := onMsgReceived s (hdr_wire a more ++ d) in
  ex = None /\
  evs = (if negb more && f_handled (fm_heap s i) then [(i, InNotify (a - b) (len d))] else []) /\
  (forall j, j <> i -> fm_heap s' j = fm_heap s j) /\
  fm_heap s' i = with_data (fm_heap s i) (f_data (fm_heap s' i)) /\
  (forall x, 0 <= x -> nth_error (f_data (fm_heap s' i)) (Z.to_nat x) =
     if (a <=? b + x) && (b + x <? a + len d) then nth_error d (Z.to_nat (b + x - a))
     else nth_error (f_data (fm_heap s i)) (Z.to_nat x)).
Proof.
  intros Ok Ha Hne Hi [Ra Rl] Hab Hfit Op Ek Hd. unfold onMsgReceived.
  rewrite unpackHeader_wire by (auto; lia).
  replace (0 <? len (hdr_wire a more)) with true by (unfold hdr_wire; destruct (a <? 16384); reflexivity).
  change RMF_CMD_START_ADDR with 0x3FFFFC00. replace (a =? 0x3FFFFC00) with false by lia.
  replace (a <? 0x3FFFFC00) with true by lia. rewrite slice_from_app. unfold processFileWrite.
  assert (findByAddress (fm_heap s) (fm_remote s) a = Some i) as ->.
  { apply find_exact; auto. split; auto. exists b, n. split; [split|]; auto. }
  rewrite Op, Ra, Rl. pose proof (len_nonneg d). replace ((0 <=? a - b) && (a - b + len d <=? n)) with true by lia.
  unfold write3. rewrite Ek. unfold input_write, file_write. rewrite Hd.
  replace ((a - b <? 0) || (n <? a - b + len d)) with false by lia.
  replace (0 <=? len d) with true by lia. cbn [andb f_handled with_data].
  assert (X : forall f : file, forall x : Z, 0 <= x -> f = with_data (fm_heap s i) (splice (f_data (fm_heap s i)) (a - b) (a - b + len d) d) ->
    nth_error (f_data f) (Z.to_nat x) = if (a <=? b + x) && (b + x <? a + len d) then nth_error d (Z.to_nat (b + x - a))
     else nth_error (f_data (fm_heap s i)) (Z.to_nat x)).
  { intros f x Hx ->. cbn [f_data with_data]. rewrite nth_splice by lia.
    replace ((a - b <=? x) && (x <? a - b + len d)) with ((a <=? b + x) && (b + x <? a + len d)) by lia.
    replace (b + x - a) with (x - (a - b)) by lia. auto. }
  destruct more; cbn [negb andb]; [|destruct (f_handled (fm_heap s i))]; cbn [map with_heap fm_heap];
    (split; [auto|]; split; [auto|]; split; [intros; apply upd_other; auto|]; rewrite !upd_same; split; [auto|]; intros; apply X; auto).
Qed.
Print Assumptions data_message_hits.

(** No effect at all if the address belongs to no open remote file or the data do
    not fit into it. *)
Theorem data_message_misses (s : fm) (a : Z) (more : bool) (d : bytes) :
  map_ok (fm_heap s) (fm_remote s) -> 0 <= a < 0x3FFFFC00 ->
  (forall i b n, In i (m_items (fm_remote s)) -> range (fm_heap s) i b n -> b <= a < b + n ->
     f_isOpen (fm_heap s i) = false \/ b + n < a + len d) ->
  onMsgReceived s (hdr_wire a more ++ d) = (s, [], None).
Proof.
  intros Ok Ha Hm. unfold onMsgReceived.
  destruct (Z.ltb_spec a 16384) as [Hs|Hs]; [|destruct d as [|c d]].
  2: { rewrite app_nil_r, unpackHeader_bare by lia. reflexivity. }
  all: rewrite unpackHeader_wire by (try lia; try (left; lia); right; discriminate);
    replace (0 <? len (hdr_wire a more)) with true by (unfold hdr_wire; destruct (a <? 16384); reflexivity);
    change RMF_CMD_START_ADDR with 0x3FFFFC00; replace (a =? 0x3FFFFC00) with false by lia;
    replace (a <? 0x3FFFFC00) with true by lia; rewrite slice_from_app; unfold processFileWrite;
    (destruct (findByAddress (fm_heap s) (fm_remote s) a) as [i|] eqn:Ef; [|reflexivity]);
    apply find_exact in Ef as (Hi & b & n & Rg & Hab); auto;
    destruct (Hm i b n Hi Rg Hab) as [E|E]; [rewrite E; auto|];
    destruct Rg as [Ra Rl]; (destruct (f_isOpen _); [|auto]); rewrite Ra, Rl;
    replace ((0 <=? a - b) && _) with false by lia; reflexivity.
Qed.
Print Assumptions data_message_misses.

(** ** C21 *)

Theorem requested_file_lifecycle (s : fm) (info : finfo) (a : Z) (i : nat) (r1 r2 : list (str * nat)) :
  finfo_ok info a -> map_ok (fm_heap s) (fm_remote s) ->
  fm_requested s = r1 ++ (fi_name info, i) :: r2 -> (forall v, ~ In (fi_name info, v) r1) ->
  f_name (fm_heap s i) = fi_name info -> f_length (fm_heap s i) = fi_length info -> 0 < fi_length info ->
  is_apx_file (fm_heap s i) = true -> ~ In i (m_items (fm_remote s)) ->
  (forall j x, In j (m_items (fm_remote s)) -> covers (fm_heap s) j x -> ~ a <= x < a + fi_length info) ->
  let '(s', evs, ex) := onMsgReceived s (hdr_wire 0x3FFFFC00 false ++ finfo_wire Little info a) in
  ex = None /\ evs = [] /\
  fm_requested s' = r1 ++ r2 /\ fm_local s' = fm_local s /\ fm_queue s' = fm_queue s ++ [QFileOpen a] /\
  (forall j, j <> i -> fm_heap s' j = fm_heap s j) /\
  f_address (fm_heap s' i) = Some a /\ f_isOpen (fm_heap s' i) = true /\
  f_name (fm_heap s' i) = fi_name info /\ f_length (fm_heap s' i) = fi_length info /\
  f_kind (fm_heap s' i) = f_kind (fm_heap s i) /\ f_data (fm_heap s' i) = f_data (fm_heap s i) /\
  map_ok (fm_heap s') (fm_remote s') /\
  (forall j, In j (m_items (fm_remote s')) <-> j = i \/ In j (m_items (fm_remote s))) /\
  (forall x, a <= x < a + fi_length info -> findByAddress (fm_heap s') (fm_remote s') x = Some i).
Proof.
  intros Fi Ok Er Hr1 En El Hp Ka Hn Hf. pose proof Fi as (Fa & _).
  assert (Lk : lookup (fi_name info) (fm_requested s) = Some i).
  { rewrite Er. clear -Hr1. induction r1 as [|[k v] r IH]; cbn [app lookup]; [rewrite str_eqb_refl; auto|].
    destruct (str_eqb k (fi_name info)) eqn:E.
    - apply str_eqb_eq in E. subst. exfalso. apply (Hr1 v). left; auto.
    - apply IH. intros v' Hv. apply (Hr1 v'). right; auto. }
  assert (Dd : ddel (fi_name info) (fm_requested s) = r1 ++ r2).
  { rewrite Er. clear -Hr1. induction r1 as [|[k v] r IH]; cbn [app ddel]; [rewrite str_eqb_refl; auto|].
    destruct (str_eqb k (fi_name info)) eqn:E.
    - apply str_eqb_eq in E. subst. exfalso. apply (Hr1 v). left; auto.
    - rewrite IH; auto. intros v' Hv. apply (Hr1 v'). right; auto. }
  unfold onMsgReceived. rewrite unpackHeader_wire by (try lia; right; apply finfo_wire_nonempty).
  change (0 <? len (hdr_wire 1073740800 false)) with true. cbv iota. rewrite Z.eqb_refl, slice_from_app.
  unfold processCmd. rewrite cmd_of_finfo, len_finfo by auto.
  replace (4 <=? 48 + len (fi_name info)) with true by (pose proof (len_nonneg (fi_name info)); lia).
  cbn [RMF_CMD_FILE_INFO Z.eqb Pos.eqb]. unfold processFileInfo, byteOrder. rewrite unpackFileInfo_wire by auto.
  rewrite Lk, El, Z.eqb_refl, En, Dd, Fa.
  set (f1 := with_open _ true). set (H1 := upd (fm_heap s) i f1).
  cbn [with_heap with_requested fm_heap fm_remote fm_requested]. fold H1.
  assert (Sp : same_place (fm_heap s) H1 (m_items (fm_remote s))).
  { intros j Hj. unfold H1. rewrite upd_other by congruence. auto. }
  pose proof (map_ok_same _ _ _ Sp Ok) as Ok1.
  assert (H1i : H1 i = f1) by apply upd_same.
  destruct (insert_fixed_ok H1 (fm_remote s) i a Ok1) as (H' & m' & Ei & Mo & Hi' & Ho' & l1 & l2 & E1 & E2); auto.
  { rewrite H1i. exact Ka. } { rewrite H1i. reflexivity. } { rewrite H1i. exact Hp. }
  { rewrite H1i. intros j x Hj (b & m & [Rb Rm] & Hx). apply (Hf j x Hj). exists b, m.
    destruct (Sp j Hj) as [S1 S2]. split; [split; congruence | auto]. }
  rewrite Ei. cbn [fine put with_remote fm_heap fm_requested fm_local fm_queue fm_remote].
  rewrite H1i in Hi'.
  assert (In' : forall j, In j (m_items m') <-> j = i \/ In j (m_items (fm_remote s))).
  { intros j. rewrite E1, E2, !in_app_iff. cbn [In]. intuition auto. }
  split; [auto|]. split; [auto|]. split; [auto|]. split; [auto|]. split; [auto|].
  split; [intros j Hj; rewrite Ho' by auto; unfold H1; apply upd_other; auto|].
  rewrite Hi'. split; [reflexivity|]. split; [reflexivity|]. split; [reflexivity|].
  split; [reflexivity|]. split; [reflexivity|]. split; [reflexivity|]. split; [auto|]. split; [auto|].
  intros x Hx. apply find_exact; auto. split; [apply In'; auto|]. exists a, (fi_length info).
  split; auto. split; rewrite Hi'; auto.
Qed.
Print Assumptions requested_file_lifecycle.

Definition announce_msg (info : finfo) (a : Z) : bytes := hdr_wire 0x3FFFFC00 false ++ finfo_wire Little info a.
Definition demo_in_info : finfo := mk_finfo (lit "TestNode.in") 4 0 (Some 0x10000) 0 (zeros 32).

(** Announced, opened, then written by the peer; the node is told. *)
Example lifecycle_ex :
  let s1 := st_of (requestRemoteFile (init_fm demo_heap 3) 2%nat) in
  let s2 := st_of (onMsgReceived s1 (announce_msg demo_in_info 0x10000)) in
  let '(s3, evs, ex) := onMsgReceived s2 (hdr_wire 0x10001 false ++ [5; 6]) in
  fm_queue s2 = [QFileOpen 0x10000] /\ fm_requested s2 = [] /\ ex = None /\ evs = [(2%nat, InNotify 1 2)] /\
  f_data (fm_heap s3 2%nat) = [0; 5; 6; 0].
Proof. vm_compute. auto 6. Qed.

Example lifecycle_hyp_ex : finfo_ok demo_in_info 0x10000.
Proof. unfold finfo_ok; vm_compute; (repeat split); try discriminate; repeat constructor; discriminate. Qed.

(** If the peer announces overlapping ranges, a byte of an open remote file can
    become unreachable: the layout hypothesis of C20 is not enforced. *)
Definition clash_heap : heap := fun i =>
  match i with
  | 0%nat => demo_file KInput (lit "a.in") (zeros 10) true
  | _ => demo_file KInput (lit "b.in") (zeros 2) true
  end.
Theorem remote_layout_enforced_refuted :
  ~ (forall H n evs y q, yrun (fresh H n) evs = (y, q) ->
       forall i x, In i (m_items (fm_remote (y_fm y))) -> covers (fm_heap (y_fm y)) i x ->
       findByAddress (fm_heap (y_fm y)) (fm_remote (y_fm y)) x <> None).
Proof.
  intros C.
  set (evs := [ERequest 0; ERequest 1;
     EMsg (announce_msg (mk_finfo (lit "a.in") 10 0 (Some 0) 0 (zeros 32)) 0);
     EMsg (announce_msg (mk_finfo (lit "b.in") 2 0 (Some 4) 0 (zeros 32)) 4)]).
  specialize (C clash_heap 2%nat evs _ _ (surjective_pairing _) 0%nat 8).
  apply C.
  - vm_compute; tauto.
  - exists 0, 10. split; [vm_compute; auto | lia].
  - vm_compute; auto.
Qed.
Print Assumptions remote_layout_enforced_refuted.

(** ** C22 *)

(** Complete outcome of an announcement command with arbitrary contents. *)
Theorem announcement_outcomes (s : fm) (data : bytes) :
  let o := processFileInfo s data in
  match unpackFileInfo data Little with
  | Err e => o = (s, [], Some e)
  | Ok None => len data < 48 /\ o = (s, [], Some AttributeError)
  | Ok (Some info) =>
    match lookup (fi_name info) (fm_requested s) with
    | None => o = (s, [], Some AssertionError)
    | Some i =>
      if f_length (fm_heap s i) =? fi_length info then is_apx_file (fm_heap s i) = true -> exn_of o = None
      else o = (s, [], Some NameError)
    end
  end.
Proof.
  unfold processFileInfo, byteOrder. destruct (unpackFileInfo data Little) as [[info|]|e] eqn:Eu; [|split; auto|auto].
  - destruct (lookup _ _) as [i|] eqn:El.
    + destruct (_ =? _); [|auto]. intros Ka. unfold insert.
      cbn [with_heap with_requested fm_heap fm_remote]. rewrite upd_same.
      assert (A : exists a, fi_address info = Some a).
      { unfold unpackFileInfo in Eu. destruct (_ <=? _); [|discriminate]. apply bind_ok in Eu as (nm & _ & Eu). invc Eu. cbn. eauto. }
      destruct A as (a & Ea). change (is_apx_file (with_open _ true)) with (is_apx_file (fm_heap s i)). rewrite Ka. cbn [negb].
      change (f_address (with_open (with_info (fm_heap s i) ?x) true)) with (fi_address x). cbn [fi_address]. rewrite Ea. reflexivity.
    + unfold insert. rewrite upd_same. reflexivity.
  - unfold unpackFileInfo, RMF_FILEINFO_BASE_LEN in Eu. destruct (Z.leb_spec 48 (len data)); [|auto].
    apply bind_ok in Eu as (nm & _ & Eu). discriminate.
Qed.
Print Assumptions announcement_outcomes.

Theorem announcements_never_raise_refuted :
  let s := st_of (requestRemoteFile (init_fm demo_heap 3) 2%nat) in
  (* too short *)
  exn_of (onMsgReceived s (hdr_wire 0x3FFFFC00 false ++ [3; 0; 0; 0])) = Some AttributeError /\
  (* not requested *)
  exn_of (onMsgReceived s (announce_msg (mk_finfo (lit "Other.out") 4 0 (Some 0) 0 (zeros 32)) 0)) = Some AssertionError /\
  (* other length than expected *)
  exn_of (onMsgReceived s (announce_msg (mk_finfo (lit "TestNode.in") 5 0 (Some 0) 0 (zeros 32)) 0)) = Some NameError /\
  (* name not ASCII *)
  exn_of (onMsgReceived s (hdr_wire 0x3FFFFC00 false ++ [3; 0; 0; 0] ++ zeros 44 ++ [200])) = Some UnicodeError /\
  (* open command of the wrong size, close command *)
  exn_of (onMsgReceived s (hdr_wire 0x3FFFFC00 false ++ [10; 0; 0; 0])) = Some StructError /\
  exn_of (onMsgReceived s (hdr_wire 0x3FFFFC00 false ++ [11; 0; 0; 0; 0; 0; 0; 0])) = Some NameError /\
  (* above the command address *)
  exn_of (onMsgReceived s (hdr_wire 0x3FFFFC01 false ++ [1])) = Some ValueError.
Proof. vm_compute. auto 8. Qed.
Print Assumptions announcements_never_raise_refuted.

(** Every other message is harmless: unknown commands, short commands and data
    messages to files that accept them never raise. *)
Theorem other_commands_ignored (s : fm) (data : bytes) :
  data <> [] -> len data < 4 \/ (unpack_uint Little (slice data 0 4) <> 3 /\
    unpack_uint Little (slice data 0 4) <> 10 /\ unpack_uint Little (slice data 0 4) <> 11) ->
  onMsgReceived s (hdr_wire 0x3FFFFC00 false ++ data) = (s, [], None).
Proof.
  intros Hne Hc. unfold onMsgReceived. rewrite unpackHeader_wire by (auto; lia).
  change (0 <? len (hdr_wire 1073740800 false)) with true. cbv iota. rewrite Z.eqb_refl, slice_from_app.
  unfold processCmd, byteOrder. destruct (Z.leb_spec 4 (len data)); [|reflexivity].
  destruct Hc as [?|(A & B & C)]; [lia|].
  change RMF_CMD_FILE_INFO with 3. change RMF_CMD_FILE_OPEN with 10. change RMF_CMD_FILE_CLOSE with 11.
  rewrite (proj2 (Z.eqb_neq _ _) A), (proj2 (Z.eqb_neq _ _) B), (proj2 (Z.eqb_neq _ _) C). reflexivity.
Qed.
Print Assumptions other_commands_ignored.

(** An open request for a local file opens it and queues its whole content; for
    any other address nothing happens. *)
Theorem open_request (s : fm) (x : Z) :
  map_ok (fm_heap s) (fm_local s) -> 0 <= x < 2 ^ 32 ->
  (forall i a, In i (m_items (fm_local s)) -> covers (fm_heap s) i x -> f_address (fm_heap s i) = Some a ->
     len (f_data (fm_heap s i)) = f_length (fm_heap s i) ->
     onMsgReceived s (open_msg x) =
     (put (with_heap s (upd (fm_heap s) i (with_open (fm_heap s i) true))) (QWrite a (f_data (fm_heap s i))), [], None)) /\
  ((forall i, In i (m_items (fm_local s)) -> ~ covers (fm_heap s) i x) -> onMsgReceived s (open_msg x) = (s, [], None)).
Proof.
  intros Ok Hx.
  assert (E : onMsgReceived s (open_msg x) = processFileOpen s (num_wire Little 4 10 ++ num_wire Little 4 x)).
  { unfold onMsgReceived, open_msg. rewrite unpackHeader_wire by (try lia; right; discriminate).
    change (0 <? len (hdr_wire 1073740800 false)) with true. cbv iota. rewrite Z.eqb_refl, slice_from_app.
    unfold processCmd. rewrite len_app, !num_wire_len. cbn [Z.of_nat Pos.of_succ_nat Pos.succ Z.add Z.leb Z.compare Pos.compare Pos.compare_cont Pos.add].
    rewrite slice_app_head by (rewrite num_wire_len; auto).
    unfold byteOrder. destruct (num_wire_facts Little 4 10) as (_ & _ & ->); [lia|]. reflexivity. }
  rewrite E. unfold processFileOpen, byteOrder. rewrite unpackFileOpen_wire by auto. split.
  - intros i a Hi Hc Ha Hl. assert (findByAddress (fm_heap s) (fm_local s) x = Some i) as -> by (apply find_exact; auto).
    change (f_length (with_open (fm_heap s i) true)) with (f_length (fm_heap s i)).
    change (f_address (with_open (fm_heap s i) true)) with (f_address (fm_heap s i)). rewrite Ha, <- Hl.
    pose proof (file_read_all (with_open (fm_heap s i) true)) as Rd. cbn [f_data with_open] in Rd. rewrite Rd. reflexivity.
  - intros Hno. destruct (findByAddress _ _ x) as [i|] eqn:Ef; auto. apply find_exact in Ef as [A B]; auto. exfalso. eapply Hno; eauto.
Qed.
Print Assumptions open_request.
