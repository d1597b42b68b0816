From Coq Require Import ZifyBool ZifyNat Lia.
From Verif Require Import Py PyLemmas RmfModel RmfSpec RmfProofs RmfProps FileModel FileProofs FileMapSpec
  FileMapProofs ManagerModel ManagerSpec.
Ltac Zify.zify_post_hook ::= Z.div_mod_to_equations.

(** ** Every call only appends to the queue *)

Definition appends (s s' : fm) : Prop := exists q, fm_queue s' = fm_queue s ++ q.

Lemma appends_refl s s' : fm_queue s' = fm_queue s -> appends s s'.
Proof. intros E. exists []. rewrite app_nil_r. auto. Qed.

Lemma appends_trans a b c : appends a b -> appends b c -> appends a c.
Proof. intros [q E] [r F]. exists (q ++ r). rewrite F, E, app_assoc. auto. Qed.

Lemma appends_put s q : appends s (put s q).
Proof. exists [q]. auto. Qed.

Lemma announce_appends items : forall s, appends s (st_of (announce s items)).
Proof.
  induction items as [|i r IH]; intros s; cbn [announce]; [apply appends_refl; auto|].
  destruct (packFileInfo _ _); [|apply appends_refl; auto].
  eapply appends_trans; [apply appends_put | apply IH].
Qed.

Ltac app_refl := apply appends_refl; reflexivity.
Ltac app_put := first [app_refl | eexists; reflexivity].

Lemma processFileInfo_appends s d : appends s (st_of (processFileInfo s d)).
Proof.
  unfold processFileInfo. destruct (unpackFileInfo _ _) as [[i|]|]; try app_refl.
  destruct (lookup _ _).
  - destruct (_ =? _); [|app_refl]. destruct (insert _ _ _) as [[H m]|]; [|app_refl].
    destruct (fi_address i); app_put.
  - destruct (insert _ _ _) as [[H m]|]; app_refl.
Qed.

Lemma processFileOpen_appends s d : appends s (st_of (processFileOpen s d)).
Proof.
  unfold processFileOpen. destruct (unpackFileOpen _ _); [|app_refl].
  destruct (findByAddress _ _ _); [|app_refl].
  destruct (file_read _ _ _); [|app_refl]. destruct (f_address _); app_put.
Qed.

Lemma onMsg_appends s m : appends s (st_of (onMsgReceived s m)).
Proof.
  unfold onMsgReceived. destruct (unpackHeader m) as [[k a] mb]. destruct (0 <? k); [|app_refl].
  destruct a as [a|]; [|app_refl]. destruct (a =? _).
  - unfold processCmd. destruct (4 <=? _); [|app_refl].
    destruct (_ =? RMF_CMD_FILE_INFO); [apply processFileInfo_appends|].
    destruct (_ =? RMF_CMD_FILE_OPEN); [apply processFileOpen_appends|].
    destruct (_ =? RMF_CMD_FILE_CLOSE); [|app_refl].
    unfold processFileClose. destruct (unpackFileClose _ _); [|app_refl].
    destruct (findByAddress _ _ _); app_refl.
  - destruct (a <? _); [|app_refl]. unfold processFileWrite.
    destruct (findByAddress _ _ _); [|app_refl]. destruct (f_isOpen _); [|app_refl].
    destruct (f_address _); [|app_refl]. destruct (_ && _); [|app_refl].
    destruct (write3 _ _ _ _) as [[[? ?] ?]|]; app_refl.
Qed.

Lemma writeLocal_appends s i o d : appends s (st_of (writeLocal s i o d)).
Proof.
  unfold writeLocal. destruct (write2 _ _ _) as [[[f' n] evs]|]; [|app_refl].
  destruct evs as [|[o' n'|o' n'] [|? ?]]; try app_refl.
  unfold outPortDataWriteNotify. destruct (f_address _); [|app_refl].
  destruct (file_read _ _ _); app_put.
Qed.

Lemma api_appends s e : appends s (st_of (apistep s e)).
Proof.
  destruct e; cbn [apistep].
  - unfold attachLocalFile. destruct (insert _ _ _) as [[? ?]|]; app_refl.
  - app_refl.
  - apply writeLocal_appends.
  - app_put.
  - unfold onConnected. eapply appends_trans; [apply appends_put | apply announce_appends].
  - apply onMsg_appends.
  - app_refl.
Qed.

Lemma added_app s s' : appends s s' -> fm_queue s' = fm_queue s ++ added s s'.
Proof.
  intros [q E]. unfold added. rewrite E, skipn_app, Nat.sub_diag, skipn_all. auto.
Qed.

(** ** The worker *)

Fixpoint work_all (w : wrk) (qs : list qmsg) : wrk * list (nat * bytes) :=
  match qs with
  | [] => (w, [])
  | q :: r => let '(w1, o1) := work1 w q in let '(w2, o2) := work_all w1 r in (w2, o1 ++ o2)
  end.

Lemma work_all_app w a b :
  work_all w (a ++ b) =
  let '(w1, o1) := work_all w a in let '(w2, o2) := work_all w1 b in (w2, o1 ++ o2).
Proof.
  revert w. induction a as [|q a IH]; intros w; cbn [app work_all].
  - destruct (work_all w b); auto.
  - destruct (work1 w q) as [w1 o1]. rewrite IH. destruct (work_all w1 a) as [w2 o2].
    destruct (work_all w2 b) as [w3 o3]. rewrite app_assoc. auto.
Qed.

(** Processed part, waiting part. *)
Definition yinv (y : sys) (hist : list qmsg) : Prop :=
  exists done, hist = done ++ fm_queue (y_fm y) /\ work_all (WRun None) done = (y_wrk y, y_sent y).

Lemma yinv_step y hist e y' q : yinv y hist -> ystep y e = (y', q) -> yinv y' (hist ++ q).
Proof.
  intros (done & E & W) Hs.
  assert (A : forall s', appends (y_fm y) s' -> yinv (mk_sys s' (y_wrk y) (y_sent y)) (hist ++ added (y_fm y) s')).
  { intros s' Ha. exists done. cbn [y_fm y_wrk y_sent]. rewrite (added_app _ _ Ha), E, app_assoc. auto. }
  assert (e = EWork \/ ystep y e = (mk_sys (st_of (apistep (y_fm y) e)) (y_wrk y) (y_sent y),
                                     added (y_fm y) (st_of (apistep (y_fm y) e)))) as [->|Hs'] by (destruct e; auto).
  2: { rewrite Hs' in Hs. invc Hs. apply A, api_appends. }
  cbn [ystep] in Hs. invc Hs. rewrite app_nil_r.
  unfold work. destruct (y_wrk y) as [|t| |] eqn:Ew; try (exists done; rewrite Ew; split; auto; fail).
  destruct (fm_queue (y_fm y)) as [|q r] eqn:Eq; [exists done; rewrite Ew, Eq; auto|].
  destruct (work1 (WRun t) q) as [w' out] eqn:E1. exists (done ++ [q]). cbn [y_fm fm_queue y_wrk y_sent].
  rewrite <- app_assoc. split; auto.
  rewrite work_all_app, W. cbn [work_all]. rewrite E1. rewrite app_nil_r. auto.
Qed.

Lemma yinv_run evs : forall y hist y' q, yinv y hist -> yrun y evs = (y', q) -> yinv y' (hist ++ q).
Proof.
  induction evs as [|e evs IH]; intros y hist y' q Hi Hr; cbn [yrun] in Hr.
  - invc Hr. rewrite app_nil_r. auto.
  - destruct (ystep y e) as [y1 q1] eqn:E1. destruct (yrun y1 evs) as [y2 q2] eqn:E2. invc Hr.
    rewrite app_assoc. eapply IH; eauto. eapply yinv_step; eauto.
Qed.

Lemma work_all_dead w qs : (forall t, w <> WRun t) -> work_all w qs = (w, []).
Proof.
  intros Hw. induction qs as [|q qs IH]; auto. cbn [work_all].
  replace (work1 w q) with (w, @nil (nat * bytes)).
  - rewrite IH. auto.
  - destruct w; auto. exfalso; eapply Hw; eauto.
Qed.

Lemma work_all_expected qs : forall t,
  match work_all (WRun t) qs with
  | (WRun _, out) => ~ In QStop qs /\ (forall q, In q qs -> is_ok (wire_of q) = true) /\ out = expected t qs
  | (WEnded, out) => exists d r, qs = d ++ QStop :: r /\ ~ In QStop d /\
      (forall q, In q d -> is_ok (wire_of q) = true) /\ out = expected t d
  | (WDied e, out) => exists d q r, qs = d ++ q :: r /\ wire_of q = Err e /\ ~ In QStop d /\
      (forall q, In q d -> is_ok (wire_of q) = true) /\ out = expected t d
  | (WNew, _) => False
  end.
Proof.
  induction qs as [|q qs IH]; intros t; [cbn; tauto|]. cbn [work_all].
  assert (Step : forall t' o, work1 (WRun t) q = (WRun t', o) -> is_ok (wire_of q) = true -> q <> QStop ->
    (forall l, expected t (q :: l) = o ++ expected t' l) ->
    match (let '(w1, o1) := work1 (WRun t) q in let '(w2, o2) := work_all w1 qs in (w2, o1 ++ o2)) with
    | (WRun _, out) => ~ In QStop (q :: qs) /\ (forall q0, In q0 (q :: qs) -> is_ok (wire_of q0) = true) /\ out = expected t (q :: qs)
    | (WEnded, out) => exists d r, q :: qs = d ++ QStop :: r /\ ~ In QStop d /\
        (forall q0, In q0 d -> is_ok (wire_of q0) = true) /\ out = expected t d
    | (WDied e, out) => exists d q0 r, q :: qs = d ++ q0 :: r /\ wire_of q0 = Err e /\ ~ In QStop d /\
        (forall q1, In q1 d -> is_ok (wire_of q1) = true) /\ out = expected t d
    | (WNew, _) => False
    end).
  { intros t' o Hw Ho Hq Hex. rewrite Hw. specialize (IH t'). destruct (work_all (WRun t') qs) as [[|t''| |e] out].
    - auto.
    - destruct IH as (A & B & C). split; [|split].
      + intros [?|?]; auto.
      + intros q0 [<-|?]; auto.
      + rewrite Hex, C. auto.
    - destruct IH as (d & r & A & B & C & D). exists (q :: d), r. split; [rewrite A; auto|]. split; [|split].
      + intros [?|?]; auto.
      + intros q0 [<-|?]; auto.
      + rewrite Hex, D. auto.
    - destruct IH as (d & q0 & r & A & B & C & D & F). exists (q :: d), q0, r. split; [rewrite A; auto|]. split; auto. split; [|split].
      + intros [?|?]; auto.
      + intros q1 [<-|?]; auto.
      + rewrite Hex, F. auto. }
  destruct q as [h|info|a d|a|].
  - eapply Step; try reflexivity. discriminate.
  - destruct (wire_of (QFileInfo info)) as [[b|]|e] eqn:Ew.
    + assert (W : work1 (WRun t) (QFileInfo info) = (WRun t, match t with Some h => [(h, b)] | None => [] end)).
      { unfold work1. rewrite Ew. destruct t; auto. }
      eapply Step; [exact W | rewrite ?Ew; auto | discriminate |]. intros l. cbn [expected]. rewrite Ew. destruct t; auto.
    + discriminate.
    + cbn [work1]. rewrite Ew. rewrite work_all_dead by discriminate.
      exists [], (QFileInfo info), qs. repeat split; auto; intros ? [].
  - destruct (wire_of (QWrite a d)) as [[b|]|e] eqn:Ew.
    + assert (W : work1 (WRun t) (QWrite a d) = (WRun t, match t with Some h => [(h, b)] | None => [] end)).
      { unfold work1. rewrite Ew. destruct t; auto. }
      eapply Step; [exact W | rewrite ?Ew; auto | discriminate |]. intros l. cbn [expected]. rewrite Ew. destruct t; auto.
    + cbn [wire_of] in Ew. destruct (packHeader a false); discriminate.
    + cbn [work1]. rewrite Ew. rewrite work_all_dead by discriminate.
      exists [], (QWrite a d), qs. repeat split; auto; intros ? [].
  - destruct (wire_of (QFileOpen a)) as [[b|]|e] eqn:Ew.
    + assert (W : work1 (WRun t) (QFileOpen a) = (WRun t, match t with Some h => [(h, b)] | None => [] end)).
      { unfold work1. rewrite Ew. destruct t; auto. }
      eapply Step; [exact W | rewrite ?Ew; auto | discriminate |]. intros l. cbn [expected]. rewrite Ew. destruct t; auto.
    + cbn [wire_of] in Ew. destruct (packFileOpen a Little); cbn [bind] in Ew; try discriminate.
    + cbn [work1]. rewrite Ew. rewrite work_all_dead by discriminate.
      exists [], (QFileOpen a), qs. repeat split; auto; intros ? [].
  - cbn [work1]. rewrite work_all_dead by discriminate. exists [], qs. repeat split; auto; intros ? [].
Qed.

(** ** Replicas *)

Lemma replay_app a rep p q : replay a rep (p ++ q) = replay a (replay a rep p) q.
Proof. unfold replay. rewrite flat_map_app, fold_left_app. auto. Qed.

Lemma replay_nodata a rep q : flat_map data_of q = [] -> replay a rep q = rep.
Proof. unfold replay. intros ->. auto. Qed.

Lemma len_splice (l d : bytes) off : 0 <= off -> off + len d <= len l -> len (splice l off (off + len d) d) = len l.
Proof.
  intros. pose proof (len_nonneg d). rewrite splice_in by lia. rewrite !len_app, len_firstn, len_skipn. lia.
Qed.

Lemma len_apply_write a rep w : len (apply_write a rep w) = len rep.
Proof.
  destruct w as [x d]. unfold apply_write. destruct (_ && _) eqn:E; auto. apply len_splice; lia.
Qed.

Lemma len_replay a qs : forall rep, len (replay a rep qs) = len rep.
Proof.
  unfold replay. induction (flat_map data_of qs) as [|w l IH]; intros rep; cbn [fold_left]; auto.
  rewrite IH, len_apply_write. auto.
Qed.

Lemma splice_all (l d : bytes) : len d = len l -> splice l 0 (0 + len d) d = d.
Proof.
  intros E. pose proof (len_nonneg d). rewrite splice_in by lia. cbn [Z.to_nat firstn app]. rewrite skipn_all2, app_nil_r; auto.
  unfold len in *. lia.
Qed.

Lemma splice_nil (l : bytes) off : 0 <= off <= len l -> splice l off (off + 0) [] = l.
Proof.
  intros. rewrite splice_in by lia. cbn [app]. rewrite Z.add_0_r. apply firstn_skipn.
Qed.

Lemma apply_write_full a rep d : len d = len rep -> apply_write a rep (a, d) = d.
Proof.
  intros E. unfold apply_write. replace ((a <=? a) && (a + len d <=? a + len rep)) with true by lia.
  rewrite Z.sub_diag. apply splice_all; auto.
Qed.

Lemma apply_write_other a rep x d lo hi :
  lo <= x -> x + len d <= hi -> hi <= a \/ a + len rep <= lo -> apply_write a rep (x, d) = rep.
Proof.
  intros Hl Hh Hd. unfold apply_write. destruct (_ && _) eqn:E; auto. pose proof (len_nonneg d).
  pose proof (len_nonneg rep).
  assert (len d = 0) by lia. apply len_zero_inv in H1. subst. rewrite len_nil in *. apply splice_nil. lia.
Qed.

Lemma find_in H m x i : findByAddress H m x = Some i -> In i (m_items m).
Proof.
  unfold findByAddress. destruct (len (m_keys m) =? 0); [discriminate|].
  set (p := bisect_left (m_keys m) x).
  assert (S : (if Nat.ltb 0 p then match nth_error (m_items m) (p - 1) with
        | Some j => if hit (H j) x then Some j else None | None => None end else None) = Some i -> In i (m_items m)).
  { destruct (Nat.ltb 0 p); [|discriminate]. destruct (nth_error (m_items m) (p - 1)) eqn:E; [|discriminate].
    destruct (hit _ _); [|discriminate]. intros X; invc X. eapply nth_error_In; eauto. }
  destruct (nth_error (m_items m) p) eqn:E; auto. destruct (hit (H n) x); auto.
  intros X; invc X. eapply nth_error_In; eauto.
Qed.

Lemma insert_shape H m i H' m' :
  insert H m i = Ok (H', m') ->
  (exists k, H' = upd H i (with_address (H i) (Some k)) /\ (f_address (H i) = None \/ f_address (H i) = Some k)) /\
  (forall j, In j (m_items m') -> j = i \/ In j (m_items m)).
Proof.
  unfold insert. destruct (negb _); [discriminate|]. intros E. apply bind_ok in E as (x & Hx & E). invc E. split.
  - exists x. split; auto. destruct (f_address (H i)); auto. invc Hx. auto.
  - intros j. cbn [m_items]. unfold insert_at. rewrite in_app_iff. cbn [In].
    intros [A|[A|A]]; auto; right.
    + rewrite <- (firstn_skipn (bisect_left (m_keys m) x)). apply in_or_app; auto.
    + rewrite <- (firstn_skipn (bisect_left (m_keys m) x)). apply in_or_app; auto.
Qed.

Lemma with_address_id f a : f_address f = a -> with_address f a = f.
Proof. destruct f as [k [? ? ? ? ? ?] ? ? ? ?]. cbn. intros <-. auto. Qed.

Lemma lookup_in {A} k (d : list (str * A)) v : lookup k d = Some v -> In (k, v) d.
Proof.
  induction d as [|[k' v'] r IH]; cbn [lookup]; [discriminate|].
  destruct (str_eqb k' k) eqn:E; intros X; [invc X; apply str_eqb_eq in E; subst; left; auto | right; auto].
Qed.

Lemma dset_in {A} k (v : A) d k' v' : In (k', v') (dset k v d) -> v' = v \/ In (k', v') d.
Proof.
  induction d as [|[a b] r IH]; cbn [dset].
  - intros [E|[]]. invc E. auto.
  - destruct (str_eqb a k); cbn [In]; intros [E|E]; auto.
    + invc E. auto.
    + destruct (IH E); auto.
Qed.

Lemma ddel_in {A} k (d : list (str * A)) x : In x (ddel k d) -> In x d.
Proof.
  induction d as [|[a b] r IH]; cbn [ddel]; auto. destruct (str_eqb a k); cbn [In]; auto. intros [?|?]; auto.
Qed.

Lemma wp_info H H' j : f_info (H' j) = f_info (H j) -> well_placed H j -> well_placed H' j.
Proof.
  intros E W s e b. unfold range, f_name, f_address, f_length. rewrite E. apply W.
Qed.

Lemma wp_range H j : well_placed H j ->
  exists a, f_address (H j) = Some a /\ 0 <= a /\ a + f_length (H j) <= RMF_CMD_START_ADDR.
Proof.
  intros W. destruct (region_exists (f_name (H j))) as (s & e & b & Rg).
  destruct (W s e b Rg) as (a & m & [Ra Rl] & A & B & _).
  apply region_facts in Rg as (_ & _ & _ & _ & Hs & _ & _ & Rg). exists a. rewrite Rl.
  change RMF_CMD_START_ADDR with 0x3FFFFC00. split; auto. split; lia.
Qed.

Lemma nodata_in q x d : flat_map data_of q = [] -> In (QWrite x d) q -> False.
Proof.
  intros E Hi. assert (In (x, d) (flat_map data_of q)); [|rewrite E in *; auto].
  apply in_flat_map. exists (QWrite x d). split; auto. left; auto.
Qed.

Section Roles.
Context (H0 : heap) (n : nat) (L R : nat -> Prop) (Ro : roles H0 n L R).

Record winv (s : fm) (hist : list qmsg) : Prop := {
  w_map : map_ok (fm_heap s) (fm_local s);
  w_ns : no_straddle (fm_heap s) (fm_local s);
  w_wp : forall j, In j (m_items (fm_local s)) -> well_placed (fm_heap s) j;
  w_q : forall x d, In (QWrite x d) hist -> 0 <= x /\ x + len d <= RMF_CMD_START_ADDR;
  w_L : forall j, In j (m_items (fm_local s)) -> L j;
  w_next : (n <= fm_next s)%nat;
  w_req : forall k j, In (k, j) (fm_requested s) -> R j;
  w_rem : forall j, In j (m_items (fm_remote s)) -> R j \/ (n <= j)%nat;
  w_len : forall j, L j -> f_length (fm_heap s j) = len (f_data (fm_heap s j)) /\ 0 < f_length (fm_heap s j);
  w_kind : forall j, L j -> f_kind (fm_heap s j) = f_kind (H0 j);
  w_man : forall j, f_managed (fm_heap s j) = true -> In j (m_items (fm_local s));
  w_att : forall j, In j (m_items (fm_local s)) -> f_managed (fm_heap s j) = true;
  w_un : forall j, L j -> ~ In j (m_items (fm_local s)) ->
    f_address (fm_heap s j) = None /\ f_isOpen (fm_heap s j) = false;
  w_rep : forall i a rep, In i (m_items (fm_local s)) -> f_isOpen (fm_heap s i) = true ->
    f_address (fm_heap s i) = Some a -> len rep = f_length (fm_heap s i) ->
    replay a rep hist = f_data (fm_heap s i) }.

Lemma L_fresh j : L j -> R j \/ (n <= j)%nat -> False.
Proof. intros A [B|B]; [eapply ro_apart; eauto | apply (ro_old _ _ _ _ Ro) in A; lia]. Qed.

Lemma winv_frame s hist s' q :
  winv s hist ->
  fm_local s' = fm_local s ->
  (forall j, L j -> fm_heap s' j = fm_heap s j) ->
  (forall j, f_managed (fm_heap s' j) = true -> f_managed (fm_heap s j) = true) ->
  (n <= fm_next s')%nat ->
  (forall k j, In (k, j) (fm_requested s') -> R j) ->
  (forall j, In j (m_items (fm_remote s')) -> R j \/ (n <= j)%nat) ->
  flat_map data_of q = [] ->
  winv s' (hist ++ q).
Proof.
  intros W El Eh Em En Er Eo Eq.
  assert (HL : forall j, In j (m_items (fm_local s')) -> L j /\ In j (m_items (fm_local s))).
  { intros j Hj. rewrite El in Hj. split; auto. eapply w_L; eauto. }
  constructor; auto.
  - rewrite El. eapply map_ok_same; [|eapply w_map; eauto]. intros j Hj. rewrite Eh by (eapply w_L; eauto). auto.
  - rewrite El. intros j a m Hj [Ra Rb]. rewrite Eh in Ra, Rb by (eapply w_L; eauto).
    eapply w_ns; eauto. split; auto.
  - intros j Hj. destruct (HL j Hj). eapply wp_info; [rewrite Eh; auto | eapply w_wp; eauto].
  - intros x d Hx. apply in_app_iff in Hx as [Hx|Hx]; [eapply w_q; eauto | exfalso; eapply nodata_in; eauto].
  - intros; apply HL; auto.
  - intros j Hj. rewrite Eh by auto. eapply w_len; eauto.
  - intros j Hj. rewrite Eh by auto. eapply w_kind; eauto.
  - intros j Hj. rewrite El. eapply w_man; eauto.
  - intros j Hj. destruct (HL j Hj). rewrite Eh by auto. eapply w_att; eauto.
  - intros j Hj Hn. rewrite El in Hn. rewrite Eh by auto. eapply w_un; eauto.
  - intros i a rep Hi. destruct (HL i Hi) as [Hl Hi']. rewrite Eh by auto. intros.
    rewrite replay_app. rewrite (replay_nodata _ _ q) by auto. eapply w_rep; eauto.
Qed.

(** A local file's data message does not touch other files. *)
Lemma disjoint_local H m i j a b :
  map_ok H m -> In i (m_items m) -> In j (m_items m) -> i <> j ->
  f_address (H i) = Some a -> f_address (H j) = Some b ->
  a + f_length (H i) <= b \/ b + f_length (H j) <= a.
Proof.
  intros (_ & F & _) Hi Hj Hne Ha Hb.
  destruct (in_split _ _ Hi) as (l1 & l2 & E). rewrite E in F, Hj.
  apply FOP_app in F as (_ & F2 & F12). inversion F2 as [|? ? G2 _]; subst. rewrite Forall_forall in G2.
  rewrite in_app_iff in Hj. destruct Hj as [Hj|[Hj|Hj]]; [| congruence |].
  - right. eapply before_iff; eauto. apply F12; auto. left; auto.
  - left. eapply before_iff; eauto.
Qed.

Lemma replay1 a rep hist x d : replay a rep (hist ++ [QWrite x d]) = apply_write a (replay a rep hist) (x, d).
Proof. rewrite replay_app. reflexivity. Qed.

Lemma winv_open s hist i a :
  winv s hist -> In i (m_items (fm_local s)) -> f_address (fm_heap s i) = Some a ->
  winv (put (with_heap s (upd (fm_heap s) i (with_open (fm_heap s i) true))) (QWrite a (f_data (fm_heap s i))))
    (hist ++ [QWrite a (f_data (fm_heap s i))]).
Proof.
  intros W Hi Ha.
  assert (G : forall j, f_info (upd (fm_heap s) i (with_open (fm_heap s i) true) j) = f_info (fm_heap s j) /\
     f_data (upd (fm_heap s) i (with_open (fm_heap s i) true) j) = f_data (fm_heap s j) /\
     f_kind (upd (fm_heap s) i (with_open (fm_heap s i) true) j) = f_kind (fm_heap s j) /\
     f_managed (upd (fm_heap s) i (with_open (fm_heap s i) true) j) = f_managed (fm_heap s j)).
  { intros j. unfold upd. destruct (Nat.eqb_spec j i); subst; auto. }
  pose proof (w_map _ _ W) as Wm. pose proof (w_len _ _ W) as Wl. pose proof (w_L _ _ W) as WL.
  constructor; cbn [put with_heap fm_heap fm_next fm_local fm_remote fm_requested fm_queue];
    try (now (eapply W; eauto)).
  - eapply map_ok_same; [|eauto]. intros j Hj. unfold f_address, f_length. destruct (G j) as (-> & _). auto.
  - intros j b m Hj [Ra Rb]. eapply w_ns; eauto. unfold range, f_address, f_length in *. destruct (G j) as (E & _).
    rewrite E in *. auto.
  - intros j Hj. eapply wp_info; [apply G | eapply w_wp; eauto].
  - intros x d Hx. apply in_app_iff in Hx as [Hx|[Hx|[]]]; [eapply w_q; eauto|]. invc Hx.
    destruct (wp_range _ _ (w_wp _ _ W i Hi)) as (a' & A & B & C). destruct (Wl i (WL i Hi)) as [Li _].
    rewrite <- Li. replace x with a' by congruence. auto.
  - intros j Hj. unfold f_length. destruct (G j) as (-> & -> & _). eapply Wl; eauto.
  - intros j Hj. destruct (G j) as (_ & _ & -> & _). eapply w_kind; eauto.
  - intros j. destruct (G j) as (_ & _ & _ & ->). eapply w_man; eauto.
  - intros j. destruct (G j) as (_ & _ & _ & ->). eapply w_att; eauto.
  - intros j Hj Hn. unfold upd. destruct (Nat.eqb_spec j i); [subst; tauto|]. eapply w_un; eauto.
  - intros k b rep Hk. destruct (G k) as (E1 & E2 & _). unfold f_address, f_length. rewrite E1, E2.
    fold (f_address (fm_heap s k)) (f_length (fm_heap s k)). intros Ho Hb Hlen.
    rewrite replay1. destruct (Nat.eq_dec k i) as [->|Hne].
    + replace b with a by congruence. apply apply_write_full. rewrite len_replay, Hlen. symmetry. apply Wl; auto.
    + rewrite upd_other in Ho by auto.
      assert (Er : replay b rep hist = f_data (fm_heap s k)) by (eapply w_rep; eauto).
      rewrite Er. pose proof (disjoint_local _ _ k i b a Wm Hk Hi Hne Hb Ha) as D.
      destruct (Wl k (WL k Hk)) as [Lk _]. destruct (Wl i (WL i Hi)) as [Li _].
      apply apply_write_other with (lo := a) (hi := a + f_length (fm_heap s i)); [lia | lia |].
      rewrite <- Lk. lia.
Qed.

Lemma winv_data s hist i f' q :
  winv s hist -> In i (m_items (fm_local s)) ->
  f' = with_data (fm_heap s i) (f_data f') -> len (f_data f') = len (f_data (fm_heap s i)) ->
  (forall a rep k, In k (m_items (fm_local s)) -> f_isOpen (fm_heap s k) = true ->
     f_address (fm_heap s k) = Some a -> len rep = f_length (fm_heap s k) ->
     replay a rep hist = f_data (fm_heap s k) ->
     replay a rep (hist ++ q) = f_data (upd (fm_heap s) i f' k)) ->
  (forall x d, In (QWrite x d) q -> 0 <= x /\ x + len d <= RMF_CMD_START_ADDR) ->
  forall s', s' = mk_fm (upd (fm_heap s) i f') (fm_next s) (fm_local s) (fm_remote s) (fm_requested s) (fm_queue s ++ q) ->
  winv s' (hist ++ q).
Proof.
  intros W Hi Ef El Hq Hr s' ->.
  assert (G : forall j, f_info (upd (fm_heap s) i f' j) = f_info (fm_heap s j) /\
     len (f_data (upd (fm_heap s) i f' j)) = len (f_data (fm_heap s j)) /\
     f_kind (upd (fm_heap s) i f' j) = f_kind (fm_heap s j) /\
     f_isOpen (upd (fm_heap s) i f' j) = f_isOpen (fm_heap s j) /\
     f_managed (upd (fm_heap s) i f' j) = f_managed (fm_heap s j)).
  { intros j. unfold upd. destruct (Nat.eqb_spec j i); [subst j; rewrite Ef; auto | auto]. }
  pose proof (w_map _ _ W) as Wm. pose proof (w_len _ _ W) as Wl. pose proof (w_L _ _ W) as WL.
  constructor; cbn [fm_heap fm_next fm_local fm_remote fm_requested fm_queue];
    try (now (eapply W; eauto)).
  - eapply map_ok_same; [|eauto]. intros j Hj. unfold f_address, f_length. destruct (G j) as (-> & _). auto.
  - intros j b m Hj [Ra Rb]. eapply w_ns; eauto. unfold range, f_address, f_length in *. destruct (G j) as (E & _).
    rewrite E in *. auto.
  - intros j Hj. eapply wp_info; [apply G | eapply w_wp; eauto].
  - intros x d Hx. apply in_app_iff in Hx as [Hx|Hx]; [eapply w_q; eauto | auto].
  - intros j Hj. unfold f_length. destruct (G j) as (-> & -> & _). eapply Wl; eauto.
  - intros j Hj. destruct (G j) as (_ & _ & -> & _). eapply w_kind; eauto.
  - intros j. destruct (G j) as (_ & _ & _ & _ & ->). eapply w_man; eauto.
  - intros j. destruct (G j) as (_ & _ & _ & _ & ->). eapply w_att; eauto.
  - intros j Hj Hn. unfold f_address. destruct (G j) as (-> & _ & _ & -> & _). eapply w_un; eauto.
  - intros k b rep Hk. destruct (G k) as (E1 & _ & _ & E2 & _). unfold f_address, f_length. rewrite E1, E2.
    intros Ho Hb Hl. apply Hq; auto. eapply w_rep; eauto.
Qed.

Lemma added_none s s' : fm_queue s' = fm_queue s -> added s s' = [].
Proof. intros E. unfold added. rewrite E. apply skipn_all. Qed.

Lemma added_some s s' q : fm_queue s' = fm_queue s ++ q -> added s s' = q.
Proof. intros E. unfold added. rewrite E, skipn_app, Nat.sub_diag, skipn_all. auto. Qed.

Lemma announce_facts items : forall s,
  let s' := st_of (announce s items) in
  fm_heap s' = fm_heap s /\ fm_local s' = fm_local s /\ fm_remote s' = fm_remote s /\
  fm_requested s' = fm_requested s /\ fm_next s' = fm_next s /\
  exists q, fm_queue s' = fm_queue s ++ q /\ flat_map data_of q = [].
Proof.
  induction items as [|i r IH]; intros s; cbn [announce].
  - repeat split. exists []. rewrite app_nil_r. auto.
  - destruct (packFileInfo _ _) as [b|e].
    + specialize (IH (put s (QFileInfo b))). destruct IH as (A & B & C & D & E & q & F & G).
      repeat (split; [assumption|]). exists (QFileInfo b :: q). rewrite F. cbn [put fm_queue]. rewrite <- app_assoc. auto.
    + repeat split. exists []. rewrite app_nil_r. auto.
Qed.

Definition ev_ok (s : fm) (e : ev) : Prop :=
  match e with
  | EAttach j => L j /\ ~ In j (m_items (fm_local s))
  | ERequest j => R j
  | EWrite j _ _ => L j -> f_kind (H0 j) = KOutput
  | _ => True
  end.

Lemma winv_attach s hist j : winv s hist -> L j -> ~ In j (m_items (fm_local s)) ->
  winv (st_of (attachLocalFile s j)) hist.
Proof.
  intros W Hj Hn. unfold attachLocalFile. destruct (insert _ _ _) as [[H' m']|e] eqn:E; [|exact W].
  destruct (w_un _ _ W j Hj Hn) as [Ha Ho]. destruct (w_len _ _ W j Hj) as [Hl Hp].
  pose proof E as Sh.
  apply insert_auto_ok in E as (Mo & Ns & Wp & Oth & p & l1 & l2 & Ei & E1 & E2);
    [| apply W | apply W | auto | auto].
  assert (In' : forall k, In k (m_items m') <-> k = j \/ In k (m_items (fm_local s))).
  { intros k. rewrite E1, E2, !in_app_iff. cbn [In]. intuition auto. }
  assert (G : forall k, f_info (upd H' j (with_managed (H' j) true) k) = f_info (H' k) /\
     f_data (upd H' j (with_managed (H' j) true) k) = f_data (fm_heap s k) /\
     f_kind (upd H' j (with_managed (H' j) true) k) = f_kind (fm_heap s k) /\
     f_isOpen (upd H' j (with_managed (H' j) true) k) = f_isOpen (fm_heap s k)).
  { intros k. unfold upd. destruct (Nat.eqb_spec k j) as [->|Hne]; [|rewrite Oth by auto; auto].
    split; auto. rewrite Ei. auto. }
  assert (GL : forall k, f_length (H' k) = f_length (fm_heap s k)).
  { intros k. destruct (Nat.eq_dec k j) as [->|]; [rewrite Ei; auto | rewrite Oth; auto]. }
  constructor; cbn [st_of fst fine with_local fm_heap fm_next fm_local fm_remote fm_requested fm_queue];
    try (now (eapply W; eauto)).
  - eapply map_ok_same; [|eauto]. intros k Hk. unfold f_address, f_length. destruct (G k) as (-> & _). auto.
  - intros k b m Hk [Ra Rb]. eapply Ns; eauto. unfold range, f_address, f_length in *. destruct (G k) as (X & _).
    rewrite X in *. auto.
  - intros k Hk. eapply wp_info; [apply G|]. apply In' in Hk. destruct (Nat.eq_dec k j) as [->|Hne]; auto.
    destruct Hk; [congruence|]. eapply wp_info; [rewrite Oth; auto | eapply w_wp; eauto].
  - intros k Hk. apply In' in Hk as [->|Hk]; auto. eapply w_L; eauto.
  - intros k Hk. unfold f_length. destruct (G k) as (-> & -> & _). fold (f_length (H' k)). rewrite GL. eapply w_len; eauto.
  - intros k Hk. destruct (G k) as (_ & _ & -> & _). eapply w_kind; eauto.
  - intros k Hk. apply In'. destruct (Nat.eq_dec k j) as [->|Hne]; auto. right.
    rewrite upd_other, Oth in Hk by auto. eapply w_man; eauto.
  - intros k Hk. apply In' in Hk. destruct (Nat.eq_dec k j) as [->|Hne]; [rewrite upd_same; auto|].
    rewrite upd_other, Oth by auto. destruct Hk; [congruence|]. eapply w_att; eauto.
  - intros k Hk Hnk. rewrite In' in Hnk. rewrite upd_other, Oth by tauto. eapply w_un; eauto.
  - intros k a rep Hk. apply In' in Hk. destruct (Nat.eq_dec k j) as [->|Hne].
    + rewrite upd_same, Ei. cbn. rewrite Ho. discriminate.
    + rewrite upd_other, Oth by auto. destruct Hk; [congruence|]. intros. eapply w_rep; eauto.
Qed.

Lemma file_read_all f : file_read f 0 (len (f_data f)) = Some (f_data f).
Proof.
  unfold file_read. pose proof (len_nonneg (f_data f)).
  replace ((0 <? 0) || (len (f_data f) <? 0 + len (f_data f))) with false by lia.
  f_equal. rewrite Z.add_0_l. 
  pose proof (slice_mid [] (f_data f) []) as E. rewrite app_nil_r in E. exact E.
Qed.

Lemma read_after_write f off d f' :
  file_write f off d = (f', len d) -> file_read f' off (len d) = Some d.
Proof.
  unfold file_write. pose proof (len_nonneg d). destruct ((off <? 0) || _) eqn:E; intros X; invc X; [lia|].
  unfold file_read. cbn [f_data with_data]. rewrite len_splice by lia. rewrite E. f_equal.
  apply nth_error_ext. intros k.
  pose proof (nth_error_slice (splice (f_data f) off (off + len d) d) off (off + len d) (Z.of_nat k)) as S.
  rewrite Nat2Z.id in S. rewrite S; try rewrite len_splice; try lia.
  destruct (Z.ltb_spec (Z.of_nat k) (off + len d - off)).
  - rewrite nth_splice by lia. replace ((off <=? off + Z.of_nat k) && (off + Z.of_nat k <? off + len d)) with true by lia.
    f_equal. lia.
  - symmetry. apply nth_error_None. unfold len in *. lia.
Qed.

Lemma winv_write s hist j off d : winv s hist -> (L j -> f_kind (H0 j) = KOutput) ->
  winv (st_of (writeLocal s j off d)) (hist ++ added s (st_of (writeLocal s j off d))).
Proof.
  intros W Hk. unfold writeLocal.
  assert (Same : winv s (hist ++ added s s)).
  { rewrite added_none by auto. rewrite app_nil_r. auto. }
  destruct (write2 (fm_heap s j) off d) as [[[f' r] evs]|] eqn:Ew; [|exact Same].
  assert (Sh : f' = with_data (fm_heap s j) (f_data f') /\ len (f_data f') = len (f_data (fm_heap s j)) /\
    (f_kind (fm_heap s j) = KOutput ->
     (f' = fm_heap s j /\ evs = []) \/
     (0 <= off /\ off + len d <= len (f_data (fm_heap s j)) /\ file_write (fm_heap s j) off d = (f', len d) /\
      evs = if f_managed (fm_heap s j) && f_isOpen (fm_heap s j) then [OutNotify off (len d)] else []))
    /\ (f_kind (fm_heap s j) <> KOutput -> forall o m, ~ In (OutNotify o m) evs)).
  { assert (FW : forall f2 r2, file_write (fm_heap s j) off d = (f2, r2) ->
       f2 = with_data (fm_heap s j) (f_data f2) /\ len (f_data f2) = len (f_data (fm_heap s j)) /\
       ((f2 = fm_heap s j /\ r2 = -1) \/
        (0 <= off /\ off + len d <= len (f_data (fm_heap s j)) /\ r2 = len d))).
    { intros f2 r2. unfold file_write. pose proof (len_nonneg d).
      destruct ((off <? 0) || _) eqn:E; intros X; invc X.
      - split; [destruct (fm_heap s j); auto|]. split; auto.
      - split; auto. split; [cbn; apply len_splice; lia|]. right. split; [lia|]. split; [lia|]. auto. }
    unfold write2 in Ew. destruct (f_kind (fm_heap s j)) eqn:Ek; try discriminate.
    - destruct (file_write (fm_heap s j) off d) as [f2 r2] eqn:E2. invc Ew. destruct (FW _ _ eq_refl) as (A & B & C).
      split; auto. split; auto. split; [discriminate|]. intros _ o m [].
    - invc Ew. unfold input_write in H1. destruct (file_write (fm_heap s j) off d) as [f2 r2] eqn:E2.
      destruct (FW _ _ eq_refl) as (A & B & C).
      assert (f' = f2 /\ (forall o m, ~ In (OutNotify o m) evs)) as [-> No].
      { destruct (_ && _); [destruct (f_handled f2)|]; invc H1; split; auto; intros o m; cbn; intuition discriminate. }
      split; auto. split; auto. split; [discriminate|]. auto.
    - invc Ew. unfold output_write in H1. destruct (file_write (fm_heap s j) off d) as [f2 r2] eqn:E2.
      destruct (FW _ _ eq_refl) as (A & B & C).
      assert (f' = f2) as -> by (destruct (_ && _); invc H1; auto).
      split; auto. split; auto. split; [|congruence]. intros _.
      destruct C as [(-> & ->)|(Ca & Cb & ->)].
      + left. split; auto. cbn in H1. invc H1. auto.
      + right. split; auto. split; auto. split; auto.
        rewrite A in H1. cbn [f_managed f_isOpen with_data] in H1. pose proof (len_nonneg d).
        replace (0 <=? len d) with true in H1 by lia. cbn [andb] in H1.
        destruct (_ && _); invc H1; auto. }
  destruct Sh as (Sf & Sl & So & Sn).
  set (s1 := with_heap s (upd (fm_heap s) j f')).
  destruct (in_dec Nat.eq_dec j (m_items (fm_local s))) as [Hj|Hj].
  - (* a local file *)
    assert (Lj : L j) by (eapply w_L; eauto).
    assert (Kj : f_kind (fm_heap s j) = KOutput) by (rewrite (w_kind _ _ W j Lj); auto).
    pose proof (w_att _ _ W j Hj) as Mj.
    pose proof (map_ok_addr _ _ j (w_map _ _ W) Hj) as Aj. set (a := addr (fm_heap s) j) in *.
    destruct (w_len _ _ W j Lj) as [Lenj Posj].
    destruct (So Kj) as [(Ef & ->)|(Ho & Hf & Ewr & Eev)].
    + cbn [st_of fst fine]. rewrite added_none by auto. eapply winv_data; eauto; [|intros ? ? []|unfold s1, with_heap; rewrite app_nil_r; reflexivity].
      intros. rewrite app_nil_r. rewrite H4. unfold upd. destruct (Nat.eqb_spec k j); subst; congruence.
    + rewrite Mj in Eev. cbn [andb] in Eev. destruct (f_isOpen (fm_heap s j)) eqn:Op.
      * subst evs. unfold outPortDataWriteNotify. cbn [s1 with_heap fm_heap]. rewrite upd_same.
        replace (f_address f') with (Some a) by (rewrite Sf; auto).
        rewrite (read_after_write _ _ _ _ Ewr). cbn [st_of fst fine].
        rewrite (added_some s _ [QWrite (a + off) d]) by reflexivity.
        destruct (wp_range _ _ (w_wp _ _ W j Hj)) as (a' & Ra & Rb & Rc).
        eapply winv_data with (i := j) (f' := f'); eauto;
          [|intros x d' [Hx|[]]; invc Hx; replace a with a' by congruence; lia].
        intros b rep k Hkk Hko Hkb Hlen Hrep. rewrite replay1, Hrep.
        destruct (Nat.eq_dec k j) as [->|Hne].
        -- rewrite upd_same. replace b with a by congruence. unfold apply_write.
           replace ((a <=? a + off) && (a + off + len d <=? a + len (f_data (fm_heap s j)))) with true by lia.
           unfold file_write in Ewr. destruct ((off <? 0) || _) eqn:E in Ewr; [lia|]. invc Ewr. cbn [f_data with_data].
           f_equal; lia.
        -- rewrite upd_other by auto.
           pose proof (disjoint_local _ _ k j b a (w_map _ _ W) Hkk Hj Hne Hkb Aj) as D.
           destruct (w_len _ _ W k (w_L _ _ W k Hkk)) as [Lenk _].
           apply apply_write_other with (lo := a) (hi := a + f_length (fm_heap s j)); [lia | lia | rewrite <- Lenk; lia].
      * subst evs. cbn [st_of fst fine]. rewrite added_none by auto.
        eapply winv_data; eauto; [|intros ? ? []|unfold s1, with_heap; rewrite app_nil_r; reflexivity].
        intros b rep k Hkk Hko Hkb Hlen Hrep. rewrite app_nil_r, Hrep.
        unfold upd. destruct (Nat.eqb_spec k j); [subst; congruence | auto].
  - (* not attached: nothing is announced *)
    assert (Mj : f_managed (fm_heap s j) = false).
    { destruct (f_managed (fm_heap s j)) eqn:E; auto. exfalso. apply Hj. eapply w_man; eauto. }
    assert (No : forall o m, ~ In (OutNotify o m) evs).
    { destruct (f_kind (fm_heap s j)) eqn:Ek; try (apply Sn; congruence).
      destruct (So eq_refl) as [(_ & ->)|(_ & _ & _ & ->)]; [intros o m []|]. rewrite Mj. intros o m []. }
    assert (St : st_of (match evs with
         | [OutNotify o m] => outPortDataWriteNotify s1 j o m
         | [InNotify o m] => (s1, [(j, InNotify o m)], None)
         | _ => fine s1 end) = s1).
    { destruct evs as [|[o m|o m] [|? ?]]; auto. exfalso. eapply No. left; eauto. }
    rewrite St. rewrite added_none by auto. rewrite app_nil_r.
    pose proof (w_len _ _ W) as Wl.
    assert (G : forall k, f_info (upd (fm_heap s) j f' k) = f_info (fm_heap s k) /\
       len (f_data (upd (fm_heap s) j f' k)) = len (f_data (fm_heap s k)) /\
       f_kind (upd (fm_heap s) j f' k) = f_kind (fm_heap s k) /\
       f_isOpen (upd (fm_heap s) j f' k) = f_isOpen (fm_heap s k) /\
       f_managed (upd (fm_heap s) j f' k) = f_managed (fm_heap s k)).
    { intros k. unfold upd. destruct (Nat.eqb_spec k j); [subst k; rewrite Sf; auto | auto]. }
    constructor; cbn [s1 with_heap fm_heap fm_next fm_local fm_remote fm_requested fm_queue];
      try (now (eapply W; eauto)).
    + eapply map_ok_same; [|eapply w_map; eauto]. intros k Hkk. unfold f_address, f_length. destruct (G k) as (-> & _). auto.
    + intros k b m Hkk [Ra Rb]. eapply w_ns; eauto. unfold range, f_address, f_length in *. destruct (G k) as (E & _).
      rewrite E in *. auto.
    + intros k Hkk. eapply wp_info; [apply G | eapply w_wp; eauto].
    + intros k Hkk. unfold f_length. destruct (G k) as (-> & -> & _). eapply Wl; eauto.
    + intros k Hkk. destruct (G k) as (_ & _ & -> & _). eapply w_kind; eauto.
    + intros k. destruct (G k) as (_ & _ & _ & _ & ->). eapply w_man; eauto.
    + intros k. destruct (G k) as (_ & _ & _ & _ & ->). eapply w_att; eauto.
    + intros k Hkk Hn. unfold f_address. destruct (G k) as (-> & _ & _ & -> & _). eapply w_un; eauto.
    + intros k b rep Hkk. rewrite upd_other by congruence. intros. eapply w_rep; eauto.
Qed.

Lemma winv_msg s hist m : winv s hist ->
  winv (st_of (onMsgReceived s m)) (hist ++ added s (st_of (onMsgReceived s m))).
Proof.
  intros W.
  assert (Same : winv s (hist ++ added s s)).
  { rewrite added_none by auto. rewrite app_nil_r. auto. }
  assert (Fr : forall s' q, fm_queue s' = fm_queue s ++ q -> flat_map data_of q = [] ->
    fm_local s' = fm_local s ->
    (exists j, (R j \/ (n <= j)%nat) /\ (forall k, k <> j -> fm_heap s' k = fm_heap s k) /\
       (f_managed (fm_heap s' j) = true -> f_managed (fm_heap s j) = true)) ->
    (n <= fm_next s')%nat ->
    (forall k j, In (k, j) (fm_requested s') -> In (k, j) (fm_requested s)) ->
    (forall j, In j (m_items (fm_remote s')) -> R j \/ (n <= j)%nat) ->
    winv s' (hist ++ added s s')).
  { intros s' q Eq Ed El (j & Hj & Ho & Hm) En Er Eo. rewrite (added_some _ _ _ Eq).
    eapply winv_frame; eauto.
    - intros k Hk. apply Ho. intros ->. eapply L_fresh; eauto.
    - intros k. destruct (Nat.eq_dec k j) as [->|]; auto. rewrite Ho; auto.
    - intros. eapply w_req; eauto. }
  unfold onMsgReceived. destruct (unpackHeader m) as [[k a] mb]. destruct (0 <? k); [|exact Same].
  destruct a as [a|]; [|exact Same]. destruct (a =? _).
  - unfold processCmd. destruct (4 <=? _); [|exact Same].
    destruct (_ =? RMF_CMD_FILE_INFO).
    + unfold processFileInfo. destruct (unpackFileInfo _ _) as [[fi|]|]; try exact Same.
      destruct (lookup _ _) as [j|] eqn:El.
      * destruct (_ =? _); [|exact Same]. apply lookup_in in El. apply (w_req _ _ W) in El.
        set (s1 := with_requested _ _). set (f1 := with_open _ true).
        destruct (insert _ _ _) as [[H m']|] eqn:Ei.
        -- apply insert_shape in Ei as ((p & -> & _) & Hin).
           cbn [with_heap fm_heap fm_remote s1 with_requested] in *.
           assert (Rm : forall q, In q (m_items m') -> R q \/ (n <= q)%nat).
           { intros q Hq. destruct (Hin q Hq) as [->|]; auto. eapply w_rem; eauto. }
           assert (Ex : exists k, (R k \/ (n <= k)%nat) /\
              (forall k0, k0 <> k -> upd (upd (fm_heap s) j f1) j (with_address (upd (fm_heap s) j f1 j) (Some p)) k0 = fm_heap s k0) /\
              (f_managed (upd (upd (fm_heap s) j f1) j (with_address (upd (fm_heap s) j f1 j) (Some p)) k) = true ->
               f_managed (fm_heap s k) = true)).
           { exists j. split; [auto|]. split; [intros q Hq; rewrite !upd_other by auto; auto | rewrite !upd_same; cbn; auto]. }
           pose proof (w_next _ _ W) as Wn.
           assert (Dd : forall k0 j0, In (k0, j0) (ddel (f_name (fm_heap s j)) (fm_requested s)) -> In (k0, j0) (fm_requested s)).
           { intros k0 j0 Hd. apply ddel_in in Hd. auto. }
           destruct (fi_address fi) as [fa|].
           ++ apply Fr with (q := [QFileOpen fa]); auto.
           ++ apply Fr with (q := []); auto. symmetry; apply app_nil_r.
        -- apply Fr with (q := []); auto.
           ++ symmetry; apply app_nil_r.
           ++ exists j. split; [auto|]. cbn [fail st_of fst with_heap fm_heap s1 with_requested].
              split; [intros q Hq; rewrite !upd_other by auto; auto | rewrite !upd_same; cbn; auto].
           ++ exact (w_next _ _ W).
           ++ intros k0 j0 Hd. cbn in Hd. apply ddel_in in Hd. auto.
           ++ exact (w_rem _ _ W).
      * destruct (insert _ _ _) as [[H m']|] eqn:Ei; [|exact Same].
        apply insert_shape in Ei as ((p & -> & _) & Hin).
        pose proof (w_next _ _ W) as Hn.
        eapply Fr with (q := []);
          cbn [st_of fst fine fail fm_queue fm_local fm_heap fm_next fm_remote fm_requested]; eauto.
        -- symmetry; apply app_nil_r.
        -- exists (fm_next s). split; auto. split; [intros q Hq; rewrite !upd_other by auto; auto|].
           rewrite !upd_same. cbn. discriminate.
        -- intros q Hq. destruct (Hin q Hq) as [->|]; auto. eapply w_rem; eauto.
    + destruct (_ =? RMF_CMD_FILE_OPEN).
      * unfold processFileOpen. destruct (unpackFileOpen _ _) as [x|]; [|exact Same].
        destruct (findByAddress _ _ _) as [i|] eqn:Ef; [|exact Same]. apply find_in in Ef.
        pose proof (map_ok_addr _ _ i (w_map _ _ W) Ef) as Ai. destruct (w_len _ _ W i (w_L _ _ W i Ef)) as [Hl _].
        change (f_length (with_open (fm_heap s i) true)) with (f_length (fm_heap s i)).
        change (f_address (with_open (fm_heap s i) true)) with (f_address (fm_heap s i)).
        assert (Rd : file_read (with_open (fm_heap s i) true) 0 (len (f_data (fm_heap s i))) = Some (f_data (fm_heap s i)))
          by apply (file_read_all (with_open (fm_heap s i) true)).
        rewrite Hl, Ai, Rd. cbn [st_of fst fine].
        rewrite (added_some s _ [QWrite (addr (fm_heap s) i) (f_data (fm_heap s i))]) by reflexivity.
        apply winv_open; auto.
      * destruct (_ =? RMF_CMD_FILE_CLOSE); [|exact Same].
        unfold processFileClose. rewrite unpackFileClose_always. exact Same.
  - destruct (a <? _); [|exact Same]. unfold processFileWrite.
    destruct (findByAddress _ _ _) as [i|] eqn:Ef; [|exact Same]. apply find_in in Ef.
    destruct (f_isOpen _); [|exact Same]. destruct (f_address _); [|exact Same]. destruct (_ && _); [|exact Same].
    destruct (write3 _ _ _ _) as [[[f' r] evs]|] eqn:Ew; [|exact Same].
    eapply Fr with (q := []);
      cbn [st_of fst with_heap fm_queue fm_local fm_heap fm_next fm_remote fm_requested]; eauto;
      try (symmetry; apply app_nil_r); try (eapply w_next; eauto); try (eapply w_rem; eauto).
    exists i. split; [eapply w_rem; eauto|]. split; [intros q Hq; rewrite upd_other by auto; auto|].
    rewrite upd_same. unfold write3 in Ew. destruct (f_kind _); try discriminate. invc Ew.
    unfold input_write, file_write in H1. destruct ((_ <? 0) || _); cbn [fst snd] in H1;
      repeat match type of H1 with context [if ?b then _ else _] => destruct b end; invc H1; auto.
Qed.

Lemma winv_step s hist e : winv s hist -> ev_ok s e ->
  winv (st_of (apistep s e)) (hist ++ added s (st_of (apistep s e))).
Proof.
  intros W Ok. destruct e as [j|j|j off d| |h|m|]; cbn [apistep ev_ok] in *.
  - rewrite added_none; [rewrite app_nil_r; apply winv_attach; tauto|].
    unfold attachLocalFile. destruct (insert _ _ _) as [[? ?]|]; auto.
  - eapply winv_frame; eauto; cbn; auto; try (now eapply W; eauto).
    + intros k i Hi. apply dset_in in Hi as [->|Hi]; auto. eapply w_req; eauto.
    + rewrite added_none; auto.
  - apply winv_write; auto.
  - rewrite (added_some s _ [QStop]) by reflexivity.
    eapply winv_frame; eauto; cbn; auto; try (now eapply W; eauto).
  - unfold onConnected. pose proof (announce_facts (m_items (fm_local s)) (put s (QConnect h))) as (A & B & C & D & E & q & F & G).
    rewrite (added_some s _ (QConnect h :: q)) by (rewrite F; cbn [put fm_queue]; rewrite <- app_assoc; auto).
    eapply winv_frame; eauto; rewrite ?A, ?B, ?C, ?D, ?E; cbn [put fm_heap fm_local fm_remote fm_requested fm_next]; auto; try (now eapply W; eauto).
  - apply winv_msg; auto.
  - rewrite added_none by auto. rewrite app_nil_r. auto.
Qed.

Lemma work_keeps y : fm_heap (y_fm (work y)) = fm_heap (y_fm y) /\ fm_next (y_fm (work y)) = fm_next (y_fm y) /\
  fm_local (y_fm (work y)) = fm_local (y_fm y) /\ fm_remote (y_fm (work y)) = fm_remote (y_fm y) /\
  fm_requested (y_fm (work y)) = fm_requested (y_fm y).
Proof.
  unfold work. destruct (y_wrk y); auto. destruct (fm_queue (y_fm y)); auto. destruct (work1 _ _). cbn. auto 6.
Qed.

Lemma attach_local s e j :
  In j (m_items (fm_local (st_of (apistep s e)))) -> In j (m_items (fm_local s)) \/ In j (attaches e).
Proof.
  destruct e as [i|i|i off d| |h|m|]; cbn [apistep attaches]; auto.
  - unfold attachLocalFile. destruct (insert _ _ _) as [[H m]|] eqn:E; auto. apply insert_shape in E as (_ & Hin).
    cbn. intros Hj. destruct (Hin j Hj) as [->|]; auto.
  - left. revert H. unfold writeLocal. destruct (write2 _ _ _) as [[[? ?] evs]|]; auto.
    destruct evs as [|[? ?|? ?] [|? ?]]; auto. unfold outPortDataWriteNotify.
    destruct (f_address _); auto. destruct (file_read _ _ _); auto.
  - left. unfold onConnected in H. pose proof (announce_facts (m_items (fm_local s)) (put s (QConnect h))) as (_ & B & _).
    rewrite B in H. auto.
  - left. revert H. unfold onMsgReceived. destruct (unpackHeader m) as [[k a] mb]. destruct (0 <? k); auto.
    destruct a as [a|]; auto. destruct (a =? _).
    + unfold processCmd. destruct (4 <=? _); auto. destruct (_ =? RMF_CMD_FILE_INFO).
      * unfold processFileInfo. destruct (unpackFileInfo _ _) as [[fi|]|]; auto. destruct (lookup _ _).
        -- destruct (_ =? _); auto. destruct (insert _ _ _) as [[? ?]|]; auto. destruct (fi_address fi); auto.
        -- destruct (insert _ _ _) as [[? ?]|]; auto.
      * destruct (_ =? RMF_CMD_FILE_OPEN).
        -- unfold processFileOpen. destruct (unpackFileOpen _ _); auto. destruct (findByAddress _ _ _); auto.
           destruct (file_read _ _ _); auto. destruct (f_address _); auto.
        -- destruct (_ =? RMF_CMD_FILE_CLOSE); auto. unfold processFileClose. destruct (unpackFileClose _ _); auto.
           destruct (findByAddress _ _ _); auto.
    + destruct (a <? _); auto. unfold processFileWrite. destruct (findByAddress _ _ _); auto.
      destruct (f_isOpen _); auto. destruct (f_address _); auto. destruct (_ && _); auto.
      destruct (write3 _ _ _ _) as [[[? ?] ?]|]; auto.
Qed.

Lemma winv_run evs : forall y hist y' q,
  winv (y_fm y) hist ->
  NoDup (flat_map attaches evs) -> (forall j, In j (flat_map attaches evs) -> ~ In j (m_items (fm_local (y_fm y)))) ->
  Forall (fun e => match e with
                   | EAttach j => L j
                   | ERequest j => R j
                   | EWrite j _ _ => L j -> f_kind (H0 j) = KOutput
                   | _ => True
                   end) evs ->
  yrun y evs = (y', q) -> winv (y_fm y') (hist ++ q).
Proof.
  induction evs as [|e evs IH]; intros y hist y' q W Nd Na Fo Hr; cbn [yrun] in Hr.
  - invc Hr. rewrite app_nil_r. auto.
  - destruct (ystep y e) as [y1 q1] eqn:E1. destruct (yrun y1 evs) as [y2 q2] eqn:E2. invc Hr. invc Fo.
    cbn [flat_map] in Nd, Na.
    assert (Nd2 : NoDup (flat_map attaches evs)).
    { destruct e; cbn [attaches app] in Nd; auto. invc Nd; auto. }
    assert (W1 : winv (y_fm y1) (hist ++ q1) /\
      (forall j, In j (m_items (fm_local (y_fm y1))) -> In j (m_items (fm_local (y_fm y))) \/ In j (attaches e))).
    { assert (e = EWork \/ ystep y e = (mk_sys (st_of (apistep (y_fm y) e)) (y_wrk y) (y_sent y),
                                     added (y_fm y) (st_of (apistep (y_fm y) e)))) as [->|Hs'] by (destruct e; auto).
      - cbn [ystep] in E1. invc E1. rewrite app_nil_r. destruct (work_keeps y) as (A & B & C & D & E).
        split; [|rewrite C; auto].
        replace hist with (hist ++ []) by apply app_nil_r.
        eapply winv_frame; eauto; rewrite ?A, ?B, ?C, ?D, ?E; auto; try (now eapply W; eauto).
      - rewrite Hs' in E1. invc E1. cbn [y_fm]. split; [|apply attach_local].
        apply winv_step; auto. destruct e; cbn [ev_ok]; auto. split; auto. apply Na. left; auto. }
    destruct W1 as [W1 At]. rewrite app_assoc. eapply IH; eauto.
    intros j Hj Hin. destruct (At j Hin) as [X|X].
    + eapply Na; eauto. apply in_or_app; auto.
    + destruct e; cbn [attaches app] in *; try contradiction. destruct X as [->|[]]. invc Nd. auto.
Qed.

Lemma winv_init : winv (init_fm H0 n) [].
Proof.
  constructor; cbn; auto; try (now (intros; contradiction)).
  - repeat constructor.
  - intros ? ? ? [].
  - intros j Hj. destruct (ro_local _ _ _ _ Ro j Hj) as (A & B & C & D). auto.
  - intros j. rewrite (ro_new _ _ _ _ Ro). discriminate.
  - intros j Hj _. destruct (ro_local _ _ _ _ Ro j Hj) as (A & B & C & D). auto.
Qed.

Lemma winv_fresh evs y q :
  keeps_roles H0 L R evs -> yrun (fresh H0 n) evs = (y, q) -> winv (y_fm y) q.
Proof.
  intros [Nd Fo] Hr. change q with ([] ++ q). eapply winv_run; eauto; [exact winv_init | intros j _ []].
Qed.

End Roles.

(** ** What is transmitted *)

Lemma expected_app_noconnect t a b :
  (forall h, ~ In (QConnect h) a) -> expected t (a ++ b) = expected t a ++ expected t b.
Proof.
  revert t. induction a as [|q a IH]; intros t Hn; auto. cbn [app].
  assert (Hn' : forall h, ~ In (QConnect h) a) by (intros h Hi; eapply Hn; right; eauto).
  destruct q; cbn [expected]; rewrite ?IH by auto;
    try (destruct t; auto; destruct (wire_of _) as [[?|]|]; auto; fail).
  exfalso. eapply Hn. left; eauto.
Qed.

Lemma expected_none a : (forall h, ~ In (QConnect h) a) -> forall b, expected None (a ++ b) = expected None b.
Proof.
  induction a as [|q a IH]; intros Hn b; auto. cbn [app].
  assert (Hn' : forall h, ~ In (QConnect h) a) by (intros h Hi; eapply Hn; right; eauto).
  destruct q; cbn [expected]; auto. exfalso. eapply Hn. left; eauto.
Qed.

Lemma added_app2 s s' q : fm_queue s' = fm_queue s ++ q -> forall x, In x (added s s') -> In x q.
Proof. intros E x. rewrite (added_some _ _ _ E). auto. Qed.

Lemma noconnect_added s e h : ~ is_connect e -> ~ In (QConnect h) (added s (st_of (apistep s e))).
Proof.
  intros Hc.
  assert (Z0 : forall s', fm_queue s' = fm_queue s -> ~ In (QConnect h) (added s s')).
  { intros s' E. rewrite added_none by auto. intros []. }
  assert (Z1 : forall s' q, fm_queue s' = fm_queue s ++ [q] -> q <> QConnect h -> ~ In (QConnect h) (added s s')).
  { intros s' q E Hq Hi. rewrite (added_some _ _ _ E) in Hi. destruct Hi as [Hi|[]]. auto. }
  destruct e as [i|i|i off d| |h'|m|]; cbn [apistep].
  - unfold attachLocalFile. destruct (insert _ _ _) as [[? ?]|]; apply Z0; auto.
  - apply Z0; auto.
  - unfold writeLocal. destruct (write2 _ _ _) as [[[? ?] evs]|]; [|apply Z0; auto].
    destruct evs as [|[? ?|? ?] [|? ?]]; try (apply Z0; auto; fail). unfold outPortDataWriteNotify.
    destruct (f_address _); [|apply Z0; auto]. destruct (file_read _ _ _); [|apply Z0; auto].
    eapply Z1; [reflexivity | discriminate].
  - eapply Z1; [reflexivity | discriminate].
  - exfalso. apply Hc. exists h'. auto.
  - unfold onMsgReceived. destruct (unpackHeader m) as [[k a] mb]. destruct (0 <? k); [|apply Z0; auto].
    destruct a as [a|]; [|apply Z0; auto]. destruct (a =? _).
    + unfold processCmd. destruct (4 <=? _); [|apply Z0; auto]. destruct (_ =? RMF_CMD_FILE_INFO).
      * unfold processFileInfo. destruct (unpackFileInfo _ _) as [[fi|]|]; try (apply Z0; auto; fail). destruct (lookup _ _).
        -- destruct (_ =? _); [|apply Z0; auto]. destruct (insert _ _ _) as [[? ?]|]; [|apply Z0; auto].
           destruct (fi_address fi); [|apply Z0; auto]. eapply Z1; [reflexivity | discriminate].
        -- destruct (insert _ _ _) as [[? ?]|]; apply Z0; auto.
      * destruct (_ =? RMF_CMD_FILE_OPEN).
        -- unfold processFileOpen. destruct (unpackFileOpen _ _); [|apply Z0; auto].
           destruct (findByAddress _ _ _); [|apply Z0; auto].
           destruct (file_read _ _ _); [|apply Z0; auto]. destruct (f_address _); [|apply Z0; auto].
           eapply Z1; [reflexivity | discriminate].
        -- destruct (_ =? RMF_CMD_FILE_CLOSE); [|apply Z0; auto]. unfold processFileClose.
           destruct (unpackFileClose _ _); [|apply Z0; auto]. destruct (findByAddress _ _ _); apply Z0; auto.
    + destruct (a <? _); [|apply Z0; auto]. unfold processFileWrite. destruct (findByAddress _ _ _); [|apply Z0; auto].
      destruct (f_isOpen _); [|apply Z0; auto]. destruct (f_address _); [|apply Z0; auto].
      destruct (_ && _); [|apply Z0; auto].
      destruct (write3 _ _ _ _) as [[[? ?] ?]|]; apply Z0; auto.
  - apply Z0; auto.
Qed.

Lemma noconnect_run evs : forall y y' q,
  Forall (fun e => ~ is_connect e) evs -> yrun y evs = (y', q) -> forall h, ~ In (QConnect h) q.
Proof.
  induction evs as [|e evs IH]; intros y y' q F Hr h; cbn [yrun] in Hr.
  - invc Hr. intros [].
  - destruct (ystep y e) as [y1 q1] eqn:E1. destruct (yrun y1 evs) as [y2 q2] eqn:E2. invc Hr. invc F.
    rewrite in_app_iff. intros [Hi|Hi]; [|eapply IH; eauto].
    assert (e = EWork \/ ystep y e = (mk_sys (st_of (apistep (y_fm y) e)) (y_wrk y) (y_sent y),
              added (y_fm y) (st_of (apistep (y_fm y) e)))) as [->|Hs'] by (destruct e; auto).
    + cbn in E1. invc E1. auto.
    + rewrite Hs' in E1. invc E1. eapply noconnect_added; eauto.
Qed.

Lemma fresh_inv H n : yinv (fresh H n) [].
Proof. exists []. auto. Qed.

Lemma yrun_app a : forall b y, yrun y (a ++ b) =
  let '(y1, q1) := yrun y a in let '(y2, q2) := yrun y1 b in (y2, q1 ++ q2).
Proof.
  induction a as [|e a IH]; intros b y; cbn [app yrun].
  - destruct (yrun y b); auto.
  - destruct (ystep y e) as [y1 q1]. rewrite IH. destruct (yrun y1 a) as [y2 q2]. destruct (yrun y2 b) as [y3 q3].
    rewrite app_assoc. auto.
Qed.

(** Everything sent is the expected transmission of an initial part of what was queued. *)
Lemma sent_prefix y hist : yinv y hist ->
  exists d r, hist = d ++ r /\ y_sent y = expected None d /\
  ((exists t, y_wrk y = WRun t) -> r = fm_queue (y_fm y)).
Proof.
  intros (done & E & W). pose proof (work_all_expected done None) as X. rewrite W in X.
  destruct (y_wrk y) as [|t| |e].
  - contradiction.
  - destruct X as (_ & _ & X). exists done, (fm_queue (y_fm y)). auto.
  - destruct X as (d & r & Ed & _ & _ & X). exists d, (QStop :: r ++ fm_queue (y_fm y)). split; [|split; auto].
    + rewrite E, Ed, <- app_assoc. auto.
    + intros (t & Ht). discriminate.
  - destruct X as (d & q & r & Ed & _ & _ & _ & X). exists d, (q :: r ++ fm_queue (y_fm y)). split; [|split; auto].
    + rewrite E, Ed, <- app_assoc. auto.
    + intros (t & Ht). discriminate.
Qed.

(** ** Start-up *)

Definition ann_wire (H : heap) (i : nat) : bytes := finfo_wire Little (f_info (H i)) (addr H i).

Lemma announce_ok H items : (forall i, In i items -> finfo_ok (f_info (H i)) (addr H i)) ->
  forall s, fm_heap s = H ->
  announce s items = fine (mk_fm H (fm_next s) (fm_local s) (fm_remote s) (fm_requested s)
     (fm_queue s ++ map (fun i => QFileInfo (ann_wire H i)) items)).
Proof.
  induction items as [|i r IH]; intros Hok s <-; cbn [announce map].
  - rewrite app_nil_r. destruct s; auto.
  - rewrite (packFileInfo_wire Little _ _ (Hok i (or_introl eq_refl))).
    rewrite IH; [|intros; apply Hok; right; auto | auto]. cbn [put fm_heap fm_next fm_local fm_remote fm_requested fm_queue].
    rewrite <- app_assoc. auto.
Qed.

Lemma finfo_addr H i a : finfo_ok (f_info (H i)) a -> a = addr H i.
Proof. intros (E & _). unfold addr, f_address. rewrite E. auto. Qed.

Lemma cmd_wire : packHeader RMF_CMD_START_ADDR false = Ok (hdr_wire 0x3FFFFC00 false).
Proof. apply packHeader_wire. cbv; split; congruence. Qed.

Lemma finfo_wire_nonempty e f a : finfo_wire e f a <> [].
Proof.
  unfold finfo_wire. pose proof (num_wire_len e 4 3) as E. destruct (num_wire e 4 3); [discriminate|]. cbn. discriminate.
Qed.

Lemma ann_decodes f a : finfo_ok f a -> announcement f (hdr_wire 0x3FFFFC00 false ++ finfo_wire Little f a).
Proof.
  intros Hf. split.
  - rewrite unpackHeader_wire; [reflexivity | lia | right; apply finfo_wire_nonempty].
  - change (hdr_wire 0x3FFFFC00 false) with [191; 255; 252; 0]. cbn [app skipn]. apply unpackFileInfo_wire; auto.
Qed.

Lemma expected_anns H items h r :
  expected (Some h) (map (fun i => QFileInfo (ann_wire H i)) items ++ r) =
  map (fun i => (h, hdr_wire 0x3FFFFC00 false ++ ann_wire H i)) items ++ expected (Some h) r.
Proof.
  induction items as [|i l IH]; auto. cbn [map app expected wire_of]. rewrite cmd_wire. cbn [bind]. rewrite IH. auto.
Qed.

Lemma expected_anns_part H items h d r :
  d ++ r = map (fun i => QFileInfo (ann_wire H i)) items ->
  expected (Some h) d = firstn (length d) (map (fun i => (h, hdr_wire 0x3FFFFC00 false ++ ann_wire H i)) items).
Proof.
  revert items. induction d as [|q d IH]; intros items E; auto.
  destruct items as [|i l]; [discriminate|]. cbn [app map] in E. invc E.
  cbn [expected wire_of length map firstn]. rewrite cmd_wire. cbn [bind]. rewrite (IH l) by auto. auto.
Qed.

(** ** The peer's view of data messages *)

Lemma data_msg_write x d : 0 <= x -> x + len d <= RMF_CMD_START_ADDR -> 0 < len d ->
  data_msg (hdr_wire x false ++ d) = [(x, d)].
Proof.
  intros H1 H2 H3. change RMF_CMD_START_ADDR with 0x3FFFFC00 in H2. unfold data_msg.
  rewrite unpackHeader_wire; [| unfold len in *; lia |right; intros ->; unfold len in H3; cbn [length] in H3; lia].
  replace (x <? 1073740800) with true by lia. rewrite to_nat_len, skipn_app, skipn_all, Nat.sub_diag. auto.
Qed.

Lemma apply_write_empty a rep x : apply_write a rep (x, []) = rep.
Proof.
  unfold apply_write. destruct (_ && _) eqn:E; auto. rewrite len_nil in *. apply splice_nil. lia.
Qed.

Lemma data_msg_empty x : 0 <= x < 2 ^ 30 -> data_msg (hdr_wire x false) = [] \/ data_msg (hdr_wire x false) = [(x, [])].
Proof.
  intros Hx. unfold data_msg. destruct (Z.ltb_spec x 16384).
  - pose proof (unpackHeader_wire x false [] Hx (or_introl H)) as E. rewrite app_nil_r in E. rewrite E.
    replace (x <? 1073740800) with true by lia. rewrite to_nat_len, skipn_all. auto.
  - rewrite unpackHeader_bare by lia. auto.
Qed.

Lemma data_msg_cmd d : data_msg (hdr_wire 0x3FFFFC00 false ++ d) = [].
Proof.
  unfold data_msg. destruct d as [|c d].
  - rewrite app_nil_r. rewrite unpackHeader_bare by lia. auto.
  - rewrite unpackHeader_wire; [reflexivity | lia | right; discriminate].
Qed.

Lemma peer_replay h a qs : forall rep,
  (forall k, ~ In (QConnect k) qs) ->
  (forall x d, In (QWrite x d) qs -> 0 <= x /\ x + len d <= RMF_CMD_START_ADDR) ->
  fold_left (apply_write a) (flat_map data_msg (map snd (expected (Some h) qs))) rep = replay a rep qs.
Proof.
  induction qs as [|q qs IH]; intros rep Hc Hq; auto.
  assert (Hc' : forall k, ~ In (QConnect k) qs) by (intros k Hi; eapply Hc; right; eauto).
  assert (Hq' : forall x d, In (QWrite x d) qs -> 0 <= x /\ x + len d <= RMF_CMD_START_ADDR) by (intros; apply Hq; right; auto).
  unfold replay in *. cbn [flat_map]. rewrite fold_left_app.
  destruct q as [k|info|x d|x|]; cbn [expected wire_of data_of fold_left].
  - exfalso. eapply Hc. left; eauto.
  - rewrite cmd_wire. cbn [bind map snd flat_map]. rewrite data_msg_cmd. cbn [app]. apply IH; auto.
  - destruct (Hq x d (or_introl eq_refl)) as [H1 H2]. pose proof (len_nonneg d).
    change RMF_CMD_START_ADDR with 0x3FFFFC00 in H2.
    rewrite packHeader_wire by lia. cbn [bind map snd flat_map]. rewrite fold_left_app.
    destruct (Z.eq_dec (len d) 0) as [E|E].
    + apply len_zero_inv in E. subst d. rewrite app_nil_r, apply_write_empty.
      destruct (data_msg_empty x ltac:(lia)) as [-> | ->]; cbn [fold_left]; rewrite ?apply_write_empty; apply IH; auto.
    + rewrite data_msg_write by (change RMF_CMD_START_ADDR with 0x3FFFFC00; lia). cbn [fold_left]. apply IH; auto.
  - destruct (packFileOpen x Little); cbn [bind]; [|apply IH; auto].
    rewrite cmd_wire. cbn [bind map snd flat_map]. rewrite data_msg_cmd. cbn [app]. apply IH; auto.
  - apply IH; auto.
Qed.

(** Without messages nothing is ever opened among the local files. *)
Lemma noopen_step H0 n L R s e : roles H0 n L R ->
  ~ is_msg e -> (forall j, L j -> f_isOpen (fm_heap s j) = false) ->
  forall j, L j -> f_isOpen (fm_heap (st_of (apistep s e)) j) = false.
Proof.
  intros Ro Hm Ho j Hj.
  destruct e as [i|i|i off d| |h'|m|]; cbn [apistep]; try (apply Ho; auto; fail).
  - unfold attachLocalFile. destruct (insert _ _ _) as [[H m]|] eqn:E; [|apply Ho; auto].
    apply insert_shape in E as ((k & -> & _) & _). cbn. unfold upd.
    destruct (Nat.eqb_spec j i); [subst; rewrite Nat.eqb_refl; cbn; apply Ho; auto|]. apply Ho; auto.
  - unfold writeLocal. destruct (write2 (fm_heap s i) off d) as [[[f' r] evs]|] eqn:Ew; [|apply Ho; auto].
    assert (Op : f_isOpen f' = f_isOpen (fm_heap s i)).
    { unfold write2, input_write, output_write, file_write in Ew.
      destruct (f_kind _); try discriminate; destruct ((off <? 0) || _) eqn:Eb in Ew; cbn [fst snd] in Ew;
      repeat match type of Ew with context [if ?b then _ else _] => destruct b end; invc Ew; auto. }
    assert (St : fm_heap (st_of (match evs with
         | [OutNotify o m] => outPortDataWriteNotify (with_heap s (upd (fm_heap s) i f')) i o m
         | [InNotify o m] => (with_heap s (upd (fm_heap s) i f'), [(i, InNotify o m)], None)
         | _ => fine (with_heap s (upd (fm_heap s) i f')) end)) = upd (fm_heap s) i f').
    { destruct evs as [|[o m|o m] [|? ?]]; auto. unfold outPortDataWriteNotify. destruct (f_address _); auto.
      destruct (file_read _ _ _); auto. }
    rewrite St. unfold upd. destruct (Nat.eqb_spec j i); [subst; rewrite Op|]; apply Ho; auto.
  - unfold onConnected. pose proof (announce_facts (m_items (fm_local s)) (put s (QConnect h'))) as (A & _).
    rewrite A. apply Ho; auto.
  - exfalso. apply Hm. exists m. auto.
Qed.

Lemma noopen_run H0 n L R evs : roles H0 n L R -> forall y y' q,
  Forall (fun e => ~ is_msg e) evs -> (forall j, L j -> f_isOpen (fm_heap (y_fm y) j) = false) ->
  yrun y evs = (y', q) -> forall j, L j -> f_isOpen (fm_heap (y_fm y') j) = false.
Proof.
  intros Ro. induction evs as [|e evs IH]; intros y y' q F Ho Hr; cbn [yrun] in Hr.
  - invc Hr. auto.
  - destruct (ystep y e) as [y1 q1] eqn:E1. destruct (yrun y1 evs) as [y2 q2] eqn:E2. invc Hr. invc F.
    apply (IH y1 _ q2); auto.
    assert (e = EWork \/ ystep y e = (mk_sys (st_of (apistep (y_fm y) e)) (y_wrk y) (y_sent y),
              added (y_fm y) (st_of (apistep (y_fm y) e)))) as [->|Hs'] by (destruct e; auto).
    + cbn in E1. invc E1. destruct (work_keeps y) as (-> & _). auto.
    + rewrite Hs' in E1. invc E1. cbn [y_fm]. eapply noopen_step; eauto.
Qed.

Lemma winv_restart H0 n L R s hist :
  winv H0 n L R s hist -> (forall j, L j -> f_isOpen (fm_heap s j) = false) -> winv H0 n L R s [].
Proof.
  intros W Ho. destruct W. constructor; auto; [intros ? ? []|]. intros i a rep Hi Op. rewrite Ho in Op by auto. discriminate.
Qed.

(** ** Smaller facts *)

Lemma attach_run evs : forall y y' q, yrun y evs = (y', q) ->
  forall j, In j (m_items (fm_local (y_fm y'))) -> In j (m_items (fm_local (y_fm y))) \/ In j (flat_map attaches evs).
Proof.
  induction evs as [|e evs IH]; intros y y' q Hr j Hj; cbn [yrun] in Hr.
  - invc Hr. auto.
  - destruct (ystep y e) as [y1 q1] eqn:E1. destruct (yrun y1 evs) as [y2 q2] eqn:E2. invc Hr.
    cbn [flat_map]. rewrite in_app_iff. destruct (IH _ _ _ E2 j Hj) as [X|X]; auto.
    assert (e = EWork \/ ystep y e = (mk_sys (st_of (apistep (y_fm y) e)) (y_wrk y) (y_sent y),
              added (y_fm y) (st_of (apistep (y_fm y) e)))) as [->|Hs'] by (destruct e; auto).
    + cbn in E1. invc E1. destruct (work_keeps y) as (_ & _ & C & _). rewrite C in X. auto.
    + rewrite Hs' in E1. invc E1. cbn [y_fm] in X. apply attach_local in X. tauto.
Qed.

Lemma announce_only items : forall s q, fm_queue (st_of (announce s items)) = fm_queue s ++ q ->
  forall x, In x q -> exists b, x = QFileInfo b.
Proof.
  induction items as [|i r IH]; intros s q; cbn [announce].
  - intros E x Hx. cbn [st_of fst fine fail] in E. pose proof (f_equal (@length _) E) as X. rewrite app_length in X.
    destruct q; [destruct Hx | cbn in X; lia].
  - destruct (packFileInfo _ _) as [b|e].
    + intros E x Hx. destruct (announce_appends r (put s (QFileInfo b))) as (q' & E').
      rewrite E' in E. cbn [put fm_queue] in E. rewrite <- app_assoc in E. apply app_inv_head in E. subst q.
      destruct Hx as [<-|Hx]; [eauto|]. eapply IH; [exact E' | auto].
    + intros E x Hx. cbn [st_of fst fine fail] in E. pose proof (f_equal (@length _) E) as X. rewrite app_length in X.
    destruct q; [destruct Hx | cbn in X; lia].
Qed.

(** A worker that is not running took its last entry while it was running. *)
Definition yinv2 (y : sys) (hist : list qmsg) : Prop :=
  exists done, hist = done ++ fm_queue (y_fm y) /\ work_all (WRun None) done = (y_wrk y, y_sent y) /\
  ((forall t, y_wrk y <> WRun t) -> exists d q, done = d ++ [q] /\ exists t o, work_all (WRun None) d = (WRun t, o)).

Lemma fresh_inv2 H n : yinv2 (fresh H n) [].
Proof. exists []. split; auto. split; auto. intros X. exfalso. eapply X. reflexivity. Qed.

Lemma yinv2_run evs : forall y hist y' q, yinv2 y hist -> yrun y evs = (y', q) -> yinv2 y' (hist ++ q).
Proof.
  induction evs as [|e evs IH]; intros y hist y' q Hi Hr; cbn [yrun] in Hr.
  - invc Hr. rewrite app_nil_r. auto.
  - destruct (ystep y e) as [y1 q1] eqn:E1. destruct (yrun y1 evs) as [y2 q2] eqn:E2. invc Hr.
    rewrite app_assoc. eapply IH; eauto. clear IH E2. destruct Hi as (done & -> & W & T).
    assert (e = EWork \/ ystep y e = (mk_sys (st_of (apistep (y_fm y) e)) (y_wrk y) (y_sent y),
              added (y_fm y) (st_of (apistep (y_fm y) e)))) as [->|Hs'] by (destruct e; auto).
    + cbn [ystep] in E1. invc E1. rewrite app_nil_r.
      unfold work. destruct (y_wrk y) as [|t| |] eqn:Ew; try (exists done; rewrite Ew; auto; fail).
      destruct (fm_queue (y_fm y)) as [|q r] eqn:Eq; [exists done; rewrite Ew, Eq; auto|].
      destruct (work1 (WRun t) q) as [w' out] eqn:E1. exists (done ++ [q]). cbn [y_fm fm_queue y_wrk y_sent].
      rewrite <- app_assoc. split; auto. split.
      * rewrite work_all_app, W. cbn [work_all]. rewrite E1. rewrite app_nil_r. auto.
      * intros _. exists done, q. split; auto. eauto.
    + rewrite Hs' in E1. invc E1. exists done. cbn [y_fm y_wrk y_sent].
      rewrite (added_app _ _ (api_appends (y_fm y) e)), app_assoc. auto.
Qed.

Lemma slice_app_head (a b : bytes) k : k = len a -> slice (a ++ b) 0 k = a.
Proof.
  intros ->. pose proof (slice_mid [] a b) as E. exact E.
Qed.

Lemma cmd_of_finfo f a : finfo_ok f a ->
  unpack_uint byteOrder (slice (finfo_wire Little f a) 0 4) = 3.
Proof.
  intros _. unfold finfo_wire. rewrite slice_app_head by (rewrite num_wire_len; auto).
  destruct (num_wire_facts Little 4 3) as (_ & _ & E); [lia|]. exact E.
Qed.

Lemma len_finfo f a : finfo_ok f a -> len (finfo_wire Little f a) = 48 + len (fi_name f).
Proof.
  intros (_ & _ & _ & _ & _ & Ed & _). unfold finfo_wire. rewrite !len_app, !num_wire_len, Ed. lia.
Qed.
