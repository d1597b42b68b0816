(** Proofs about clients behind sockets. *)
From Coq Require Import ZifyBool ZifyNat Lia.
From Verif Require Import Py PyLemmas NumHeaderModel NumHeaderSpec NumHeaderProofs NodeDataModel ClientModel SocketModel SocketProofs SocketProps NetModel NetSpec.
Ltac Zify.zify_post_hook ::= Z.div_mod_to_equations.

Lemma run_app a : forall b c, client_run c (a ++ b) =
  let '(c1, l1) := client_run c a in let '(c2, l2) := client_run c1 b in (c2, l1 ++ l2).
Proof.
  induction a as [|e a IH]; intros b c; cbn [client_run app].
  - destruct (client_run c b). reflexivity.
  - destruct (client_step c e) as [c1 x]. rewrite IH. destruct (client_run c1 a) as [c2 l2].
    destruct (client_run c2 b). reflexivity.
Qed.

Lemma run_len evs : forall c c' l, client_run c evs = (c', l) -> length l = length evs.
Proof.
  induction evs as [|e evs IH]; intros c c' l E; cbn [client_run] in E; [injection E as <- <-; reflexivity|].
  destruct (client_step c e) as [c1 x]. destruct (client_run c1 evs) eqn:R. injection E as <- <-. cbn. erewrite IH; eauto.
Qed.

Lemma firstn_plus {A} n m : forall l : list A, firstn (n + m) l = firstn n l ++ firstn m (skipn n l).
Proof. induction n as [|n IH]; intros [|x l]; cbn [Nat.add firstn skipn app]; rewrite ?firstn_nil; auto. rewrite IH. reflexivity. Qed.

Lemma skipn_plus {A} n m : forall l : list A, skipn m (skipn n l) = skipn (n + m) l.
Proof. induction n as [|n IH]; intros [|x l]; cbn [Nat.add skipn]; rewrite ?skipn_nil; auto. Qed.

Lemma stream_app a b : stream (a ++ b) = stream a ++ stream b.
Proof. unfold stream. rewrite map_app, concat_app. reflexivity. Qed.

Section Net.
Context (h : nat) (msgs : list bytes) (Short : Forall (fun m => len m < 2 ^ 31) (ACK_MSG :: msgs)).

Definition frames : list bytes := ACK_MSG :: msgs.
Definition events : list cev := CConnect h :: map CMsg msgs.

Lemma deliver_event k c m rest : skipn k frames = m :: rest ->
  exists e, skipn k events = e :: skipn (S k) events /\ skipn (S k) frames = rest /\
    deliver (Some (client_handler h)) (mk_astate (Nat.ltb 0 k) c) m =
    (mk_astate true (fst (client_step c e)), raised (snd (client_step c e))).
Proof.
  intros E. destruct k as [|k].
  - cbn [skipn frames] in E. injection E as <- <-. exists (CConnect h). split; [reflexivity|]. split; [reflexivity|].
    unfold deliver. cbn [a_ack a_st Nat.ltb Nat.leb negb].
    change ((len ACK_MSG =? 8) && str_eqb ACK_MSG ACK_MSG) with true. cbn iota.
    unfold client_handler. cbn [h_connected]. destruct (client_step c (CConnect h)). reflexivity.
  - change (skipn k msgs = m :: rest) in E. exists (CMsg m).
    assert (N : nth_error msgs k = Some m).
    { rewrite <- (firstn_skipn k msgs), E. rewrite nth_error_app2; rewrite firstn_length; [|lia].
      assert (k < length msgs)%nat. { destruct (Nat.lt_ge_cases k (length msgs)); auto. rewrite skipn_all2 in E by auto. discriminate. }
      replace (k - Nat.min k (length msgs))%nat with 0%nat by lia. reflexivity. }
    change (skipn (S k) events) with (skipn k (map CMsg msgs)). change (skipn (S (S k)) events) with (skipn (S k) (map CMsg msgs)).
    change (skipn (S (S k)) frames) with (skipn (S k) msgs).
    split; [|split].
    + clear E. revert k N. induction msgs as [|x l IH]; intros [|k] N; try discriminate; cbn [map skipn nth_error] in *.
      * injection N as ->. reflexivity.
      * apply IH; [|exact N]. inversion Short as [|? ? A B]; subst. inversion B; subst. constructor; auto.
    + replace (S k) with (k + 1)%nat by lia. rewrite <- skipn_plus, E. reflexivity.
    + unfold deliver. cbn [a_ack a_st]. change (Nat.ltb 0 (S k)) with true. cbn [negb].
      unfold client_handler. cbn [h_msg]. destruct (client_step c (CMsg m)). reflexivity.
Qed.

Lemma short_skip k : Forall (fun m => len m < 2 ^ 31) (skipn k frames).
Proof.
  apply Forall_forall. intros x I. rewrite Forall_forall in Short. apply Short. fold frames.
  rewrite <- (firstn_skipn k frames). apply in_or_app. right. exact I.
Qed.

Lemma raised_of {A} (p : pres A) e : raised p = Some e -> p = Raised e.
Proof. destruct p; cbn [raised]; congruence. Qed.
Lemma raised_none {A} (p : pres A) : raised p = None -> quiet p.
Proof. destruct p; cbn [raised]; intros E x; congruence. Qed.

(** What becomes of the bytes [buf] when the stream goes on with [x]. *)
Lemma drain_prefix rem : forall k c buf x, skipn k frames = rem -> buf ++ x = stream rem -> bytes_ok buf ->
  exists n c' l, client_run c (firstn n (skipn k events)) = (c', l) /\
    ((Forall quiet l /\ exists u, drains (Some (client_handler h)) (mk_astate (Nat.ltb 0 k) c) buf (mk_astate (Nat.ltb 0 (k + n)) c') None u /\
        buf = stream (firstn n rem) ++ u /\ u ++ x = stream (skipn n rem) /\ unfinished u) \/
     ((0 < n)%nat /\ exists e r, drains (Some (client_handler h)) (mk_astate (Nat.ltb 0 k) c) buf (mk_astate true c') (Some e) r /\
        exists q, l = q ++ [Raised e] /\ Forall quiet q)).
Proof.
  induction rem as [|m rem IH]; intros k c buf x Er Es Ok.
  - apply app_eq_nil in Es as [-> ->]. exists 0%nat, c, []. split; [reflexivity|]. left. split; [constructor|]. exists [].
    rewrite Nat.add_0_r. split; [apply Dr_wait; reflexivity|]. split; [reflexivity|]. split; [reflexivity|]. left. reflexivity.
  - assert (Sm : len m < 2 ^ 31) by (pose proof (short_skip k) as F; rewrite Er in F; inversion F; assumption).
    unfold stream in Es. cbn [map concat] in Es. fold (stream rem) in Es.
    destruct (Nat.le_gt_cases (length (wire32 (len m) ++ m)) (length buf)) as [L|L].
    + symmetry in Es. destruct (app_split _ _ _ _ Es L) as (buf' & -> & Es').
      destruct (deliver_event k c m rem Er) as (e & Ee & Er' & De).
      pose proof (take_frame_wire m buf' Sm) as Tf. rewrite app_assoc in Tf.
      destruct (raised (snd (client_step c e))) as [ex|] eqn:Rs.
      * exists 1%nat, (fst (client_step c e)), [snd (client_step c e)]. rewrite Ee. cbn [firstn client_run].
        split; [destruct (client_step c e); reflexivity|]. right. split; [lia|]. exists ex. eexists. split; [eapply Dr_fail; eauto|].
        exists []. split; [rewrite (raised_of _ _ Rs); reflexivity|constructor].
      * apply bytes_ok_app in Ok as [_ Ok].
        destruct (IH (S k) (fst (client_step c e)) buf' x Er' (eq_sym Es') Ok) as (n & c' & l & Rn & Cases).
        exists (S n), c', (snd (client_step c e) :: l). rewrite Ee. cbn [firstn client_run].
        split; [destruct (client_step c e); cbn [fst] in Rn; rewrite Rn; reflexivity|].
        change (Nat.ltb 0 (S k)) with true in Cases. replace (k + S n)%nat with (S k + n)%nat by lia.
        destruct Cases as [(Qu & u & Dr & Eb & Eu & Un)|(_ & ex & r & Dr & q & El & Qu)].
        -- left. split; [constructor; [exact (raised_none _ Rs)|exact Qu]|]. exists u. split; [eapply Dr_step; eauto|]. split; [|split; [exact Eu|exact Un]].
           cbn [firstn]. unfold stream. cbn [map concat]. fold (stream (firstn n rem)). rewrite Eb at 1. rewrite !app_assoc. reflexivity.
        -- right. split; [lia|]. exists ex, r. split; [eapply Dr_step; eauto|].
           exists (snd (client_step c e) :: q). split; [rewrite El; reflexivity|]. constructor; [exact (raised_none _ Rs)|exact Qu].
    + symmetry in Es. assert (L' : (length buf <= length (wire32 (len m) ++ m))%nat) by lia. symmetry in Es.
      destruct (app_split _ _ _ _ Es L') as (q & Eq & Ex).
      assert (Nq : q <> []) by (intros ->; rewrite Eq, app_nil_r in L; lia).
      exists 0%nat, c, []. split; [reflexivity|]. left. split; [constructor|]. exists buf. rewrite Nat.add_0_r.
      split; [apply Dr_wait; eapply take_frame_partial; eauto|]. split; [reflexivity|].
      split; [cbn [skipn]; rewrite Es; unfold stream; reflexivity|].
      right. exists m, (wire32 (len m) ++ m), q. split; [apply send_wire; exact Sm|]. auto.
Qed.


(** A thread that has ended leaves only the program. *)
Lemma dead_run evs : forall w w' answers, w_status w <> Running -> Forall nev_ok evs ->
  net_run h w evs = (w', answers) ->
  client_run (a_st (w_ad w)) (program evs) = (a_st (w_ad w'), answers) /\ w_status w' = w_status w.
Proof.
  induction evs as [|e evs IH]; intros w w' answers Dead F E; cbn [net_run] in E.
  - injection E as <- <-. split; reflexivity.
  - inversion F as [|? ? Fe Fr]; subst. destruct e as [b|e]; cbn [net_step] in E.
    + replace (recv (Some (client_handler h)) w b) with w in E by (unfold recv; destruct (w_status w); congruence).
      destruct (net_run h w evs) as [w2 l] eqn:R. injection E as <- <-. exact (IH w w2 l Dead Fr R).
    + destruct (client_step (a_st (w_ad w)) e) as [c x] eqn:St.
      destruct (net_run h _ evs) as [w2 l] eqn:R in E. injection E as <- <-.
      apply IH in R; [|exact Dead|exact Fr]. cbn [w_ad a_st w_status] in R. destruct R as [R1 R2].
      unfold program. cbn [flat_map app client_run]. fold (program evs). rewrite St, R1. split; [reflexivity|exact R2].
Qed.

Lemma answers_app {A} (h1 h2 : list cev) (l1 l2 : list A) : length l1 = length h1 ->
  program_answers (h1 ++ h2) (l1 ++ l2) = program_answers h1 l1 ++ program_answers h2 l2.
Proof.
  intros L. unfold program_answers. revert l1 L. induction h1 as [|e h1 IH]; intros [|x l1] L; try discriminate; [reflexivity|].
  injection L as L. specialize (IH l1 L). cbn [app combine filter fst]. destruct (of_program e); cbn [map snd app]; [f_equal|]; exact IH.
Qed.

Lemma peers_app {A} (h1 h2 : list cev) (l1 l2 : list A) : length l1 = length h1 ->
  peer_answers (h1 ++ h2) (l1 ++ l2) = peer_answers h1 l1 ++ peer_answers h2 l2.
Proof.
  intros L. unfold peer_answers. revert l1 L. induction h1 as [|e h1 IH]; intros [|x l1] L; try discriminate; [reflexivity|].
  injection L as L. specialize (IH l1 L). cbn [app combine filter fst]. destruct (of_program e); cbn [negb map snd app]; [|f_equal]; exact IH.
Qed.
Lemma peers_all {A} (evs : list cev) : Forall (fun e => of_program e = false) evs -> forall l : list A, length l = length evs -> peer_answers evs l = l.
Proof.
  induction 1 as [|e evs He F IH]; intros [|x l] L; try discriminate; [reflexivity|]. injection L as L. unfold peer_answers in *.
  cbn [combine filter fst]. rewrite He. cbn [negb map snd]. f_equal. exact (IH l L).
Qed.
Lemma peers_none {A} (evs : list cev) : Forall (fun e => of_program e = true) evs -> forall l : list A, peer_answers evs l = [].
Proof.
  induction 1 as [|e evs He F IH]; intros [|x l]; try reflexivity. unfold peer_answers in *. cbn [combine filter fst]. rewrite He. exact (IH l).
Qed.
Lemma fate_after {A} s (a b : list (pres A)) : Forall quiet a -> fate s b -> fate s (a ++ b).
Proof.
  intros Qa. destruct s as [| |e]; cbn [fate].
  - intros Qb. apply Forall_app. auto.
  - intros (q & -> & Qq). exists (a ++ q). rewrite app_assoc. split; [reflexivity|]. apply Forall_app. auto.
  - intros (N & q & -> & Qq). split; [exact N|]. exists (a ++ q). rewrite app_assoc. split; [reflexivity|]. apply Forall_app. auto.
Qed.
Lemma fate_raised {A} (q : list (pres A)) e : Forall quiet q -> fate (status_of (Some e)) (q ++ [Raised e]).
Proof. intros Q. destruct e; cbn [status_of fate]; try (split; [discriminate|]); exists q; auto. Qed.

Lemma all_program (evs : list cev) : Forall (fun e => of_program e = true) evs ->
  filter of_program evs = evs /\ filter (fun e => negb (of_program e)) evs = [] /\
  forall A (l : list A), length l = length evs -> program_answers evs l = l.
Proof.
  induction 1 as [|e evs He F IH]; cbn [filter].
  - split; [reflexivity|]. split; [reflexivity|]. intros A [|]; [reflexivity|discriminate].
  - destruct IH as (I1 & I2 & I3). rewrite He. cbn [negb]. split; [f_equal; exact I1|]. split; [exact I2|].
    intros A [|x l] L; [discriminate|]. injection L as L. unfold program_answers in *. cbn [combine filter fst]. rewrite He.
    cbn [map snd]. f_equal. exact (I3 A l L).
Qed.

Lemma none_program (evs : list cev) : Forall (fun e => of_program e = false) evs ->
  filter of_program evs = [] /\ filter (fun e => negb (of_program e)) evs = evs /\
  forall A (l : list A), program_answers evs l = [].
Proof.
  induction 1 as [|e evs He F IH]; cbn [filter].
  - split; [reflexivity|]. split; [reflexivity|]. intros A l. reflexivity.
  - destruct IH as (I1 & I2 & I3). rewrite He. cbn [negb]. split; [exact I1|]. split; [f_equal; exact I2|].
    intros A [|x l]; unfold program_answers in *; cbn [combine filter fst map]; [reflexivity|]. rewrite He. exact (I3 A l).
Qed.

Lemma events_silent n k : Forall (fun e => of_program e = false) (firstn n (skipn k events)).
Proof.
  apply Forall_forall. intros e I. assert (J : In e events).
  { rewrite <- (firstn_skipn k events). apply in_or_app. right. rewrite <- (firstn_skipn n (skipn k events)).
    apply in_or_app. left. exact I. }
  destruct J as [<-|J]; [reflexivity|]. apply in_map_iff in J as (m & <- & _). reflexivity.
Qed.

Lemma program_silent evs : Forall nev_ok evs -> Forall (fun e => of_program e = true) (program evs).
Proof.
  induction 1 as [|e evs He F IH]; [constructor|]. destruct e as [b|e]; unfold program in *; cbn [flat_map app]; [exact IH|].
  constructor; [exact He|exact IH].
Qed.

Lemma bytes_stream_tail k u r : Forall bytes_ok msgs -> u ++ r = stream (skipn k frames) -> bytes_ok u.
Proof.
  intros F E. assert (B : bytes_ok (stream (skipn k frames))).
  { unfold bytes_ok, stream. apply Forall_concat. apply Forall_forall. intros x I. apply in_map_iff in I as (m & <- & I).
    assert (J : In m frames) by (rewrite <- (firstn_skipn k frames); apply in_or_app; right; exact I).
    apply Forall_app. split; [apply wire32_ok|].
    - rewrite Forall_forall in Short. pose proof (len_nonneg m). specialize (Short m J). lia.
    - destruct J as [<-|J]; [repeat constructor; unfold byte_ok; lia|]. rewrite Forall_forall in F. exact (F m J). }
  rewrite <- E in B. apply bytes_ok_app in B. tauto.
Qed.

Lemma net_history evs : forall k c u w w' answers later, Forall bytes_ok msgs -> Forall nev_ok evs ->
  w = mk_worker u (mk_astate (Nat.ltb 0 k) c) Running -> unfinished u ->
  u ++ chunks evs ++ later = stream (skipn k frames) ->
  net_run h w evs = (w', answers) ->
  exists hist n l, client_run c hist = (a_st (w_ad w'), l) /\
    filter of_program hist = program evs /\ program_answers hist l = answers /\
    filter (fun e => negb (of_program e)) hist = firstn n (skipn k events) /\
    fate (w_status w') (peer_answers hist l) /\
    (w_status w' = Running ->
       u ++ chunks evs = stream (firstn n (skipn k frames)) ++ w_unprocessed w' /\ unfinished (w_unprocessed w') /\
       a_ack (w_ad w') = Nat.ltb 0 (k + n)).
Proof.
  induction evs as [|e evs IH]; intros k c u w w' answers later Fm F Ew Un Es E; cbn [net_run] in E.
  - injection E as <- <-. exists [], 0%nat, []. subst w. cbn [w_ad a_st w_unprocessed a_ack]. unfold chunks. cbn [flat_map].
    rewrite app_nil_r, Nat.add_0_r. repeat split; auto. constructor.
  - pose proof (Forall_inv F) as Fe. pose proof (Forall_inv_tail F) as Fr. destruct e as [b|e]; cbn [net_step] in E.
    + destruct Fe as [Nb Okb]. unfold chunks in Es. cbn [flat_map] in Es. fold (chunks evs) in Es.
      rewrite !app_assoc in Es. rewrite <- (app_assoc (u ++ b)) in Es.
      pose proof (bytes_stream_tail k (u ++ b) _ Fm Es) as Ok.
      destruct (drain_prefix _ k c (u ++ b) _ eq_refl Es Ok) as (n1 & c1 & l1 & R1 & Cases).
      pose proof (run_len _ _ _ _ R1) as L1.
      destruct (none_program _ (events_silent n1 k)) as (N1 & N2 & N3).
      destruct Cases as [(Qu & u1 & Dr & Eb & Eu & Un1)|(_ & ex & r & Dr & q & El & Qu)].
      * rewrite (recv_drains (Some (client_handler h)) w b (mk_astate (Nat.ltb 0 (k + n1)) c1) None u1) in E;
          [|subst w; reflexivity|exact Nb|subst w; exact Ok|subst w; exact Dr]. cbn [status_of] in E.
        destruct (net_run h _ evs) as [w2 l2] eqn:R in E. injection E as <- <-.
        rewrite skipn_plus in Eu. destruct (IH (k + n1)%nat c1 u1 _ w2 l2 later Fm Fr eq_refl Un1 Eu R) as (hist & n & l & H1 & H2 & H3 & H4 & Hf & H5).
        exists (firstn n1 (skipn k events) ++ hist), (n1 + n)%nat, (l1 ++ l).
        rewrite run_app, R1, H1. split; [reflexivity|]. rewrite !filter_app, N1, N2, H2, H4. split; [reflexivity|].
        split; [rewrite answers_app, N3 by exact L1; exact H3|].
        split; [rewrite firstn_plus, skipn_plus; reflexivity|].
        split; [rewrite peers_app, peers_all by (try exact L1; apply events_silent); exact (fate_after _ _ _ Qu Hf)|]. intros Ru. destruct (H5 Ru) as (H6 & H7 & H8).
        unfold chunks. cbn [flat_map]. fold (chunks evs). rewrite app_assoc, Eb, firstn_plus, stream_app, <- !app_assoc. split; [|split; [exact H7|]].
        -- f_equal. rewrite skipn_plus. exact H6.
        -- rewrite H8, Nat.add_assoc. reflexivity.
      * rewrite (recv_drains (Some (client_handler h)) w b (mk_astate true c1) (Some ex) r) in E;
          [|subst w; reflexivity|exact Nb|subst w; exact Ok|subst w; exact Dr].
        assert (Dead : status_of (Some ex) <> Running) by (destruct ex; discriminate).
        destruct (net_run h _ evs) as [w2 l2] eqn:R in E. injection E as <- <-.
        apply dead_run in R; [|exact Dead|exact Fr]. cbn [w_ad a_st w_status] in R. destruct R as [R2 St].
        destruct (all_program _ (program_silent evs Fr)) as (P1 & P2 & P3).
        exists (firstn n1 (skipn k events) ++ program evs), n1, (l1 ++ l2).
        rewrite run_app, R1, R2. split; [reflexivity|]. rewrite !filter_app, N1, N2, P1, P2, app_nil_r. split; [reflexivity|].
        split; [rewrite answers_app, N3, P3 by (try exact L1; exact (run_len _ _ _ _ R2)); reflexivity|].
        split; [reflexivity|].
        split; [rewrite peers_app, (peers_all _ (events_silent n1 k) _ L1), (peers_none _ (program_silent evs Fr)), app_nil_r, St, El by exact L1; exact (fate_raised q ex Qu)|].
        intros Ru. rewrite Ru in St. congruence.
    + subst w. cbn [w_ad a_st w_unprocessed a_ack w_status] in E. destruct (client_step c e) as [c1 x] eqn:St.
      destruct (net_run h _ evs) as [w2 l2] eqn:R in E. injection E as <- <-.
      unfold chunks in Es. cbn [flat_map app] in Es. fold (chunks evs) in Es.
      destruct (IH k c1 u _ w2 l2 later Fm Fr eq_refl Un Es R) as (hist & n & l & H1 & H2 & H3 & H4 & Hf & H5).
      exists (e :: hist), n, (x :: l). cbn [client_run]. rewrite St, H1. split; [reflexivity|].
      cbn [filter]. cbn [nev_ok] in Fe. rewrite Fe. cbn [negb]. split; [rewrite H2; reflexivity|].
      split; [unfold program_answers in *; cbn [combine filter fst]; rewrite Fe; cbn [map snd app]; rewrite H3; reflexivity|].
      split; [exact H4|]. split; [|exact H5]. unfold peer_answers in *. cbn [combine filter fst]. rewrite Fe. exact Hf.
Qed.

(** A chunk that completes the next message. *)
Lemma net_completes evs k c u m rest d more w w' answers later : Forall bytes_ok msgs -> Forall nev_ok (Chunk d :: evs) ->
  w = mk_worker u (mk_astate (Nat.ltb 0 k) c) Running -> skipn k frames = m :: rest -> (0 < k)%nat ->
  u ++ d = (wire32 (len m) ++ m) ++ more -> more ++ chunks evs ++ later = stream rest ->
  net_run h w (Chunk d :: evs) = (w', answers) ->
  exists hist n l, client_run c (CMsg m :: hist) = (a_st (w_ad w'), l) /\
    filter of_program hist = program evs /\
    filter (fun e => negb (of_program e)) hist = map CMsg (firstn n rest).
Proof.
  intros Fm F Ew Er Kp Ed Em E. pose proof (Forall_inv F) as [Nb Okb]. pose proof (Forall_inv_tail F) as Fr.
  assert (Sm : len m < 2 ^ 31) by (pose proof (short_skip k) as Q; rewrite Er in Q; inversion Q; assumption).
  cbn [net_run net_step] in E.
  assert (Es : (u ++ d) ++ chunks evs ++ later = stream (skipn k frames)).
  { rewrite Er, Ed, <- app_assoc, Em. reflexivity. }
  pose proof (bytes_stream_tail k (u ++ d) _ Fm Es) as Ok.
  destruct (drain_prefix _ k c (u ++ d) _ eq_refl Es Ok) as (n1 & c1 & l1 & R1 & Cases).
  assert (Ev : forall n, skipn (k + n) events = map CMsg (skipn n (m :: rest))).
  { intros n. rewrite <- Er, skipn_plus. destruct k as [|k']; [lia|]. cbn [Nat.add]. unfold events, frames. cbn [skipn].
    rewrite skipn_map. reflexivity. }
  pose proof (Ev 0%nat) as Ev0. rewrite Nat.add_0_r in Ev0. cbn [skipn] in Ev0. rewrite Ev0 in R1. rewrite firstn_map in R1.
  assert (Fin : forall n hist, (0 < n)%nat -> filter of_program hist = program evs ->
    forall q, filter (fun e => negb (of_program e)) hist = map CMsg (firstn q (skipn n (m :: rest))) ->
    filter of_program (map CMsg (firstn (n - 1) rest) ++ hist) = program evs /\
    filter (fun e => negb (of_program e)) (map CMsg (firstn (n - 1) rest) ++ hist) = map CMsg (firstn (n - 1 + q) rest)).
  { intros n hist Np H1 q H2. destruct n as [|n]; [lia|]. cbn [skipn] in H2. rewrite Nat.sub_succ, Nat.sub_0_r.
    assert (A : Forall (fun e => of_program e = false) (map CMsg (firstn n rest))).
    { apply Forall_forall. intros e I. apply in_map_iff in I as (x & <- & _). reflexivity. }
    apply none_program in A as (A1 & A2 & _). rewrite !filter_app, A1, A2, H1, H2, firstn_plus, map_app. split; reflexivity. }
  assert (Spl : forall n, (0 < n)%nat -> map CMsg (firstn n (m :: rest)) = CMsg m :: map CMsg (firstn (n - 1) rest)).
  { intros [|n] L; [lia|]. rewrite Nat.sub_succ, Nat.sub_0_r. reflexivity. }
  destruct Cases as [(_ & u1 & Dr & Eb & Eu & Un1)|(Np & ex & r & Dr & _)].
  - assert (Np : (0 < n1)%nat).
    { destruct n1; [|lia]. cbn [firstn] in Eb. unfold stream in Eb. cbn [map concat app] in Eb. subst u1.
      apply unfinished_take in Un1. rewrite Ed, <- app_assoc, take_frame_wire in Un1 by exact Sm. discriminate. }
    rewrite (recv_drains (Some (client_handler h)) w d (mk_astate (Nat.ltb 0 (k + n1)) c1) None u1) in E;
      [|subst w; reflexivity|exact Nb|subst w; exact Ok|subst w; exact Dr]. cbn [status_of] in E.
    destruct (net_run h _ evs) as [w2 l2] eqn:R in E. injection E as <- <-.
    rewrite skipn_plus in Eu. destruct (net_history evs (k + n1)%nat c1 u1 _ w2 l2 later Fm Fr eq_refl Un1 Eu R) as (hist & n & l & H1 & H2 & _ & H4 & _).
    rewrite Ev, firstn_map in H4. destruct (Fin n1 hist Np H2 n H4) as [G1 G2].
    rewrite (Spl n1 Np) in R1.
    exists (map CMsg (firstn (n1 - 1) rest) ++ hist), (n1 - 1 + n)%nat, (l1 ++ l).
    rewrite app_comm_cons, run_app, R1, H1. split; [reflexivity|]. split; [exact G1|exact G2].
  - rewrite (recv_drains (Some (client_handler h)) w d (mk_astate true c1) (Some ex) r) in E;
      [|subst w; reflexivity|exact Nb|subst w; exact Ok|subst w; exact Dr].
    assert (Dead : status_of (Some ex) <> Running) by (destruct ex; discriminate).
    destruct (net_run h _ evs) as [w2 l2] eqn:R in E. injection E as <- <-.
    apply dead_run in R; [|exact Dead|exact Fr]. cbn [w_ad a_st w_status] in R. destruct R as [R2 St].
    destruct (all_program _ (program_silent evs Fr)) as (P1 & P2 & P3).
    destruct (Fin n1 (program evs) Np P1 0%nat) as [G1 G2]; [rewrite P2; reflexivity|].
    rewrite (Spl n1 Np) in R1.
    exists (map CMsg (firstn (n1 - 1) rest) ++ program evs), (n1 - 1 + 0)%nat, (l1 ++ l2).
    rewrite app_comm_cons, run_app, R1, R2. split; [reflexivity|]. split; [exact G1|exact G2].
Qed.

End Net.

(** A stream says which messages it holds. *)
Lemma stream_unique : forall xs ys u v, Forall (fun m => len m < 2 ^ 31) xs -> Forall (fun m => len m < 2 ^ 31) ys ->
  unfinished u -> unfinished v -> stream xs ++ u = stream ys ++ v -> xs = ys /\ u = v.
Proof.
  assert (St : forall x xs u, len x < 2 ^ 31 -> take_frame (stream (x :: xs) ++ u) = Some (x, stream xs ++ u)).
  { intros x xs u L. unfold stream. cbn [map concat]. fold (stream xs). rewrite <- !app_assoc. apply take_frame_wire. exact L. }
  induction xs as [|x xs IH]; intros [|y ys] u v Fx Fy Uu Uv E.
  - split; [reflexivity|exact E].
  - apply unfinished_take in Uu. change (stream [] ++ u) with u in E. rewrite E, St in Uu; [discriminate|]. inversion Fy; assumption.
  - apply unfinished_take in Uv. change (stream [] ++ v) with v in E. rewrite <- E, St in Uv; [discriminate|]. inversion Fx; assumption.
  - inversion Fx; inversion Fy; subst. apply (f_equal take_frame) in E. rewrite !St in E by assumption. injection E as -> E.
    destruct (IH ys u v) as [-> ->]; auto.
Qed.
