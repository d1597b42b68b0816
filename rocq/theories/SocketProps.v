(** Properties C08 and C09: the socket adapter turns a byte stream into messages. *)
From Coq Require Import ZifyBool ZifyNat Lia.
From Verif Require Import Py PyLemmas NumHeaderModel NumHeaderSpec NumHeaderProofs SocketModel SocketProofs.

(** ** Specification vocabulary *)

(** Running a handler over a list of messages, stopping at the first exception. *)
Fixpoint run_msgs {S} (h : handler S) (s : S) (msgs : list bytes) : S * option exn :=
  match msgs with
  | [] => (s, None)
  | m :: r => match h_msg h s m with
              | (s', None) => run_msgs h s' r
              | (s', Some e) => (s', Some e)
              end
  end.

(** How the thread reacts to the exception that came out of the handler. *)
Definition thread_after (e : option exn) : wstatus :=
  match e with
  | None => Running
  | Some e => match e with OSError => Stopped | _ => Crashed e end
  end.

(** [part] is an unfinished frame: a proper prefix of what [send m] writes. *)
Definition unfinished (part : bytes) : Prop :=
  part = [] \/ exists m b q, send m = Ok b /\ b = part ++ q /\ q <> [].

Lemma unfinished_take part : unfinished part -> take_frame part = None.
Proof.
  intros [-> | (m & b & q & Hs & Hb & Hq)]; [reflexivity|].
  destruct (Z.ltb_spec (len m) (2 ^ 31)).
  - rewrite send_wire in Hs by auto. invc Hs. eapply take_frame_partial; eauto.
  - unfold send in Hs. rewrite encode32_rejects in Hs by lia. discriminate.
Qed.

Lemma send_all_inv msgs b : send_all msgs = Ok b -> Forall (fun m => len m < 2 ^ 31) msgs /\ b = stream msgs.
Proof.
  revert b. induction msgs as [|m msgs IH]; intros b H; cbn in H.
  - invc H. auto.
  - inv_bind H. inv_bind H. invc H. destruct (Z.ltb_spec (len m) (2 ^ 31)).
    + match goal with X : send_all msgs = Ok _ |- _ => apply IH in X as [X1 X2] end.
      rewrite send_wire in * by auto. split; auto.
      match goal with X : Ok _ = Ok _ |- _ => invc X end. reflexivity.
    + unfold send in *. rewrite encode32_rejects in * by lia. discriminate.
Qed.

Lemma deliver_run {S} (h : handler S) msgs : forall s,
  deliver_all (Some h) (mk_astate true s) msgs =
  (mk_astate true (fst (run_msgs h s msgs)), snd (run_msgs h s msgs)).
Proof.
  induction msgs as [|m msgs IH]; intros s; auto.
  cbn [deliver_all run_msgs]. unfold deliver. cbn [a_ack a_st negb].
  destruct (h_msg h s m) as [s' [e|]]; auto.
Qed.

(** ** C08 *)

(** However the operating system cuts the stream into non-empty reads, the handler
    state, the acknowledge flag, the fate of the thread and, while it runs, the
    bytes still waiting are the same. *)
Theorem socket_chunking_independent {S} (h : option (handler S)) (s : S) (cs ds : list bytes) :
  Forall (fun c => c <> []) cs -> Forall (fun c => c <> []) ds ->
  concat cs = concat ds -> bytes_ok (concat cs) ->
  let w1 := recv_all h (init_worker s) cs in
  let w2 := recv_all h (init_worker s) ds in
  a_st (w_ad w1) = a_st (w_ad w2) /\ a_ack (w_ad w1) = a_ack (w_ad w2) /\
  w_status w1 = w_status w2 /\
  (w_status w1 = Running -> w_unprocessed w1 = w_unprocessed w2).
Proof.
  intros H1 H2 H3 H4. pose proof (recv_all_chunking h cs ds s H1 H2 H3 H4) as (A & B & C).
  cbv zeta in *. rewrite A. auto.
Qed.
Print Assumptions socket_chunking_independent.

(** On arbitrary bytes the receiver itself never fails: with a handler that does
    not raise, the only ways out are "still running" and the refusal of a first
    message that is not the acknowledge. *)
Theorem socket_arbitrary_bytes_safe {S} (h : handler S) (s : S) (cs : list bytes) :
  (forall s m, snd (h_msg h s m) = None) -> (forall s, snd (h_connected h s) = None) ->
  Forall (fun c => c <> []) cs -> bytes_ok (concat cs) ->
  let w := recv_all (Some h) (init_worker s) cs in
  w_status w = Running \/
  (w_status w = Crashed RuntimeError /\ a_ack (w_ad w) = false /\ a_st (w_ad w) = s).
Proof.
  intros Hm Hc Hne Hok. cbv zeta. destruct cs as [|c cs]; [left; reflexivity|].
  destruct (drains_total (Some h) _ (mk_astate false s) (concat (c :: cs)) (le_n _) Hok) as (a & e & r & H).
  destruct (recv_all_drains (Some h) (c :: cs) (init_worker s) eq_refl Hne Hok ltac:(discriminate) a e r H)
    as (A1 & A2 & _).
  assert (Q : e = None \/ (e = Some RuntimeError /\ a_ack a = false /\ a_st a = s)).
  { clear - H Hm Hc. remember (mk_astate false s) as a0 eqn:E0.
    assert (G : a_ack a0 = false -> a0 = mk_astate false s) by auto. clear E0.
    induction H; auto.
    - right. unfold deliver in H0. destruct (a_ack a) eqn:Ea; cbn [negb] in H0.
      + specialize (Hm (a_st a) m). destruct (h_msg h (a_st a) m). cbn in Hm. invc H0. discriminate.
      + destruct ((len m =? 8) && str_eqb m ACK_MSG).
        * specialize (Hc (a_st a)). destruct (h_connected h (a_st a)). cbn in Hc. invc H0. discriminate.
        * invc H0. rewrite G by auto. auto.
    - apply IHdrains. unfold deliver in H0. destruct (a_ack a) eqn:Ea; cbn [negb] in H0.
      + destruct (h_msg h (a_st a) m). invc H0. cbn. discriminate.
      + destruct ((len m =? 8) && str_eqb m ACK_MSG).
        * destruct (h_connected h (a_st a)). invc H0. cbn. discriminate.
        * invc H0. }
  destruct Q as [-> | (-> & Q1 & Q2)]; [left; auto|]. right. rewrite A1, A2. auto.
Qed.
Print Assumptions socket_arbitrary_bytes_safe.

(** ** C09 *)

(** A peer sends the acknowledge and then any messages (plus a frame it has not
    finished).  The handler is told once that it is connected, then gets exactly
    the messages, each once and in order, until it raises; the unfinished frame
    is neither delivered nor lost. *)
Theorem socket_delivers_in_order {S} (h : handler S) (s : S) (msgs : list bytes) (b part : bytes) (chunks : list bytes) :
  send_all (ACK_MSG :: msgs) = Ok b -> Forall bytes_ok msgs ->
  unfinished part -> bytes_ok part ->
  Forall (fun c => c <> []) chunks -> concat chunks = b ++ part ->
  let w := recv_all (Some h) (init_worker s) chunks in
  match h_connected h s with
  | (s1, Some e) => a_st (w_ad w) = s1 /\ w_status w = thread_after (Some e)
  | (s1, None) =>
    a_ack (w_ad w) = true /\
    a_st (w_ad w) = fst (run_msgs h s1 msgs) /\
    w_status w = thread_after (snd (run_msgs h s1 msgs)) /\
    (snd (run_msgs h s1 msgs) = None -> w_unprocessed w = part)
  end.
Proof.
  intros Hs Hok Hp Hpo Hc E. cbv zeta. apply send_all_inv in Hs as [Hl ->].
  assert (Hoks : Forall bytes_ok (ACK_MSG :: msgs)).
  { constructor; auto. repeat constructor; unfold byte_ok; lia. }
  pose proof (recv_stream (Some h) s _ part chunks Hl Hoks Hpo (unfinished_take _ Hp) Hc E) as (A & B & C).
  cbv zeta in *. cbn [deliver_all] in *.
  assert (D : deliver (Some h) (mk_astate false s) ACK_MSG =
    let '(s', e) := h_connected h s in (mk_astate true s', e)) by reflexivity.
  rewrite D in *. destruct (h_connected h s) as [s1 [e|]].
  - rewrite A, B. split; auto.
  - rewrite deliver_run in *. cbn [fst snd] in *. rewrite A, B. cbn [a_ack a_st].
    repeat split; auto.
Qed.
Print Assumptions socket_delivers_in_order.

(** With handlers that do not raise everything arrives. *)
Corollary socket_delivers_everything {S} (h : handler S) (s : S) (msgs : list bytes) (b : bytes) (chunks : list bytes) :
  (forall s m, snd (h_msg h s m) = None) -> snd (h_connected h s) = None ->
  send_all (ACK_MSG :: msgs) = Ok b -> Forall bytes_ok msgs ->
  Forall (fun c => c <> []) chunks -> concat chunks = b ->
  recv_all (Some h) (init_worker s) chunks =
  mk_worker [] (mk_astate true (fold_left (fun s m => fst (h_msg h s m)) msgs (fst (h_connected h s)))) Running.
Proof.
  intros Hm Hcn Hs Hok Hc E.
  pose proof (socket_delivers_in_order h s msgs b [] chunks Hs Hok (or_introl eq_refl)
    (Forall_nil _) Hc ltac:(rewrite app_nil_r; auto)) as H. cbv zeta in H.
  destruct (h_connected h s) as [s1 e]. cbn in Hcn. subst e. cbn [fst].
  assert (R : run_msgs h s1 msgs = (fold_left (fun s m => fst (h_msg h s m)) msgs s1, None)).
  { clear - Hm. revert s1. induction msgs as [|m msgs IH]; intros s1; auto. cbn [run_msgs fold_left].
    specialize (Hm s1 m). destruct (h_msg h s1 m) as [s' e]. cbn in Hm. subst e. auto. }
  rewrite R in H. cbn [fst snd] in H. destruct H as (A & B & C & D).
  destruct (recv_all (Some h) (init_worker s) chunks) as [u [k st] x]. cbn in *.
  rewrite D by auto. congruence.
Qed.
Print Assumptions socket_delivers_everything.

(** If the first complete message is anything but the acknowledge, the thread dies
    with RuntimeError and the handler never hears of the connection. *)
Theorem socket_requires_acknowledge {S} (h : handler S) (s : S) (m : bytes) (msgs : list bytes) (b : bytes) (chunks : list bytes) :
  m <> ACK_MSG -> send_all (m :: msgs) = Ok b -> Forall bytes_ok (m :: msgs) ->
  Forall (fun c => c <> []) chunks -> concat chunks = b ->
  let w := recv_all (Some h) (init_worker s) chunks in
  w_status w = Crashed RuntimeError /\ w_ad w = mk_astate false s.
Proof.
  intros Hm Hs Hok Hc E. cbv zeta. apply send_all_inv in Hs as [Hl ->].
  pose proof (recv_stream (Some h) s _ [] chunks Hl Hok (Forall_nil _) eq_refl Hc
    ltac:(rewrite app_nil_r; auto)) as (A & B & _).
  cbv zeta in *. rewrite (deliver_all_no_ack (Some h) s m msgs Hm) in *. auto.
Qed.
Print Assumptions socket_requires_acknowledge.

(** Sending refuses exactly the messages whose length does not fit the prefix. *)
Theorem socket_send_length (m : bytes) :
  (len m < 2 ^ 31 -> exists p, encode32 (len m) = Ok p /\ send m = Ok (p ++ m)) /\
  (2 ^ 31 <= len m -> send m = Err ValueError).
Proof.
  split; intros H.
  - pose proof (len_nonneg m). exists (wire32 (len m)). rewrite encode32_wire by lia.
    split; auto. apply send_wire; auto.
  - unfold send. rewrite encode32_rejects by lia. auto.
Qed.
Print Assumptions socket_send_length.

(** Closing the connection (an empty read) ends the thread quietly and nothing
    that comes later is looked at. *)
Theorem socket_close_stops {S} (h : option (handler S)) (w : worker S) (cs : list bytes) :
  w_status w = Running ->
  recv_all h w ([] :: cs) = mk_worker (w_unprocessed w) (w_ad w) Stopped.
Proof.
  intros Hw. cbn [recv_all fold_left]. unfold recv at 2. rewrite Hw.
  change (len (@nil Z) =? 0) with true. cbn iota.
  apply (recv_all_dead h). discriminate.
Qed.
Print Assumptions socket_close_stops.

(** What a client writes first: one frame holding the greeting. *)
Theorem socket_greeting :
  connect_bytes = Ok (30 :: lit "RMFP/1.0" ++ [10] ++ lit "NumHeader-Format:32" ++ [10; 10]).
Proof. reflexivity. Qed.
Print Assumptions socket_greeting.

(** ** Examples *)

(** A handler that logs what it hears and raises on the message [66]. *)
Definition log_handler : handler (list (option bytes)) :=
  mk_handler _ (fun s => (s ++ [None], None))
    (fun s m => (s ++ [Some m], if str_eqb m [66] then Some AssertionError else None)).

Definition demo_bytes : bytes := (8 :: ACK_MSG) ++ [1; 65] ++ [3; 1; 2; 3].

Example ex_demo_bytes : send_all [ACK_MSG; [65]; [1; 2; 3]] = Ok demo_bytes.
Proof. reflexivity. Qed.

Example ex_socket_chunks :
  recv_all (Some log_handler) (init_worker []) [demo_bytes ++ [2; 9]] =
  recv_all (Some log_handler) (init_worker []) (map (fun b => [b]) (demo_bytes ++ [2; 9])) /\
  recv_all (Some log_handler) (init_worker []) [demo_bytes ++ [2; 9]] =
  mk_worker [2; 9] (mk_astate true [None; Some [65]; Some [1; 2; 3]]) Running.
Proof. split; reflexivity. Qed.

Example ex_socket_raise :
  recv_all (Some log_handler) (init_worker []) [(8 :: ACK_MSG) ++ [1; 66] ++ [1; 67]] =
  mk_worker ((8 :: ACK_MSG) ++ [1; 66] ++ [1; 67]) (mk_astate true [None; Some [66]]) (Crashed AssertionError).
Proof. reflexivity. Qed.

Example ex_socket_noack :
  recv_all (Some log_handler) (init_worker []) [[1]; [65]] =
  mk_worker [1; 65] (mk_astate false []) (Crashed RuntimeError).
Proof. reflexivity. Qed.

Example ex_unfinished : unfinished [2; 9].
Proof. right. exists [9; 9], [2; 9; 9], [9]. repeat split. discriminate. Qed.

(** A long frame uses the four byte prefix. *)
Example ex_socket_long :
  w_ad (recv_all (Some log_handler) (init_worker [])
    [8 :: ACK_MSG ++ [128; 0]; [0; 200] ++ repeat 7 100; repeat 7 100]) =
  mk_astate true [None; Some (repeat 7 200)].
Proof. reflexivity. Qed.
