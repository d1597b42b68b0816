(** Property C51: from a write at one client to the listener and the reads of another,
    through frames, chunks and whatever the programs do meanwhile. *)
From Coq Require Import ZifyBool ZifyNat Lia.
From Verif Require Import Py PyLemmas TypesModel VmModel TypesSpec VmPackProofs VmProps TextModel NodeModel NodeProofs
  NumHeaderSpec RmfModel RmfSpec FileModel NodeDataModel NodeDataSpec NodeDataProps ManagerModel ManagerSpec ManagerProofs ManagerProps FileMapSpec
  ClientModel ClientSpec ClientProofs ClientProps SocketModel SocketProofs SocketProps NetModel NetSpec NetProofs.
Ltac Zify.zify_post_hook ::= Z.div_mod_to_equations.

(** However the stream of the peer is cut into reads, and whatever the program does
    between them, the client goes through one history: the steps of the program,
    answered as there, and among them the connection and the first messages of
    the peer, in order.  While the thread runs these are all the messages that
    have arrived completely, and none of them raised an exception; the thread ends
    with the first that does. *)
Theorem net_is_history h c0 evs w answers msgs b later :
  send_all (ACK_MSG :: msgs) = Ok b -> Forall bytes_ok msgs -> Forall nev_ok evs ->
  chunks evs ++ later = b -> net_run h (init_worker c0) evs = (w, answers) ->
  exists hist n l, client_run c0 hist = (a_st (w_ad w), l) /\
    filter of_program hist = program evs /\ program_answers hist l = answers /\
    filter (fun e => negb (of_program e)) hist = firstn n (CConnect h :: map CMsg msgs) /\
    fate (w_status w) (peer_answers hist l) /\
    (w_status w = Running -> exists p, send_all (firstn n (ACK_MSG :: msgs)) = Ok p /\
       chunks evs = p ++ w_unprocessed w /\ unfinished (w_unprocessed w)).
Proof.
  intros Hs Hm He Eb Hr. apply send_all_inv in Hs as [Short ->].
  destruct (net_history h msgs Short evs 0 c0 [] (init_worker c0) w answers later Hm He eq_refl (or_introl eq_refl) Eb Hr)
    as (hist & n & l & H1 & H2 & H3 & H4 & Hf & H5).
  exists hist, n, l. split; [exact H1|]. split; [exact H2|]. split; [exact H3|]. split; [exact H4|]. split; [exact Hf|].
  intros Ru. destruct (H5 Ru) as (H6 & H7 & _). exists (stream (firstn n (ACK_MSG :: msgs))).
  split; [|split; [exact H6|exact H7]].
  assert (F : Forall (fun m => len m < 2 ^ 31) (firstn n (ACK_MSG :: msgs))).
  { apply Forall_forall. intros x I. rewrite Forall_forall in Short. apply Short.
    rewrite <- (firstn_skipn n (ACK_MSG :: msgs)). apply in_or_app. left. exact I. }
  clear - F. induction F as [|m r Hm F IH]; [reflexivity|]. cbn [send_all]. rewrite send_wire, IH by exact Hm. reflexivity.
Qed.
Print Assumptions net_is_history.

Lemma split_filter (p : cev -> bool) hist : forall P : cev -> Prop,
  Forall P (filter p hist) -> Forall P (filter (fun e => negb (p e)) hist) -> Forall P hist.
Proof.
  intros P. induction hist as [|e hist IH]; cbn [filter]; intros A B; [constructor|].
  destruct (p e); cbn [negb] in B.
  - inversion A; subst. constructor; auto.
  - inversion B; subst. constructor; auto.
Qed.

Lemma cok_program evs : Forall (fun e => of_program e = true) evs -> Forall cok evs.
Proof. intros F. eapply Forall_impl; [|exact F]. intros [] H; try exact I. discriminate. Qed.

Lemma spares_program x y evs : Forall (fun e => of_program e = true) evs -> Forall (spares x y) evs.
Proof. intros F. eapply Forall_impl; [|exact F]. intros [] H; try exact I. discriminate. Qed.

Lemma in_firstn {A} (x : A) : forall n l, In x (firstn n l) -> In x l.
Proof. induction n as [|n IH]; intros [|y l] H; cbn in *; try tauto. destruct H; auto. Qed.

(** A value written to the provide port [i] of one client, once its worker has sent
    everything, is in the peer's copy of its output file.  If the peer passes the
    bytes on to the require port [j] of another client, as a message of the stream
    it sends there, and the ports have the same type, then with the chunk that completes
    the message the other client's listener hears that value for that port, and
    until other data for the port arrive every read returns it, whatever both programs do meanwhile. *)
Theorem written_value_is_received
  fuelA WA ndA insA outsA cA0 before hA after pre idA v post lA1 lA2 cA i aA image
  fuelB WB ndB insB outsB cB0 hB msgs1 upd msgs2 p1 part1 part2 more b2 later evs1 evs2 w1 ans1 w2 ans2 aB j t :
  (* the sender *)
  fresh_client fuelA WA ndA insA outsA cA0 -> Forall cok (before ++ CConnect hA :: after) ->
  Forall offline before -> Forall no_connect after ->
  before ++ CConnect hA :: after = pre ++ CWrite idA v :: post ->
  client_run cA0 (pre ++ CWrite idA v :: post) = (cA, lA1 ++ Done None :: lA2) -> length lA1 = length pre ->
  picks (c_world cA0) ndA idA true true i -> Forall2 (fun e x => ~ stores (c_world cA0) ndA i e x) post lA2 ->
  output_settled cA aA -> len image = total outsA ->
  (* the ports *)
  nth_error outsA i = Some t -> nth_error insB j = Some t -> 0 < tlen t -> flat t -> exact t v ->
  0 <= aB -> aB + port_start insB j < 0x3FFFFC00 ->
  (* the stream to the receiver *)
  upd = port_update insB aB j (part_of outsA (peer_image cA aA image) i) ->
  Forall bytes_ok msgs1 -> Forall bytes_ok msgs2 ->
  send_all (ACK_MSG :: msgs1) = Ok p1 -> send upd = Ok (part1 ++ part2) -> part2 <> [] -> send_all msgs2 = Ok b2 ->
  chunks evs1 = p1 ++ part1 -> more ++ chunks evs2 ++ later = b2 ->
  (* the receiver *)
  fresh_client fuelB WB ndB insB outsB cB0 -> Forall nev_ok (evs1 ++ Chunk (part2 ++ more) :: evs2) ->
  net_run hB (init_worker cB0) evs1 = (w1, ans1) -> w_status w1 = Running ->
  input_open (a_st (w_ad w1)) aB -> unlocked (a_st (w_ad w1)) -> c_hung (a_st (w_ad w1)) = false ->
  net_run hB w1 (Chunk (part2 ++ more) :: evs2) = (w2, ans2) ->
  Forall (spares (aB + port_start insB j) (aB + port_start insB j + tlen t)) (map CMsg msgs2) ->
  exists o, nth_error (n_require ndB) j = Some o /\
    (c_listener (a_st (w_ad w1)) = true ->
       exists rest, c_calls (a_st (w_ad w2)) = c_calls (a_st (w_ad w1)) ++ (o, v) :: rest) /\
    (unlocked (a_st (w_ad w2)) -> forall idB, picks (c_world cB0) ndB idB false false j ->
       snd (client_step (a_st (w_ad w2)) (CRead idB)) = Done (Some (OVal v))).
Proof.
  intros FA OkA Bf Af EvA RA LA PA NsA SeA LiA Ti Tj Tp Tf Tx A0 A1 Eupd Ok1 Ok2 S1 Su P2 S2 C1 C2 FB Fn R1 Ru In1 Ul1 Hu1 R2 Sp.
  destruct (written_value_reaches_peer _ _ _ _ _ _ _ _ _ _ _ _ _ _ _ _ _ _ _ FA OkA Bf Af EvA RA LA PA NsA SeA LiA) as (t' & Ti' & Enc).
  rewrite Ti in Ti'. injection Ti' as <-.
  set (b := part_of outsA (peer_image cA aA image) i) in *. clearbody b.
  clear FA OkA Bf Af EvA RA LA PA NsA SeA LiA.
  apply Forall_app in Fn as [F1 F2].
  apply send_all_inv in S1 as [Sh1 ->]. apply send_all_inv in S2 as [Sh2 ->].
  assert (Su' : send_all [upd] = Ok (part1 ++ part2)) by (cbn [send_all]; rewrite Su; cbn [bind]; rewrite app_nil_r; reflexivity).
  apply send_all_inv in Su' as [Shu Eu]. pose proof (Forall_inv Shu) as Lu. clear Shu.
  unfold stream in Eu. cbn [map concat] in Eu. rewrite app_nil_r in Eu.
  assert (Un : unfinished part1) by (right; exists upd, (part1 ++ part2), part2; auto).
  set (msgs := msgs1 ++ upd :: msgs2).
  assert (Short : Forall (fun m => len m < 2 ^ 31) (ACK_MSG :: msgs)).
  { unfold msgs. rewrite app_comm_cons. apply Forall_app. split; [exact Sh1|]. constructor; [exact Lu|exact Sh2]. }
  assert (Oku : bytes_ok upd).
  { assert (X : bytes_ok (wire32 (len upd) ++ upd)).
    { rewrite <- Eu. apply bytes_ok_app. pose proof (Forall_inv F2) as [_ Q]. apply bytes_ok_app in Q as [Q _]. split; [|exact Q].
      assert (Z : bytes_ok (chunks evs1)).
      { clear - F1. induction F1 as [|e l He F IH]; [constructor|]. unfold chunks in *. cbn [flat_map]. apply bytes_ok_app. split; [|exact IH].
        destruct e; [exact (proj2 He)|constructor]. }
      rewrite C1 in Z. apply bytes_ok_app in Z. tauto. }
    apply bytes_ok_app in X. tauto. }
  assert (Okm : Forall bytes_ok msgs) by (unfold msgs; apply Forall_app; split; [exact Ok1|constructor; [exact Oku|exact Ok2]]).
  set (k := S (length msgs1)).
  assert (Fk : firstn k (frames msgs) = ACK_MSG :: msgs1).
  { unfold frames, k, msgs. cbn [firstn]. rewrite firstn_app, Nat.sub_diag, firstn_all. cbn [firstn]. rewrite app_nil_r. reflexivity. }
  assert (Sk : skipn k (frames msgs) = upd :: msgs2).
  { unfold frames, k, msgs. cbn [skipn]. rewrite skipn_app, Nat.sub_diag, skipn_all. reflexivity. }
  (* up to the chunk *)
  destruct (net_history hB msgs Short evs1 0 cB0 [] (init_worker cB0) w1 ans1 (part2 ++ stream msgs2) Okm F1 eq_refl (or_introl eq_refl))
    as (hist1 & n1 & l1 & H1 & H2 & _ & H4 & _ & H5); [|exact R1|].
  { rewrite C1. cbn [app skipn]. rewrite <- (firstn_skipn k (frames msgs)), Fk, Sk, stream_app.
    replace (stream (upd :: msgs2)) with ((part1 ++ part2) ++ stream msgs2) by (rewrite Eu; reflexivity).
    rewrite <- !app_assoc. reflexivity. }
  destruct (H5 Ru) as (H6 & H7 & H8). cbn [app skipn] in H6. rewrite C1 in H6.
  assert (Sf : Forall (fun m => len m < 2 ^ 31) (firstn n1 (frames msgs))).
  { apply Forall_forall. intros x I. apply in_firstn in I. rewrite Forall_forall in Short. exact (Short x I). }
  destruct (stream_unique _ _ _ _ Sh1 Sf Un H7 H6) as [Ef Ep].
  assert (En : (0 <? 0 + n1)%nat = (0 <? k)%nat).
  { destruct n1; [|reflexivity]. discriminate. }
  rewrite En in H8.
  set (c1 := a_st (w_ad w1)) in *.
  assert (Ew : w1 = mk_worker part1 (mk_astate (Nat.ltb 0 k) c1) Running).
  { rewrite <- Ru, <- H8, Ep. unfold c1. destruct w1 as [? [? ?] ?]. reflexivity. }
  (* the chunk *)
  destruct (net_completes hB msgs Short evs2 k c1 part1 upd msgs2 (part2 ++ more) more w1 w2 ans2 later Okm F2 Ew Sk)
    as (hist2 & n2 & l2 & G1 & G2 & G3); [unfold k; lia|rewrite <- Eu, <- app_assoc; reflexivity|exact C2|exact R2|].
  (* the histories *)
  assert (Q1 : Forall cok hist1).
  { apply (split_filter of_program).
    - rewrite H2. apply cok_program, program_silent. exact F1.
    - rewrite H4. apply Forall_forall. intros e I. apply in_firstn in I. cbn [skipn] in I. destruct I as [<-|I]; [exact Logic.I|].
      apply in_map_iff in I as (m & <- & I). cbn [cok]. rewrite Forall_forall in Okm. exact (Okm m I). }
  pose proof (Forall_inv_tail F2) as F3.
  assert (Q2 : Forall cok hist2).
  { apply (split_filter of_program).
    - rewrite G2. apply cok_program, program_silent. exact F3.
    - rewrite G3. apply Forall_forall. intros e I. apply in_map_iff in I as (m & <- & I). apply in_firstn in I.
      cbn [cok]. rewrite Forall_forall in Ok2. exact (Ok2 m I). }
  assert (Q3 : Forall (spares (aB + port_start insB j) (aB + port_start insB j + tlen t)) hist2).
  { apply (split_filter of_program).
    - rewrite G2. apply spares_program, program_silent. exact F3.
    - rewrite G3. apply Forall_forall. intros e I. apply in_map_iff in I as (m & <- & I). apply in_firstn in I.
      rewrite Forall_forall in Sp. apply Sp. apply in_map. exact I. }
  cbn [client_run] in G1. destruct (client_step c1 (CMsg upd)) as [c2 x] eqn:St.
  destruct (client_run c2 hist2) as [c3 l3] eqn:Rn. injection G1 as G1 _.
  rewrite Eupd in St.
  destruct (arriving_value_is_reported _ _ _ _ _ _ _ _ _ _ _ _ _ _ _ _ FB Q1 H1 In1 Ul1 Hu1 Tj Tp Tf Tx Enc A0 A1 St)
    as (Ex & _ & _ & _ & o & No & Ca).
  exists o. split; [exact No|]. rewrite <- G1. split.
  - intros Li. rewrite Li in Ca.
    destruct (fresh_cinv _ _ _ _ _ _ FB) as (W' & F' & k' & D & name & _ & _ & Kinds & _ & Iv).
    assert (R12 : client_run cB0 (hist1 ++ [CMsg upd]) = (c2, l1 ++ [x])).
    { rewrite client_run_app, H1. cbn [client_run]. rewrite Eupd, St. reflexivity. }
    assert (Q12 : Forall cok (hist1 ++ [CMsg upd])) by (apply Forall_app; split; [exact Q1|constructor; [exact Oku|constructor]]).
    destruct (run_any _ _ _ _ _ Kinds _ _ _ _ _ _ Iv Q12 R12)
      as (D2 & k2 & _ & _ & _ & Iv2 & _).
    destruct (run_any _ _ _ _ _ Kinds _ _ _ _ _ _ Iv2 Q2 Rn) as (_ & _ & objs & _ & _ & _ & _ & Cc).
    exists objs. rewrite Cc, Ca, <- app_assoc. reflexivity.
  - intros Ul idB Pk. destruct (client_step c3 (CRead idB)) as [c4 y] eqn:Rd. cbn [snd].
    exact (received_value_is_read _ _ _ _ _ _ _ _ _ _ _ _ _ _ _ _ _ _ _ _ _ _ FB Q1 H1 In1 Ul1 Hu1 Tj Tp Tf Tx Enc A0 A1 St Q2 Q3 Rn Ul Pk Rd).
Qed.
Print Assumptions written_value_is_received.

(** ** Example: two clients with the node of tests/node_data_test.py; the second
    byte of the output file (MainBeam) goes to the first require port of the other. *)
Definition frame (m : bytes) : bytes := match send m with Ok b => b | Err _ => [] end.

(** The receiver: the acknowledge and half of an announcement arrive together; while
    the update is on its way the program writes, reads and starts listening. *)
Definition receiver_first (upd : bytes) : list nev :=
  let b := frame ACK_MSG ++ frame (announce_msg in_info 0x10000) in
  [App CStart; Chunk (firstn 20 b); App (CWrite (IdNum 0) (VInt 5)); Chunk (skipn 20 b ++ firstn 2 (frame upd));
   App (CListen true); App (CRead (IdNum 0))].
Definition receiver_then (upd : bytes) : list nev :=
  let b := frame (port_update test_ins 0x10000 1 (lit "Hi" ++ zeros 6)) in
  [Chunk (skipn 2 (frame upd) ++ firstn 3 b); App (CRead (IdNum 0)); Chunk (skipn 3 b); App (CRead (IdName (lit "RheostatLevelRqst")))].

Definition values (l : list (pres (option oval))) : list (option oval) :=
  map (fun x => match x with Done (Some v) => Some v | _ => None end) l.

Example ex_end_to_end :
  match client_after test_text history, client_with test_text with
  | Some (cA, _), Some (_, _, cB) =>
    let upd := port_update test_ins 0x10000 0 (part_of test_outs (peer_image cA 0 (zeros 17)) 1) in
    let '(w1, l1) := net_run 9 (init_worker cB) (receiver_first upd) in
    let '(w2, l2) := net_run 9 w1 (receiver_then upd) in
    upd = [128; 1; 0; 0; 2] /\ w_status w1 = Running /\ w_unprocessed w1 = [5; 128] /\ c_hung (a_st (w_ad w1)) = false /\
    values l1 = [None; None; None; Some (OVal (VInt 255))] /\
    w_status w2 = Running /\ values l2 = [Some (OVal (VInt 2)); Some (OVal (VInt 2))] /\
    c_calls (a_st (w_ad w2)) = [(4%nat, VInt 2); (5%nat, VStr (lit "Hi"))]
  | _, _ => False
  end.
Proof. vm_compute. repeat split. Qed.
