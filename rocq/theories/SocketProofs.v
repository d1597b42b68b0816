From Coq Require Import ZifyBool ZifyNat Lia.
From Verif Require Import Py PyLemmas NumHeaderModel NumHeaderSpec NumHeaderProofs SocketModel.
Ltac Zify.zify_post_hook ::= Z.div_mod_to_equations.

(** ** Frames *)

(** First complete frame of a buffer. *)
Definition take_frame (buf : bytes) : option (bytes * bytes) :=
  match decode32 buf 0 None with
  | Ok (k, Some v) =>
    if k + v <=? len buf then Some (slice buf k (k + v), slice_from buf (k + v)) else None
  | _ => None
  end.

(** Decoding only looks at the bytes from the offset on. *)
Lemma decode32_shift pre buf :
  decode32 (pre ++ buf) (len pre) (Some (len pre + len buf)) = decode32 buf 0 None.
Proof.
  unfold decode32, decode_. pose proof (len_nonneg pre). pose proof (len_nonneg buf).
  destruct buf as [|b1 r].
  { rewrite len_nil. replace (len pre + 1 <=? len pre + 0) with false by lia.
    replace (0 + 1 <=? 0) with false by lia. auto. }
  rewrite index_mid. change (index (b1 :: r) 0) with (Ok b1). cbn [bind].
  rewrite len_cons in *. pose proof (len_nonneg r).
  replace (len pre + 1 <=? len pre + (1 + len r)) with true by lia.
  replace (0 + 1 <=? 1 + len r) with true by lia.
  destruct (negb (Z.land b1 128 =? 0)); auto. cbn [Z.eqb Pos.eqb].
  replace (len pre + 4 <=? len pre + (1 + len r)) with (0 + 4 <=? 1 + len r) by lia.
  destruct (Z.leb_spec (0 + 4) (1 + len r)); auto.
  destruct r as [|b2 [|b3 [|b4 r]]]; try (exfalso; unfold len in *; cbn [length] in *; lia).
  replace (slice (b1 :: b2 :: b3 :: b4 :: r) (0 + 1) (0 + 4)) with [b2; b3; b4]
    by (symmetry; exact (slice_mid [b1] [b2; b3; b4] r)).
  replace (slice (pre ++ b1 :: b2 :: b3 :: b4 :: r) (len pre + 1) (len pre + 4)) with [b2; b3; b4]; auto.
  pose proof (slice_mid (pre ++ [b1]) [b2; b3; b4] r) as E.
  rewrite <- app_assoc in E. cbn [app] in E. rewrite len_app in E. symmetry.
  replace (len pre + 4) with (len pre + len [b1] + len [b2; b3; b4]) by (rewrite !len_cons, len_nil; lia).
  exact E.
Qed.

Lemma decode32_extend buf x k v :
  bytes_ok buf -> decode32 buf 0 None = Ok (k, Some v) -> decode32 (buf ++ x) 0 None = Ok (k, Some v).
Proof.
  intros Hok. unfold decode32, decode_.
  destruct buf as [|b1 r]; [intros H; vm_compute in H; discriminate|].
  cbn [app]. rewrite !len_cons, len_app. pose proof (len_nonneg r). pose proof (len_nonneg x).
  change (index (b1 :: r) 0) with (Ok b1). change (index (b1 :: r ++ x) 0) with (Ok b1). cbn [bind].
  replace (0 + 1 <=? 1 + len r) with true by lia. replace (0 + 1 <=? 1 + (len r + len x)) with true by lia.
  destruct (negb (Z.land b1 128 =? 0)); auto. cbn [Z.eqb Pos.eqb].
  destruct (Z.leb_spec (0 + 4) (1 + len r)); [|discriminate].
  replace (0 + 4 <=? 1 + (len r + len x)) with true by lia.
  destruct r as [|b2 [|b3 [|b4 r]]]; try (exfalso; unfold len in *; cbn [length] in *; lia). cbn [app].
  replace (slice (b1 :: b2 :: b3 :: b4 :: r) (0 + 1) (0 + 4)) with [b2; b3; b4]
    by (symmetry; exact (slice_mid [b1] [b2; b3; b4] r)).
  replace (slice (b1 :: b2 :: b3 :: b4 :: r ++ x) (0 + 1) (0 + 4)) with [b2; b3; b4]
    by (symmetry; exact (slice_mid [b1] [b2; b3; b4] (r ++ x))). auto.
Qed.

Lemma take_frame_inv buf m r :
  bytes_ok buf -> take_frame buf = Some (m, r) ->
  exists h, buf = h ++ m ++ r /\ 0 < len h /\ decode32 buf 0 None = Ok (len h, Some (len m)).
Proof.
  intros Hok. unfold take_frame. destruct (decode32 buf 0 None) as [[k [v|]]|] eqn:D; try discriminate.
  apply decode32_range in D as R; auto.
  destruct (Z.leb_spec (k + v) (len buf)); [|discriminate]. intros E. invc E.
  destruct (slice_in buf k (k + v)) as (a & b & c & E & La & Lb & S); try lia.
  exists a. rewrite S. assert (slice_from buf (k + v) = c).
  { rewrite E, app_assoc. replace (k + v) with (len (a ++ b)) by (rewrite len_app; lia). apply slice_from_app. }
  rewrite H0. repeat split; auto; try lia. rewrite La, Lb. replace (k + v - k) with v by lia. auto.
Qed.

Lemma take_frame_extend buf x m r :
  bytes_ok buf -> take_frame buf = Some (m, r) -> take_frame (buf ++ x) = Some (m, r ++ x).
Proof.
  intros Hok H. destruct (take_frame_inv _ _ _ Hok H) as (h & -> & Hh & D).
  unfold take_frame. rewrite (decode32_extend _ x _ _ Hok D).
  rewrite <- !app_assoc. rewrite !len_app. pose proof (len_nonneg r). pose proof (len_nonneg x).
  replace (len h + len m <=? len h + (len m + (len r + len x))) with true by lia.
  rewrite slice_mid. f_equal. f_equal.
  rewrite app_assoc, <- len_app. apply slice_from_app.
Qed.

Section Handler.
Context {S : Type} (h : option (handler S)).

(** Big-step reading of the receive loop. *)
Inductive drains : astate S -> bytes -> astate S -> option exn -> bytes -> Prop :=
| Dr_wait a buf : take_frame buf = None -> drains a buf a None buf
| Dr_fail a buf m r a' e :
    take_frame buf = Some (m, r) -> deliver h a m = (a', Some e) -> drains a buf a' (Some e) buf
| Dr_step a buf m r a' a'' e rest :
    take_frame buf = Some (m, r) -> deliver h a m = (a', None) ->
    drains a' r a'' e rest -> drains a buf a'' e rest.

Lemma drains_total n : forall a buf, (length buf <= n)%nat -> bytes_ok buf ->
  exists a' e rest, drains a buf a' e rest.
Proof.
  induction n as [|n IH]; intros a buf Hl Hok;
    (destruct (take_frame buf) as [[m r]|] eqn:T; [|eauto using Dr_wait]);
    destruct (take_frame_inv _ _ _ Hok T) as (hd & E & Hh & _).
  - destruct buf; cbn in Hl; [|lia]. destruct hd; [cbn in Hh; discriminate | discriminate].
  - destruct (deliver h a m) as [a' [e|]] eqn:D; [eauto using Dr_fail|].
    destruct (IH a' r) as (a'' & e & rest & Hd).
    + subst buf. rewrite !app_length in Hl. unfold len in Hh. lia.
    + subst buf. apply bytes_ok_app in Hok as [_ Hok]. apply bytes_ok_app in Hok. tauto.
    + eauto using Dr_step.
Qed.

Lemma drains_det a buf a1 e1 r1 : drains a buf a1 e1 r1 -> forall a2 e2 r2,
  drains a buf a2 e2 r2 -> a1 = a2 /\ e1 = e2 /\ (e1 = None -> r1 = r2).
Proof.
  induction 1; intros a2 e2 r2 H'; invc H'; try congruence; auto.
  - split; [congruence|]. split; congruence.
  - assert (m0 = m /\ r0 = r /\ a'0 = a') as (-> & -> & ->) by (repeat split; congruence). eauto.
Qed.

Lemma drains_ok_rest a buf a1 e1 r1 :
  drains a buf a1 e1 r1 -> bytes_ok buf -> bytes_ok r1 /\ exists p, buf = p ++ r1.
Proof.
  induction 1; intros Hok; [split; [auto | exists []; auto] .. |].
  destruct (take_frame_inv _ _ _ Hok H) as (hd & E & _). subst buf.
  apply bytes_ok_app in Hok as [_ Hok]. apply bytes_ok_app in Hok as [_ Hok].
  destruct (IHdrains Hok) as [? [p ->]]. split; auto. exists (hd ++ m ++ p). rewrite !app_assoc. auto.
Qed.

Lemma drains_extend_fail a buf a1 e r x :
  drains a buf a1 (Some e) r -> bytes_ok buf -> exists r', drains a (buf ++ x) a1 (Some e) r'.
Proof.
  intros H. remember (Some e) as oe eqn:Eo. revert Eo. induction H; intros Eo Hok; try discriminate.
  - invc Eo. eexists. eapply Dr_fail; eauto using take_frame_extend.
  - subst. destruct (take_frame_inv _ _ _ Hok H) as (hd & E & _).
    destruct IHdrains as [r' Hr']; auto.
    { subst buf. apply bytes_ok_app in Hok as [_ Hok]. apply bytes_ok_app in Hok. tauto. }
    eexists. eapply Dr_step; eauto using take_frame_extend.
Qed.

Lemma drains_extend a buf a1 r1 x a2 e2 r2 :
  drains a buf a1 None r1 -> bytes_ok buf -> drains a1 (r1 ++ x) a2 e2 r2 -> drains a (buf ++ x) a2 e2 r2.
Proof.
  intros H. remember None as oe eqn:Eo. revert Eo. induction H; intros Eo Hok Hd; try discriminate; auto.
  destruct (take_frame_inv _ _ _ Hok H) as (hd & E & _).
  eapply Dr_step; eauto using take_frame_extend. apply IHdrains; auto.
  subst buf. apply bytes_ok_app in Hok as [_ Hok]. apply bytes_ok_app in Hok. tauto.
Qed.

(** ** The loop implements [drains] *)

Lemma parseMessage_at a pre buf :
  bytes_ok buf ->
  parseMessage h a (pre ++ buf) (len pre) (len pre + len buf) =
  match take_frame buf with
  | None => (a, Ok (len pre))
  | Some (m, r) =>
    match deliver h a m with
    | (a', Some e) => (a', Err e)
    | (a', None) => (a', Ok (len pre + len buf - len r))
    end
  end.
Proof.
  intros Hok. unfold parseMessage. rewrite decode32_shift.
  pose proof (decode_total buf 32 0 (len buf) Hok (or_intror eq_refl)
    (conj (Z.le_refl 0) (len_nonneg buf)) (Z.le_refl _)) as (k & v & D & Hk & Hk2 & Hkv).
  change (decode_ buf 32 0 (Some (len buf))) with (decode_ buf 32 0 None) in D.
  change (decode_ buf 32 0 None) with (decode32 buf 0 None) in D. rewrite D.
  replace (k <? 0) with false by lia.
  destruct (Z.eqb_spec k 0) as [->|Hk0].
  { destruct Hkv as [Hkv _]. rewrite Hkv in D by auto. unfold take_frame. rewrite D. auto. }
  destruct v as [v|]; [|destruct Hkv; exfalso; auto].
  unfold take_frame. rewrite D.
  replace (len pre + k + v <=? len pre + len buf) with (k + v <=? len buf) by lia.
  pose proof (decode32_range buf k v Hok D) as (Hv & _ & _).
  destruct (Z.leb_spec (k + v) (len buf)); auto.
  destruct (slice_in buf k (k + v)) as (x & y & z & E & Lx & Ly & Sy); try lia.
  rewrite Sy.
  assert (slice_from buf (k + v) = z) as ->.
  { rewrite E, app_assoc. replace (k + v) with (len (x ++ y)) by (rewrite len_app; lia). apply slice_from_app. }
  assert (slice (pre ++ buf) (len pre + k) (len pre + k + v) = y) as ->.
  { rewrite E. replace (len pre + k) with (len (pre ++ x)) by (rewrite len_app; lia).
    replace (len (pre ++ x) + v) with (len (pre ++ x) + len y) by lia.
    replace (pre ++ x ++ y ++ z) with ((pre ++ x) ++ y ++ z) by (rewrite !app_assoc; auto). apply slice_mid. }
  destruct (deliver h a y) as [a' [e|]]; auto. do 2 f_equal.
  rewrite E, !len_app. lia.
Qed.

Lemma parseLoop_drains a buf a' e rest :
  drains a buf a' e rest -> bytes_ok buf -> forall pre fuel, (length buf < fuel)%nat ->
  parseLoop fuel h a (pre ++ buf) (len pre) (len pre + len buf) =
  (a', match e with Some e => Err e | None => Ok (len pre + len buf - len rest) end).
Proof.
  induction 1; intros Hok pre [|fuel] Hf; try lia; cbn [parseLoop].
  - pose proof (len_nonneg buf). destruct (Z.ltb_spec (len pre) (len pre + len buf)).
    + rewrite parseMessage_at, H by auto. replace (len pre <? len pre) with false by lia.
      rewrite Z.eqb_refl. do 2 f_equal. lia.
    + do 2 f_equal. lia.
  - destruct (take_frame_inv _ _ _ Hok H) as (hd & E & Hh & _).
    replace (len pre <? len pre + len buf) with true
      by (rewrite E, !len_app; pose proof (len_nonneg m); pose proof (len_nonneg r); lia).
    rewrite parseMessage_at, H, H0 by auto. auto.
  - destruct (take_frame_inv _ _ _ Hok H) as (hd & E & Hh & _).
    pose proof (len_nonneg m); pose proof (len_nonneg r).
    assert (L : len buf = len hd + len m + len r) by (rewrite E, !len_app; lia).
    replace (len pre <? len pre + len buf) with true by lia.
    rewrite parseMessage_at, H, H0 by auto.
    replace (len pre + len buf - len r <? len pre) with false by lia.
    destruct (Z.eqb_spec (len pre + len buf - len r) (len pre)); [lia|].
    assert (Hokr : bytes_ok r).
    { subst buf. apply bytes_ok_app in Hok as [_ Hok]. apply bytes_ok_app in Hok. tauto. }
    specialize (IHdrains Hokr (pre ++ hd ++ m) fuel).
    rewrite E at 1. replace (pre ++ hd ++ m ++ r) with ((pre ++ hd ++ m) ++ r) by (rewrite !app_assoc; auto).
    replace (len pre + len buf - len r) with (len (pre ++ hd ++ m)) by (rewrite !len_app; lia).
    replace (len pre + len buf) with (len (pre ++ hd ++ m) + len r) by (rewrite !len_app; lia).
    apply IHdrains. rewrite E, !app_length in Hf. unfold len in *. lia.
Qed.

Lemma parseData_drains a buf a' e rest :
  drains a buf a' e rest -> bytes_ok buf ->
  parseData h a buf = (a', match e with Some e => Err e | None => Ok (len buf - len rest) end).
Proof.
  intros H Hok. pose proof (parseLoop_drains _ _ _ _ _ H Hok [] (Datatypes.S (length buf)) ltac:(lia)) as E.
  unfold parseData. rewrite len_nil in E. cbn [app] in E. rewrite !Z.add_0_l in E. exact E.
Qed.

Definition status_of (e : option exn) : wstatus :=
  match e with None => Running | Some OSError => Stopped | Some e => Crashed e end.

Lemma recv_drains w chunk a' e rest :
  w_status w = Running -> chunk <> [] -> bytes_ok (w_unprocessed w ++ chunk) ->
  drains (w_ad w) (w_unprocessed w ++ chunk) a' e rest ->
  recv h w chunk = mk_worker (match e with None => rest | Some _ => w_unprocessed w ++ chunk end) a' (status_of e).
Proof.
  intros Hw Hc Hok Hd. unfold recv. rewrite Hw.
  destruct (Z.eqb_spec (len chunk) 0) as [E|_]; [apply len_zero_inv in E; congruence|].
  rewrite (parseData_drains _ _ _ _ _ Hd Hok).
  destruct e as [e|]; [destruct e; auto|]. cbn [status_of].
  set (un := w_unprocessed w ++ chunk) in *.
  destruct (drains_ok_rest _ _ _ _ _ Hd Hok) as [_ [p Ep]].
  assert (L : len un = len p + len rest) by (rewrite Ep; apply len_app).
  pose proof (len_nonneg p).
  replace (len un - len rest <? 0) with false by lia.
  destruct (Z.ltb_spec 0 (len un - len rest)).
  - f_equal. rewrite L, Ep. replace (len p + len rest - len rest) with (len p) by lia. apply slice_from_app.
  - assert (p = []) by (apply len_zero_inv; lia). subst p. rewrite Ep. auto.
Qed.

Lemma recv_all_dead w cs : w_status w <> Running -> recv_all h w cs = w.
Proof.
  intros H. unfold recv_all. induction cs; auto. cbn.
  replace (recv h w a) with w; auto. unfold recv. destruct (w_status w); congruence.
Qed.

(** Feeding chunks is feeding their concatenation. *)
Lemma recv_all_drains cs : forall w,
  w_status w = Running -> Forall (fun c => c <> []) cs -> bytes_ok (w_unprocessed w ++ concat cs) ->
  cs <> [] ->
  forall a' e rest, drains (w_ad w) (w_unprocessed w ++ concat cs) a' e rest ->
  w_ad (recv_all h w cs) = a' /\ w_status (recv_all h w cs) = status_of e /\
  (e = None -> w_unprocessed (recv_all h w cs) = rest).
Proof.
  induction cs as [|c cs IH]; intros w Hw Hne Hok Hcs a' e rest Hd; [congruence|].
  invc Hne. cbn [concat] in *.
  assert (Hok1 : bytes_ok (w_unprocessed w ++ c)).
  { rewrite app_assoc in Hok. apply bytes_ok_app in Hok. tauto. }
  destruct (drains_total _ (w_ad w) (w_unprocessed w ++ c) (le_n _) Hok1) as (a1 & e1 & r1 & Hd1).
  cbn [recv_all fold_left]. rewrite (recv_drains _ _ _ _ _ Hw H1 Hok1 Hd1).
  destruct e1 as [e1|].
  - destruct (drains_extend_fail _ _ _ _ _ (concat cs) Hd1 Hok1) as [r' Hd'].
    rewrite <- app_assoc in Hd'. destruct (drains_det _ _ _ _ _ Hd _ _ _ Hd') as (-> & -> & _).
    change (fold_left (recv h) cs ?w) with (recv_all h w cs).
    rewrite recv_all_dead by (cbn; destruct e1; discriminate). cbn. repeat split; auto. discriminate.
  - cbn [status_of]. change (fold_left (recv h) cs ?w) with (recv_all h w cs).
    destruct (drains_ok_rest _ _ _ _ _ Hd1 Hok1) as [Hokr [p Ep]].
    destruct cs as [|c2 cs].
    + cbn [concat] in *. rewrite app_nil_r in Hd. cbn.
      destruct (drains_det _ _ _ _ _ Hd1 _ _ _ Hd) as (-> & <- & Hr). auto.
    + assert (Hok2 : bytes_ok (r1 ++ concat (c2 :: cs))).
      { apply bytes_ok_app. split; auto. apply bytes_ok_app in Hok as [_ Hok].
        apply bytes_ok_app in Hok. tauto. }
      destruct (drains_total _ a1 (r1 ++ concat (c2 :: cs)) (le_n _) Hok2) as (a2 & e2 & r2 & Hd2).
      pose proof (drains_extend _ _ _ _ _ _ _ _ Hd1 Hok1 Hd2) as Hd3.
      rewrite <- app_assoc in Hd3.
      destruct (drains_det _ _ _ _ _ Hd _ _ _ Hd3) as (-> & -> & Hr).
      edestruct (IH (mk_worker r1 a1 Running)) as (Q1 & Q2 & Q3); eauto; try discriminate.
      repeat split; auto. intros ->. rewrite Hr by auto. auto.
Qed.

Lemma recv_all_chunking cs ds s :
  Forall (fun c => c <> []) cs -> Forall (fun c => c <> []) ds ->
  concat cs = concat ds -> bytes_ok (concat cs) ->
  let w1 := recv_all h (init_worker s) cs in
  let w2 := recv_all h (init_worker s) ds in
  w_ad w1 = w_ad w2 /\ w_status w1 = w_status w2 /\
  (w_status w1 = Running -> w_unprocessed w1 = w_unprocessed w2).
Proof.
  intros Hc Hd E Hok. cbv zeta.
  destruct cs as [|c cs].
  { destruct ds as [|d ds]; auto. invc Hd. cbn in E. destruct d; cbn in E; congruence. }
  destruct ds as [|d ds].
  { invc Hc. cbn in E. destruct c; cbn in E; congruence. }
  destruct (drains_total _ (mk_astate false s) (concat (c :: cs)) (le_n _) Hok) as (a & e & r & H).
  destruct (recv_all_drains (c :: cs) (init_worker s) eq_refl Hc Hok ltac:(discriminate) a e r H) as (A1 & A2 & A3).
  assert (Hok' : bytes_ok (concat (d :: ds))) by (rewrite <- E; auto). rewrite E in H.
  destruct (recv_all_drains (d :: ds) (init_worker s) eq_refl Hd Hok' ltac:(discriminate) a e r H) as (B1 & B2 & B3).
  repeat split; try congruence.
  rewrite A2. intros Hr. destruct e as [e|]; [destruct e; discriminate|]. rewrite A3, B3; auto.
Qed.

(** ** Sending *)

Lemma send_wire m : len m < 2 ^ 31 -> send m = Ok (wire32 (len m) ++ m).
Proof. intros. unfold send. rewrite encode32_wire by (pose proof (len_nonneg m); lia). auto. Qed.

Lemma take_frame_wire m r :
  len m < 2 ^ 31 -> take_frame (wire32 (len m) ++ m ++ r) = Some (m, r).
Proof.
  intros H. pose proof (len_nonneg m). pose proof (len_nonneg r). unfold take_frame.
  pose proof (decode32_wire (len m) [] (m ++ r) None ltac:(lia) I) as D.
  rewrite len_nil in D. cbn [app] in D. rewrite D. rewrite !len_app.
  replace (len (wire32 (len m)) + len m <=? len (wire32 (len m)) + (len m + len r)) with true by lia.
  rewrite slice_mid. do 2 f_equal. rewrite app_assoc, <- len_app. apply slice_from_app.
Qed.

Lemma app_split (a b c d : bytes) : a ++ b = c ++ d -> (length a <= length c)%nat -> exists x, c = a ++ x /\ b = x ++ d.
Proof.
  revert c; induction a as [|y a IH]; intros c E L.
  - exists c. auto.
  - destruct c as [|z c]; cbn in *; [lia|]. invc E. destruct (IH c) as (x & -> & ->); auto; [lia|]. eauto.
Qed.

Lemma take_frame_partial m p q :
  len m < 2 ^ 31 -> wire32 (len m) ++ m = p ++ q -> q <> [] -> take_frame p = None.
Proof.
  intros H E Hq. pose proof (len_nonneg m).
  assert (Lq : 0 < len q) by (destruct q; [congruence | rewrite len_cons; pose proof (len_nonneg q); lia]).
  destruct (le_lt_dec (length p) (length (wire32 (len m)))) as [L|L].
  - destruct (app_split p q (wire32 (len m)) m) as (x & Ex & _); auto.
    destruct x as [|y x].
    + rewrite app_nil_r in Ex. rewrite <- Ex in *. clear L.
      unfold take_frame. pose proof (decode32_wire (len m) [] [] None ltac:(lia) I) as D.
      rewrite len_nil in D. cbn [app] in D. rewrite app_nil_r in D. rewrite D.
      apply app_inv_head in E. subst q. replace (_ <=? _) with false by lia. auto.
    + unfold take_frame.
      assert (D : decode32 p 0 None = Ok (0, None)).
      { apply (decode_truncated 32 (len m) (wire32 (len m)) p (y :: x)); auto; [apply encode32_wire; lia | discriminate]. }
      rewrite D. auto.
  - symmetry in E. destruct (app_split (wire32 (len m)) m p q) as (x & -> & Ex); auto; [lia|].
    unfold take_frame. pose proof (decode32_wire (len m) [] x None ltac:(lia) I) as D.
    rewrite len_nil in D. cbn [app] in D. rewrite D. rewrite !len_app.
    assert (len m = len x + len q) by (rewrite Ex, len_app; auto).
    replace (_ <=? _) with false by lia. auto.
Qed.

Lemma take_frame_nil : take_frame [] = None.
Proof. reflexivity. Qed.

Definition stream (msgs : list bytes) : bytes := concat (map (fun m => wire32 (len m) ++ m) msgs).

Lemma send_all_wire msgs : Forall (fun m => len m < 2 ^ 31) msgs -> send_all msgs = Ok (stream msgs).
Proof.
  induction 1; auto. cbn [send_all]. rewrite send_wire, IHForall by auto. auto.
Qed.

(** What the receiver does with a list of messages, one after the other. *)
Fixpoint deliver_all (a : astate S) (msgs : list bytes) : astate S * option exn :=
  match msgs with
  | [] => (a, None)
  | m :: r => match deliver h a m with
              | (a', Some e) => (a', Some e)
              | (a', None) => deliver_all a' r
              end
  end.

Lemma drains_stream msgs : forall a part,
  Forall (fun m => len m < 2 ^ 31) msgs -> take_frame part = None ->
  exists r, drains a (stream msgs ++ part) (fst (deliver_all a msgs)) (snd (deliver_all a msgs)) r /\
    (snd (deliver_all a msgs) = None -> r = part).
Proof.
  induction msgs as [|m msgs IH]; intros a part Hm Hp.
  - exists part. split; auto. apply Dr_wait. auto.
  - invc Hm. cbn [stream map concat deliver_all].
    change (concat (map (fun m0 : list Z => wire32 (len m0) ++ m0) msgs)) with (stream msgs).
    pose proof (take_frame_wire m (stream msgs ++ part) H1) as T.
    replace ((( wire32 (len m) ++ m) ++ stream msgs) ++ part) with (wire32 (len m) ++ m ++ stream msgs ++ part)
      by (rewrite !app_assoc; auto).
    destruct (deliver h a m) as [a' [e|]] eqn:D; cbn [fst snd].
    + eexists. split; [eapply Dr_fail; eauto|]. discriminate.
    + destruct (IH a' part H2 Hp) as (r & Hd & Hr). exists r. split; auto. eapply Dr_step; eauto.
Qed.

Lemma recv_stream s msgs part chunks :
  Forall (fun m => len m < 2 ^ 31) msgs -> Forall bytes_ok msgs -> bytes_ok part -> take_frame part = None ->
  Forall (fun c => c <> []) chunks -> concat chunks = stream msgs ++ part ->
  let w := recv_all h (init_worker s) chunks in
  let d := deliver_all (mk_astate false s) msgs in
  w_ad w = fst d /\ w_status w = status_of (snd d) /\ (snd d = None -> w_unprocessed w = part).
Proof.
  intros Hm Hmo Hpo Hp Hc E. cbv zeta.
  destruct (drains_stream msgs (mk_astate false s) part Hm Hp) as (r & Hd & Hr).
  destruct chunks as [|c cs].
  - cbn [concat] in E. symmetry in E. destruct (app_eq_nil _ _ E) as [E1 E2]. subst part.
    destruct msgs as [|m msgs]; [cbn; auto|].
    exfalso. unfold stream in E1. cbn [map concat] in E1.
    destruct (app_eq_nil _ _ E1) as [E3 _]. destruct (app_eq_nil _ _ E3) as [E4 _].
    unfold wire32 in E4. destruct (len m <? 128); discriminate.
  - assert (Hok : bytes_ok (concat (c :: cs))).
    { rewrite E. apply bytes_ok_app. split; auto. clear - Hm Hmo.
      induction msgs as [|m msgs IH]; [constructor|]. invc Hm. invc Hmo. unfold stream. cbn [map concat].
      apply bytes_ok_app. split; [|auto]. apply bytes_ok_app. split; auto.
      apply wire32_ok. pose proof (len_nonneg m). lia. }
    rewrite <- E in Hd.
    destruct (recv_all_drains (c :: cs) (init_worker s) eq_refl Hc Hok ltac:(discriminate) _ _ _ Hd) as (A & B & C).
    repeat split; auto. intros Hn. rewrite C; auto.
Qed.

End Handler.

(** Handlers that never raise: the acknowledge connects, then every message is
    handed over in order. *)
Lemma deliver_all_acked {S} (h : handler S) msgs : forall s,
  (forall s m, snd (h_msg h s m) = None) ->
  deliver_all (Some h) (mk_astate true s) msgs =
  (mk_astate true (fold_left (fun s m => fst (h_msg h s m)) msgs s), None).
Proof.
  induction msgs as [|m msgs IH]; intros s Hn; auto.
  cbn [deliver_all]. unfold deliver. cbn [a_ack a_st negb].
  specialize (Hn s m) as Hm. destruct (h_msg h s m) as [s' e] eqn:Eh. cbn in Hm. subst e.
  rewrite IH by auto. cbn [fold_left]. rewrite Eh. auto.
Qed.

Lemma deliver_all_start {S} (h : handler S) s msgs :
  (forall s m, snd (h_msg h s m) = None) -> snd (h_connected h s) = None ->
  deliver_all (Some h) (mk_astate false s) (ACK_MSG :: msgs) =
  (mk_astate true (fold_left (fun s m => fst (h_msg h s m)) msgs (fst (h_connected h s))), None).
Proof.
  intros Hn Hc. cbn [deliver_all]. unfold deliver at 1. cbn [a_ack a_st negb].
  change ((len ACK_MSG =? 8) && str_eqb ACK_MSG ACK_MSG) with true. cbn iota.
  destruct (h_connected h s) as [s' e] eqn:Eh. cbn in Hc. subst e. cbn [fst].
  apply deliver_all_acked; auto.
Qed.

Lemma deliver_all_no_ack {S} (h : option (handler S)) s m msgs :
  m <> ACK_MSG ->
  deliver_all h (mk_astate false s) (m :: msgs) = (mk_astate false s, Some RuntimeError).
Proof.
  intros Hm. cbn [deliver_all]. unfold deliver at 1. cbn [a_ack a_st negb].
  destruct (str_eqb m ACK_MSG) eqn:E; [apply str_eqb_eq in E; congruence|].
  rewrite andb_false_r. auto.
Qed.
