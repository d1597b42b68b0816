(** Lemmas on packing: the machine running compiled code writes exactly the
    bytes that [enc] describes. *)
From Coq Require Import ZifyBool ZifyNat Lia.
From Verif Require Import Py PyLemmas TypesModel CompilerModel VmModel TypesSpec TypesProofs
  CompilerProofs VmProofs.
Ltac Zify.zify_post_hook ::= Z.div_mod_to_equations.

(** ** Named forms of the local recursions of the specification *)

Fixpoint encm (d : dict) (l : list (str * ty)) : option bytes :=
  match l with
  | [] => Some []
  | (nm, t) :: r =>
    match dget nm d with
    | None => None
    | Some x => match enc t x, encm d r with Some a, Some b => Some (a ++ b) | _, _ => None end
    end
  end.
Lemma enc_rec ms d : enc (TRec ms) (VDict d) = encm d ms.
Proof.
  cbn [enc]. induction ms as [|[nm t] ms IH]; [reflexivity|].
  cbn [encm]. rewrite <- IH. reflexivity.
Qed.

Definition wfm (l : list (str * ty)) : Prop :=
  Forall (fun m => name_ok (fst m) /\ wf_ty (snd m)) l.
Lemma wf_rec ms : wf_ty (TRec ms) <-> ms <> [] /\ wfm ms.
Proof.
  cbn [wf_ty]. assert ((fix go l := match l with [] => True
     | (nm, t) :: r => name_ok nm /\ wf_ty t /\ go r end) ms <-> wfm ms) as E; [|rewrite E; tauto].
  induction ms as [|[nm t] ms IH]; [split; constructor|].
  unfold wfm. rewrite Forall_cons_iff. cbn [fst snd]. rewrite IH. unfold wfm. tauto.
Qed.

Definition mroom (d : dict) (nm : str) (t : ty) : Prop :=
  match t with
  | TArr _ n => n <= len d
  | _ => match dget nm d with Some x => roomy t x | None => True end
  end.
Definition roomym (d : dict) (l : list (str * ty)) : Prop :=
  Forall (fun m => mroom d (fst m) (snd m)) l.
Lemma roomy_rec ms d : roomy (TRec ms) (VDict d) <-> roomym d ms.
Proof.
  cbn [roomy]. induction ms as [|[nm t] ms IH]; [split; constructor|].
  unfold roomym. rewrite Forall_cons_iff. cbn [fst snd]. rewrite IH. unfold roomym, mroom. tauto.
Qed.

(** ** Lengths *)

Lemma num_le_len n : forall z, len (num_le n z) = Z.of_nat n.
Proof. intros. apply len_num_le. Qed.

Lemma enc_int_len k v b : enc_int k v = Some b -> len b = Z.of_nat (width k).
Proof.
  unfold enc_int. destruct v; try discriminate. destruct (in_range k z); [|discriminate].
  intros E. injection E as <-. apply len_num_le.
Qed.

Lemma enc_ints_len k : forall n l b, enc_ints k n l = Some b ->
  len b = Z.of_nat (width k) * Z.of_nat n.
Proof.
  induction n as [|n IH]; intros l b; cbn [enc_ints].
  - intros E. injection E as <-. change (@len Z []) with 0. lia.
  - destruct l as [|v l]; [discriminate|].
    destruct (enc_int k v) as [a|] eqn:Ea; [|discriminate].
    destruct (enc_ints k n l) as [c|] eqn:Ec; [|discriminate].
    intros E. injection E as <-. rewrite len_app, (enc_int_len _ _ _ Ea), (IH _ _ Ec). lia.
Qed.

Lemma enc_ints_items k : forall n l b, enc_ints k n l = Some b -> Z.of_nat n <= len l.
Proof.
  induction n as [|n IH]; intros l b; cbn [enc_ints]; [intros; apply len_nonneg|].
  destruct l as [|v l]; [discriminate|].
  destruct (enc_int k v) as [a|] eqn:Ea; [|discriminate].
  destruct (enc_ints k n l) as [c|] eqn:Ec; [|discriminate].
  intros _. apply IH in Ec. rewrite len_cons. lia.
Qed.

Lemma fit_len n b : 0 <= n -> len (fit n b) = n.
Proof.
  intros. unfold fit. rewrite len_firstn, len_app. unfold len. rewrite repeat_length. lia.
Qed.

Lemma pack_s_fit n b : pack_s n b = fit n b.
Proof.
  unfold pack_s, fit. rewrite firstn_app. f_equal.
  assert (forall m k : nat, (k <= m)%nat -> firstn k (repeat 0 m) = repeat 0 k) as R.
  { induction m; intros [|k] L; cbn; try reflexivity; try lia. f_equal. apply IHm. lia. }
  symmetry. apply R. lia.
Qed.

Lemma enc_len t : wf_ty t -> forall v b, enc t v = Some b -> len b = tlen t.
Proof.
  induction t as [k|k n| |n|ms IH] using ty_ind2; intros W v b E.
  - apply enc_int_len in E. exact E.
  - cbn [enc] in E. destruct v; try discriminate. apply enc_ints_len in E.
    destruct W as [_ W]. rewrite E. cbn [tlen]. lia.
  - destruct W.
  - cbn [enc] in E. destruct v; try discriminate. destruct (utf8_encode s); [|discriminate].
    injection E as <-. cbn in W. cbn [tlen]. apply fit_len. lia.
  - destruct v as [| | | |d]; try discriminate. rewrite enc_rec in E. fold (mlen ms).
    apply wf_rec in W as [_ W].
    revert b E. induction IH as [|[nm t] ms Ht IH IHm]; intros b E.
    + injection E as <-. reflexivity.
    + cbn [encm] in E. destruct (dget nm d) as [x|]; [|discriminate].
      destruct (enc t x) as [a|] eqn:Ea; [|discriminate].
      destruct (encm d ms) as [c|] eqn:Ec; [|discriminate].
      injection E as <-. apply Forall_cons_iff in W as [[_ W1] W2]. cbn [snd] in *.
      rewrite len_app, mlen_cons, (Ht W1 _ _ Ea), (IHm W2 _ eq_refl). reflexivity.
Qed.

Lemma tlen_nonneg t : wf_ty t -> 0 <= tlen t.
Proof.
  induction t as [k|k n| |n|ms IH] using ty_ind2; intros W.
  - cbn [tlen]. lia.
  - destruct W. cbn [tlen]. lia.
  - cbn [tlen]. lia.
  - cbn in W. cbn [tlen]. lia.
  - fold (mlen ms). apply wf_rec in W as [_ W].
    induction IH as [|[nm t] ms Ht IH IHm]; [rewrite mlen_nil; lia|].
    apply Forall_cons_iff in W as [[_ W1] W2]. rewrite mlen_cons.
    specialize (Ht W1). specialize (IHm W2). cbn [snd] in *. lia.
Qed.

(** ** One number, many numbers *)

Lemma index_end {A} (l : list A) : index l (len l) = Err IndexError.
Proof.
  unfold index. pose proof (len_nonneg l). replace (len l <? 0) with false by lia. cbn match.
  replace (len l <? 0) with false by lia.
  replace (nth_error l (Z.to_nat (len l))) with (@None A); [reflexivity|].
  symmetry. apply nth_error_None. unfold len. lia.
Qed.

Lemma pack_value_enc k data off v : small k -> 0 <= off ->
  off + Z.of_nat (width k) <= len data ->
  pack_value (fmt_of k) data off v =
  match enc_int k v with Some b => Ok (wr data off b) | None => Err StructError end.
Proof.
  intros S O L. unfold pack_value, enc_int. destruct v; try reflexivity.
  rewrite struct_pack_num by auto. destruct (in_range k z); [|reflexivity].
  cbn [bind]. apply pack_into_in; rewrite ?len_num_le; lia.
Qed.

Lemma pack_items_enc k : small k -> forall n data off pre l, 0 <= off ->
  off + Z.of_nat (width k) * Z.of_nat n <= len data ->
  match enc_ints k n l with
  | Some b => pack_items n (fmt_of k) data off (pre ++ l) (len pre) =
              Ok (wr data off b, off + Z.of_nat (width k) * Z.of_nat n)
  | None => exists e, pack_items n (fmt_of k) data off (pre ++ l) (len pre) = Err e
  end.
Proof.
  intros S. induction n as [|n IH]; intros data off pre l O L; cbn [enc_ints pack_items].
  - rewrite wr_nil. f_equal. f_equal. lia.
  - destruct l as [|v l].
    { rewrite app_nil_r, index_end. eexists; reflexivity. }
    rewrite index_mid. cbn [bind]. rewrite pack_value_enc by (auto; lia).
    destruct (enc_int k v) as [a|] eqn:Ea; [|eexists; reflexivity]. cbn [bind].
    pose proof (enc_int_len _ _ _ Ea) as La.
    assert (fmt_len (fmt_of k) = Z.of_nat (width k)) as Hf by (apply fmt_len_of; auto).
    rewrite Hf.
    specialize (IH (wr data off a) (off + Z.of_nat (width k)) (pre ++ [v]) l).
    rewrite <- app_assoc in IH. cbn [app] in IH.
    replace (len (pre ++ [v])) with (len pre + 1) in IH by (rewrite len_app; reflexivity).
    rewrite len_wr in IH by lia. specialize (IH ltac:(lia) ltac:(lia)).
    destruct (enc_ints k n l) as [b|] eqn:Eb; [|exact IH].
    rewrite IH. pose proof (enc_ints_len _ _ _ _ Eb) as Lb.
    rewrite <- La at 1. rewrite wr_wr by lia. f_equal. f_equal. lia.
Qed.

(** ** One leaf *)

(** What [pack_struct] demands of the object around an array. *)
Definition cap (s : vmstate) (t : ty) : Prop :=
  match t with
  | TArr _ n => match len_value (vs_value s) with Ok m => n <= m | Err _ => False end
  | _ => True
  end.

Lemma leaf_ok t s data off rest x b : is_rec t = false -> wf_ty t -> 0 <= off ->
  off + tlen t <= len data -> current s = Ok x -> cap s t -> enc t x = Some b ->
  prun (body Pack t ++ rest) false s data off = prun rest false s (wr data off b) (off + tlen t).
Proof.
  intros R W O L C K E. destruct t as [k|k n| |n|ms]; try discriminate.
  - cbn [body app tlen] in *. cbn in W.
    rewrite (prun_step _ _ _ _ _ _ _ (parse_scalar Pack k rest W)) by reflexivity.
    cbn [iscalar exec_pack]. unfold pack_struct. rewrite C. cbn [bind].
    replace (0 <? 0) with false by lia. rewrite pack_value_enc by auto.
    cbn [enc] in E. rewrite E. cbn [bind]. rewrite fmt_len_of by auto. reflexivity.
  - cbn [body app tlen] in *. destruct W as [S N].
    rewrite (prun_step _ _ _ _ _ _ _ (parse_array Pack k n rest S ltac:(lia))) by reflexivity.
    cbn [iscalar exec_pack]. unfold pack_struct. rewrite C. cbn [bind].
    replace (0 <? n) with true by lia. cbn [enc] in E. destruct x; try discriminate.
    cbn [cap] in K. destruct (len_value (vs_value s)) as [m|]; [|tauto]. cbn [bind].
    replace (m <? n) with false by lia.
    pose proof (pack_items_enc k S (Z.to_nat n) data off [] l O ltac:(lia)) as P.
    rewrite E in P. cbn [app] in P. change (@len pyval []) with 0 in P. rewrite P. cbn [bind].
    replace (Z.of_nat (Z.to_nat n)) with n by lia. reflexivity.
  - cbn [body app tlen] in *. cbn in W.
    rewrite (prun_step _ _ _ _ _ _ _ (parse_string Pack n rest W)) by reflexivity.
    cbn [istring exec_pack]. unfold pack_str. rewrite C. cbn [bind].
    cbn [enc] in E. destruct x; try discriminate.
    destruct (utf8_encode s0); [|discriminate]. injection E as <-. cbn [bind].
    rewrite pack_s_fit, pack_into_in by (rewrite ?fit_len; lia). reflexivity.
Qed.

Lemma leaf_inv t s data off rest r : is_rec t = false -> wf_ty t -> 0 <= off ->
  off + tlen t <= len data ->
  prun (body Pack t ++ rest) false s data off = Ok r ->
  exists x b, current s = Ok x /\ cap s t /\ enc t x = Some b.
Proof.
  intros R W O L E. destruct t as [k|k n| |n|ms]; try discriminate; try contradiction.
  - cbn [body app tlen] in *. cbn in W.
    rewrite (prun_step _ _ _ _ _ _ _ (parse_scalar Pack k rest W)) in E by reflexivity.
    cbn [iscalar exec_pack] in E. unfold pack_struct in E.
    destruct (current s) as [x|]; [|discriminate]. cbn [bind] in E.
    replace (0 <? 0) with false in E by lia. rewrite pack_value_enc in E by auto.
    cbn [enc]. destruct (enc_int k x) as [b|] eqn:Eb; [|discriminate].
    exists x, b. split; [reflexivity|]. split; [exact I|exact Eb].
  - cbn [body app tlen] in *. destruct W as [S N].
    rewrite (prun_step _ _ _ _ _ _ _ (parse_array Pack k n rest S ltac:(lia))) in E by reflexivity.
    cbn [iscalar exec_pack] in E. unfold pack_struct in E.
    destruct (current s) as [x|]; [|discriminate]. cbn [bind] in E.
    replace (0 <? n) with true in E by lia. destruct x; try discriminate.
    cbn [cap]. destruct (len_value (vs_value s)) as [m|]; [|discriminate]. cbn [bind] in E.
    destruct (Z.ltb_spec m n); [discriminate|].
    pose proof (pack_items_enc k S (Z.to_nat n) data off [] l O ltac:(lia)) as P.
    cbn [enc]. cbn [app] in P. change (@len pyval []) with 0 in P.
    destruct (enc_ints k (Z.to_nat n) l) as [b|] eqn:Eb.
    + exists (VList l), b. cbn [enc]. auto.
    + destruct P as [e P]. rewrite P in E. discriminate.
  - cbn [body app tlen] in *. cbn in W.
    rewrite (prun_step _ _ _ _ _ _ _ (parse_string Pack n rest W)) in E by reflexivity.
    cbn [istring exec_pack] in E. unfold pack_str in E.
    destruct (current s) as [x|]; [|discriminate]. cbn [bind] in E.
    destruct x; try discriminate. destruct (utf8_encode s0) as [b|] eqn:Eb; [|discriminate].
    exists (VStr s0). eexists. cbn [cap enc]. rewrite Eb. auto.
Qed.

(** ** Records *)

Lemma cap_member d k i st t nm x : is_rec t = false -> dget nm d = Some x -> mroom d nm t ->
  cap (mk_vmstate (VDict d) k i st) t.
Proof. destruct t; cbn; auto. Qed.

Lemma member_mroom d k i st t nm : is_rec t = false -> cap (mk_vmstate (VDict d) k i st) t ->
  mroom d nm t.
Proof. destruct t; cbn [cap mroom is_rec]; intros; try discriminate; auto; destruct (dget nm d); exact I. Qed.

Definition member_ok (t : ty) : Prop := forall nm d st data off rest x b,
  wf_ty t -> 0 <= off -> off + tlen t <= len data ->
  dget nm d = Some x -> mroom d nm t -> enc t x = Some b ->
  exists k, prun (body Pack t ++ rest) false (mk_vmstate (VDict d) (Some nm) None st) data off =
            prun rest false (mk_vmstate (VDict d) k None st) (wr data off b) (off + tlen t).

Definition member_inv (t : ty) : Prop := forall nm d st data off rest r,
  wf_ty t -> 0 <= off -> off + tlen t <= len data ->
  prun (body Pack t ++ rest) false (mk_vmstate (VDict d) (Some nm) None st) data off = Ok r ->
  exists x b, dget nm d = Some x /\ mroom d nm t /\ enc t x = Some b.

Lemma select_step ms nm t d k st data off rest : name_ok nm ->
  prun (mbody Pack ((nm, t) :: ms) ++ rest) false (mk_vmstate (VDict d) k None st) data off =
  prun (body Pack t ++ mbody Pack ms ++ rest) false
    (mk_vmstate (VDict d) (Some nm) None st) data off.
Proof.
  intros N. cbn [mbody app]. rewrite <- !app_assoc. cbn [app]. rewrite <- app_assoc.
  rewrite (prun_step _ _ _ _ _ _ _ (parse_select nm (body Pack t ++ mbody Pack ms ++ rest) N))
    by reflexivity.
  reflexivity.
Qed.

Lemma members_ok ms : Forall (fun m => member_ok (snd m)) ms ->
  forall k d st data off rest b, wfm ms -> 0 <= off -> off + mlen ms <= len data ->
  roomym d ms -> encm d ms = Some b ->
  exists k', prun (mbody Pack ms ++ rest) false (mk_vmstate (VDict d) k None st) data off =
             prun rest false (mk_vmstate (VDict d) k' None st) (wr data off b) (off + mlen ms).
Proof.
  induction 1 as [|[nm t] ms Ht Hms IH]; intros k d st data off rest b W O L R E.
  - cbn [encm] in E. injection E as <-. exists k. cbn [mbody app]. rewrite wr_nil, mlen_nil.
    f_equal. lia.
  - cbn [encm] in E. destruct (dget nm d) as [x|] eqn:Ex; [|discriminate].
    destruct (enc t x) as [a|] eqn:Ea; [|discriminate].
    destruct (encm d ms) as [c|] eqn:Ec; [|discriminate]. injection E as <-.
    apply Forall_cons_iff in W as [[N W1] W2]. apply Forall_cons_iff in R as [R1 R2].
    cbn [fst snd] in *. rewrite mlen_cons in *.
    pose proof (tlen_nonneg t W1). pose proof (enc_len t W1 _ _ Ea) as La.
    assert (0 <= mlen ms) as Lm.
    { destruct ms; [rewrite mlen_nil; lia|].
      apply (tlen_nonneg (TRec (p :: ms))). apply wf_rec. split; [discriminate|exact W2]. }
    rewrite select_step by exact N.
    destruct (Ht nm d st data off (mbody Pack ms ++ rest) x a W1 O ltac:(lia) Ex R1 Ea) as [k1 ->].
    destruct (IH k1 d st (wr data off a) (off + tlen t) rest c W2 ltac:(lia)
      ltac:(rewrite len_wr; lia) R2 Ec) as [k2 ->].
    exists k2. assert (len c = mlen ms) as Lc.
    { destruct ms; [injection Ec as <-; reflexivity|].
      rewrite <- enc_rec in Ec. apply enc_len in Ec; [exact Ec|].
      apply wf_rec. split; [discriminate|exact W2]. }
    rewrite <- La, wr_wr by lia. rewrite Z.add_assoc. reflexivity.
Qed.

Lemma members_inv ms : Forall (fun m => member_ok (snd m) /\ member_inv (snd m)) ms ->
  forall k d st data off rest r, wfm ms -> 0 <= off -> off + mlen ms <= len data ->
  prun (mbody Pack ms ++ rest) false (mk_vmstate (VDict d) k None st) data off = Ok r ->
  exists b, roomym d ms /\ encm d ms = Some b.
Proof.
  induction 1 as [|[nm t] ms [Hk Hi] Hms IH]; intros k d st data off rest r W O L E.
  - exists []. split; [constructor|reflexivity].
  - apply Forall_cons_iff in W as [[N W1] W2].
    cbn [fst snd] in *. rewrite mlen_cons in *.
    pose proof (tlen_nonneg t W1).
    assert (0 <= mlen ms) as Lm.
    { destruct ms; [rewrite mlen_nil; lia|].
      apply (tlen_nonneg (TRec (p :: ms))). apply wf_rec. split; [discriminate|exact W2]. }
    rewrite select_step in E by exact N.
    destruct (Hi nm d st data off _ r W1 O ltac:(lia) E) as (x & a & Ex & Ra & Ea).
    pose proof (enc_len t W1 _ _ Ea) as La.
    destruct (Hk nm d st data off (mbody Pack ms ++ rest) x a W1 O ltac:(lia) Ex Ra Ea) as [k1 K].
    rewrite K in E.
    destruct (IH k1 d st (wr data off a) (off + tlen t) rest r W2 ltac:(lia)
      ltac:(rewrite len_wr; lia) E) as (c & Rc & Ec).
    exists (a ++ c). split; [constructor; auto|]. cbn [encm]. rewrite Ex, Ea, Ec. reflexivity.
Qed.

Lemma enter_step ms rest s s' data off : p_record_enter s = Ok s' ->
  prun (body Pack (TRec ms) ++ rest) false s data off =
  prun (mbody Pack ms ++ 31 :: rest) false s' data off.
Proof.
  intros E. rewrite body_rec. cbn [app]. rewrite <- app_assoc. cbn [app].
  rewrite (prun_step _ _ _ _ _ _ _ (parse_enter (mbody Pack ms ++ 31 :: rest))) by reflexivity.
  cbn [exec_pack]. rewrite E. reflexivity.
Qed.

Lemma enter_err ms rest s e data off : p_record_enter s = Err e ->
  prun (body Pack (TRec ms) ++ rest) false s data off = Err e.
Proof.
  intros E. rewrite body_rec. cbn [app]. rewrite <- app_assoc. cbn [app].
  rewrite (prun_step _ _ _ _ _ _ _ (parse_enter (mbody Pack ms ++ 31 :: rest))) by reflexivity.
  cbn [exec_pack]. rewrite E. reflexivity.
Qed.

(** A record value that is no dictionary is noticed at the first member. *)
Lemma first_member_dict ms rest v k i st data off r : ms <> [] -> wfm ms ->
  prun (mbody Pack ms ++ rest) false (mk_vmstate v k i st) data off = Ok r ->
  exists d, v = VDict d.
Proof.
  destruct ms as [|[nm t] ms]; [tauto|]. intros _ W E.
  apply Forall_cons_iff in W as [[N _] _]. cbn [fst] in N.
  cbn [mbody app] in E. rewrite <- !app_assoc in E. cbn [app] in E. rewrite <- app_assoc in E.
  rewrite (prun_step _ _ _ _ _ _ _ (parse_select nm (body Pack t ++ mbody Pack ms ++ rest) N))
    in E by reflexivity.
  cbn [exec_pack] in E. unfold record_select in E. cbn [vs_value] in E.
  destruct v; try discriminate. eauto.
Qed.

Lemma member_leaf t : is_rec t = false -> member_ok t /\ member_inv t.
Proof.
  intros R. split.
  - intros nm d st data off rest x b W O L G M E. exists (Some nm).
    assert (C : current (mk_vmstate (VDict d) (Some nm) None st) = Ok x)
      by (cbn [current vs_value vs_key]; rewrite G; reflexivity).
    exact (leaf_ok t _ data off rest x b R W O L C (cap_member d (Some nm) None st t nm x R G M) E).
  - intros nm d st data off rest r W O L E.
    apply leaf_inv in E as (x & b & C & K & E); auto.
    cbn [current vs_value vs_key] in C.
    destruct (dget nm d) as [y|] eqn:G; [|discriminate]. injection C as ->.
    exists x, b. split; [reflexivity|]. split; [|exact E].
    exact (member_mroom d (Some nm) None st t nm R K).
Qed.

Lemma member_all t : member_ok t /\ member_inv t.
Proof.
  induction t as [k|k n| |n|ms IH] using ty_ind2.
  1-4: apply member_leaf; reflexivity.
  assert (Hok : Forall (fun m => member_ok (snd m)) ms)
    by (eapply Forall_impl; [|exact IH]; cbn; tauto).
  split.
  - intros nm d st data off rest x b W O L G R E. apply wf_rec in W as [NE W].
    destruct x as [| | | |dx]; try discriminate. rewrite enc_rec in E.
    cbn [mroom] in R. rewrite G in R. apply roomy_rec in R. fold (mlen ms) in L.
    rewrite (enter_step _ _ _
      (mk_vmstate (VDict dx) None None ((VDict d, Some nm, None) :: st)))
      by (cbn; rewrite G; reflexivity).
    destruct (members_ok ms Hok None dx ((VDict d, Some nm, None) :: st) data off (31 :: rest) b
      W O L R E) as [k' ->].
    exists None. rewrite (prun_step _ _ _ _ _ _ _ (parse_leave rest)) by reflexivity.
    reflexivity.
  - intros nm d st data off rest r W O L E. apply wf_rec in W as [NE W]. fold (mlen ms) in L.
    destruct (dget nm d) as [x|] eqn:G.
    2:{ rewrite (enter_err _ _ _ KeyError) in E by (cbn; rewrite G; reflexivity). discriminate. }
    rewrite (enter_step _ _ _ (mk_vmstate x None None ((VDict d, Some nm, None) :: st))) in E
      by (cbn; rewrite G; reflexivity).
    destruct (first_member_dict _ _ _ _ _ _ _ _ _ NE W E) as [dx ->].
    destruct (members_inv ms IH _ _ _ _ _ _ _ W O L E) as (b & R & Eb).
    exists (VDict dx), b. split; [reflexivity|]. rewrite enc_rec. split; [|exact Eb].
    cbn [mroom]. rewrite G. apply roomy_rec. exact R.
Qed.

(** ** Whole programs *)

Lemma top_current t v : is_rec t = false -> forall b, enc t v = Some b ->
  current (mk_vmstate v None None []) = Ok v.
Proof.
  destruct t; try discriminate; destruct v; intros; try reflexivity; cbn in H0; discriminate.
Qed.

Lemma top_ok t v data off b : wf_ty t -> 0 <= off -> off + tlen t <= len data ->
  roomy t v -> enc t v = Some b ->
  exists s, prun (body Pack t) false (mk_vmstate v None None []) data off =
            Ok (s, wr data off b, off + tlen t).
Proof.
  intros W O L R E. rewrite <- (app_nil_r (body Pack t)).
  destruct (is_rec t) eqn:Er.
  - destruct t as [| | | |ms]; try discriminate. destruct v as [| | | |d]; try discriminate.
    apply wf_rec in W as [NE W]. rewrite enc_rec in E. apply roomy_rec in R. fold (mlen ms) in *.
    rewrite (enter_step _ _ _ (mk_vmstate (VDict d) None None [])) by reflexivity.
    assert (Hok : Forall (fun m => member_ok (snd m)) ms)
      by (apply Forall_forall; intros; apply member_all).
    destruct (members_ok ms Hok None d [] data off [31] b W O L R E) as [k' ->].
    rewrite (prun_step _ _ _ _ _ _ _ (parse_leave [])) by reflexivity.
    eexists. reflexivity.
  - rewrite (leaf_ok _ _ _ _ _ v b); auto.
    + eexists. reflexivity.
    + eapply top_current; eauto.
    + destruct t; try exact I. cbn in E. destruct v; try discriminate.
      apply enc_ints_items in E. cbn. lia.
Qed.

Lemma top_inv t v data off r : wf_ty t -> 0 <= off -> off + tlen t <= len data ->
  prun (body Pack t) false (mk_vmstate v None None []) data off = Ok r ->
  exists b, roomy t v /\ enc t v = Some b.
Proof.
  intros W O L E. rewrite <- (app_nil_r (body Pack t)) in E.
  destruct (is_rec t) eqn:Er.
  - destruct t as [| | | |ms]; try discriminate.
    apply wf_rec in W as [NE W]. fold (mlen ms) in *.
    destruct v as [| | | |d];
      try (rewrite (enter_err _ _ _ ValueError) in E by reflexivity; discriminate).
    rewrite (enter_step _ _ _ (mk_vmstate (VDict d) None None [])) in E by reflexivity.
    assert (Hi : Forall (fun m => member_ok (snd m) /\ member_inv (snd m)) ms)
      by (apply Forall_forall; intros; apply member_all).
    destruct (members_inv ms Hi _ _ _ _ _ _ _ W O L E) as (b & R & Eb).
    exists b. rewrite enc_rec, roomy_rec. auto.
  - apply leaf_inv in E; auto. destruct E as (x & b & C & _ & E).
    assert (x = v) as -> by (destruct v; cbn in C; congruence).
    exists b. split; [|exact E]. destruct t, v; try exact I; discriminate.
Qed.

Lemma verify_total data off : verify_data_len (len data - off) data off = Ok tt.
Proof. unfold verify_data_len. replace (len data - off <? len data - off) with false by lia. auto. Qed.

Lemma exec_pack_prog_start t data off v : 0 <= tlen t < 2 ^ 32 ->
  exec_pack_prog (head Pack (tlen t) ++ body Pack t) data off v =
  if len data - off <? tlen t then Err RuntimeError
  else do '(_, data', _) <- prun (body Pack t) false (mk_vmstate v None None []) data off;
       Ok data'.
Proof.
  intros T. unfold exec_pack_prog. rewrite verify_total. cbn [bind].
  fold (prun (head Pack (tlen t) ++ body Pack t) true (mk_vmstate v None None []) data off).
  rewrite (prun_step _ _ _ _ _ _ _ (parse_head Pack (tlen t) (body Pack t) T)) by reflexivity.
  cbn [exec_pack]. unfold verify_data_len. destruct (len data - off <? tlen t); reflexivity.
Qed.

Lemma exec_pack_iff t data off v r : wf_ty t -> tlen t < 2 ^ 32 -> 0 <= off ->
  exec_pack_prog (head Pack (tlen t) ++ body Pack t) data off v = Ok r <->
  off + tlen t <= len data /\ roomy t v /\ exists b, enc t v = Some b /\ r = wr data off b.
Proof.
  intros W T O. rewrite exec_pack_prog_start by (pose proof (tlen_nonneg t W); lia).
  destruct (Z.ltb_spec (len data - off) (tlen t)); [split; [discriminate|intros; lia]|].
  split.
  - intros E. split; [lia|]. apply bind_ok in E as ([[s d'] o] & Hp & E). injection E as <-.
    destruct (top_inv t v data off _ W O ltac:(lia) Hp) as (b & R & Eb).
    split; [exact R|]. exists b. split; [exact Eb|].
    destruct (top_ok t v data off b W O ltac:(lia) R Eb) as [s' E].
    rewrite E in Hp. injection Hp as _ <- _. reflexivity.
  - intros (L & R & b & Eb & ->). destruct (top_ok t v data off b W O L R Eb) as [s' ->].
    reflexivity.
Qed.
