(** Lemmas on unpacking: the machine running compiled code reads exactly the
    value that [dec] describes. *)
From Coq Require Import ZifyBool ZifyNat Lia.
From Verif Require Import Py PyLemmas TypesModel CompilerModel VmModel TypesSpec TypesProofs
  CompilerProofs VmProofs VmPackProofs.
Ltac Zify.zify_post_hook ::= Z.div_mod_to_equations.

Fixpoint decm (l : list (str * ty)) (b : bytes) : option dict :=
  match l with
  | [] => Some []
  | (nm, t) :: r =>
    match dec t (firstn (Z.to_nat (tlen t)) b), decm r (skipn (Z.to_nat (tlen t)) b) with
    | Some x, Some d => Some ((nm, x) :: d)
    | _, _ => None
    end
  end.
Lemma dec_rec ms b :
  dec (TRec ms) b = match decm ms b with Some d => Some (VDict d) | None => None end.
Proof.
  cbn [dec]. match goal with |- match ?f ms b with _ => _ end = _ =>
    assert (E : forall b, f ms b = decm ms b) end.
  { induction ms as [|[nm t] ms IH]; intros b'; [reflexivity|].
    cbn [decm]. rewrite IH. reflexivity. }
  rewrite E. reflexivity.
Qed.

(** ** Windows *)

Definition win (data : bytes) (off n : Z) : bytes := firstn (Z.to_nat n) (skipn (Z.to_nat off) data).

Lemma slice_win data off n : 0 <= off -> 0 <= n -> off + n <= len data ->
  slice data off (off + n) = win data off n.
Proof.
  intros. unfold slice, win, slice_bound.
  replace (off <? 0) with false by lia. replace (off + n <? 0) with false by lia.
  rewrite !Z.min_l by lia. f_equal. f_equal. lia.
Qed.

Lemma len_win data off n : 0 <= off -> 0 <= n -> off + n <= len data -> len (win data off n) = n.
Proof. intros. unfold win. rewrite len_firstn, len_skipn. lia. Qed.

Lemma win_ok data off n : bytes_ok data -> bytes_ok (win data off n).
Proof. intros. apply bytes_ok_firstn, bytes_ok_skipn. auto. Qed.

Lemma win_first data off a n : 0 <= a -> a <= n -> 0 <= off ->
  firstn (Z.to_nat a) (win data off n) = win data off a.
Proof. intros. unfold win. rewrite firstn_firstn. f_equal. lia. Qed.

Lemma win_rest data off a n : 0 <= a -> a <= n -> 0 <= off ->
  skipn (Z.to_nat a) (win data off n) = win data (off + a) (n - a).
Proof.
  intros. unfold win. rewrite skipn_firstn_comm, skipn_skipn. f_equal; [lia|].
  f_equal. lia.
Qed.

Lemma win_wr data off b : 0 <= off -> off + len b <= len data -> win (wr data off b) off (len b) = b.
Proof.
  intros O L. unfold win, wr. pose proof (len_nonneg b).
  assert (length (firstn (Z.to_nat off) data) = Z.to_nat off) as E
    by (rewrite firstn_length; unfold len in *; lia).
  rewrite skipn_app, skipn_all2 by lia. rewrite E, Nat.sub_diag. cbn [skipn app].
  rewrite firstn_app. replace (Z.to_nat (len b) - length b)%nat with 0%nat by (unfold len; lia).
  rewrite firstn_O, app_nil_r, firstn_all2; [reflexivity|unfold len; lia].
Qed.

(** ** Leaves *)

Lemma utf8_decode_err b e : utf8_decode b = Err e -> e = UnicodeError.
Proof.
  assert (forall n b, (length b <= n)%nat -> forall e, utf8_decode b = Err e -> e = UnicodeError) as G.
  { clear. induction n as [|n IH]; intros b L e E.
    - destruct b; [discriminate|cbn in L; lia].
    - destruct b as [|b1 r1]; [discriminate|]. cbn [utf8_decode] in E. cbn [length] in L.
      repeat first
        [ match type of E with (if ?c then _ else _) = _ => destruct c end
        | match type of E with (match ?r with [] => _ | _ => _ end) = _ =>
            destruct r; cbn [length] in L end
        | match type of E with (let c := _ in _) = _ => cbv zeta in E end
        | match type of E with bind (utf8_decode ?r) _ = _ =>
            let H := fresh in destruct (utf8_decode r) eqn:H; cbn [bind] in E;
            [discriminate|injection E as <-; eapply (IH r); [lia|exact H]] end
        | congruence ]. }
  apply (G (length b)). lia.
Qed.

Lemma unpack_items_dec k data : small k -> bytes_ok data -> forall n off,
  0 <= off -> off + Z.of_nat (width k) * Z.of_nat n <= len data ->
  unpack_items n (fmt_of k) data off =
  Ok (dec_ints k n (win data off (Z.of_nat (width k) * Z.of_nat n)),
      off + Z.of_nat (width k) * Z.of_nat n).
Proof.
  intros S B. induction n as [|n IH]; intros off O L.
  - cbn. f_equal. f_equal. lia.
  - cbn [unpack_items dec_ints].
    rewrite struct_size_of, fmt_len_of by auto.
    rewrite unpack_from_in by lia. cbn [bind]. rewrite IH by lia. cbn [bind].
    rewrite slice_win by lia.
    rewrite struct_unpack_num; auto using win_ok;
      [|pose proof (len_win data off (Z.of_nat (width k)) O ltac:(lia) ltac:(lia)); unfold len in *; lia].
    pose proof (win_first data off (Z.of_nat (width k)) (Z.of_nat (width k) * Z.of_nat (Datatypes.S n))
      ltac:(lia) ltac:(lia) O) as F1.
    pose proof (win_rest data off (Z.of_nat (width k)) (Z.of_nat (width k) * Z.of_nat (Datatypes.S n))
      ltac:(lia) ltac:(lia) O) as F2.
    rewrite Nat2Z.id in F1, F2. rewrite F1, F2.
    f_equal. f_equal; [|lia]. f_equal. f_equal. f_equal. lia.
Qed.

Lemma before_nul_prefix b : exists r, b = before_nul b ++ r.
Proof.
  induction b as [|x b [r IH]]; [exists []; reflexivity|]. cbn [before_nul].
  destruct (x =? 0); [exists (x :: b); reflexivity|]. exists r. cbn [app]. congruence.
Qed.

Lemma scan_nul_ok data : forall n off, 0 <= off -> off + Z.of_nat n <= len data ->
  scan_nul n data off = Ok (off + len (before_nul (win data off (Z.of_nat n)))).
Proof.
  induction n as [|n IH]; intros off O L.
  - cbn [scan_nul]. f_equal. change (win data off (Z.of_nat 0)) with (@nil Z).
    change (len (before_nul [])) with 0. lia.
  - cbn [scan_nul]. destruct (index_nth data off) as (x & Hx & ->); [lia|]. cbn [bind].
    assert (win data off (Z.of_nat (S n)) = x :: win data (off + 1) (Z.of_nat n)) as ->.
    { unfold win. replace (Z.to_nat (Z.of_nat (S n))) with (S (Z.to_nat (Z.of_nat n))) by lia.
      apply nth_error_split in Hx as (a & c & -> & La).
      rewrite <- La. rewrite skipn_app, skipn_all, Nat.sub_diag. cbn [app skipn].
      rewrite skipn_app, skipn_all2 by lia. cbn [app].
      replace (Z.to_nat (off + 1) - length a)%nat with 1%nat by lia. reflexivity. }
    cbn [before_nul]. destruct (x =? 0).
    + f_equal. change (@len Z []) with 0. lia.
    + rewrite IH by lia. f_equal. rewrite len_cons. lia.
Qed.

Lemma uleaf t s data off rest : is_rec t = false -> wf_ty t -> bytes_ok data -> 0 <= off ->
  off + tlen t <= len data ->
  urun (body Unpack t ++ rest) false s data off =
  match dec t (win data off (tlen t)) with
  | Some x => do s' <- store x s; urun rest false s' data (off + tlen t)
  | None => Err UnicodeError
  end.
Proof.
  intros R W B O L. destruct t as [k|k n| |n|ms]; try discriminate; try contradiction.
  - cbn [body app tlen dec] in *. cbn in W.
    rewrite (urun_step _ _ _ _ _ _ _ (parse_scalar Unpack k rest W)) by reflexivity.
    cbn [iscalar exec_unpack]. unfold unpack_struct. replace (0 <? 0) with false by lia.
    rewrite struct_size_of, fmt_len_of by auto. rewrite unpack_from_in by lia. cbn [bind].
    rewrite slice_win by lia.
    rewrite struct_unpack_num; auto using win_ok;
      [|pose proof (len_win data off (Z.of_nat (width k)) O ltac:(lia) ltac:(lia)); unfold len in *; lia].
    destruct (store _ s); reflexivity.
  - cbn [body app tlen dec] in *. destruct W as [S N].
    rewrite (urun_step _ _ _ _ _ _ _ (parse_array Unpack k n rest S ltac:(lia))) by reflexivity.
    cbn [iscalar exec_unpack]. unfold unpack_struct. replace (0 <? n) with true by lia.
    rewrite unpack_items_dec by (auto; lia). cbn [bind].
    replace (Z.of_nat (Z.to_nat n)) with n by lia.
    destruct (store _ s); reflexivity.
  - cbn [body app tlen dec] in *. cbn in W.
    rewrite (urun_step _ _ _ _ _ _ _ (parse_string Unpack n rest W)) by reflexivity.
    cbn [istring exec_unpack]. unfold unpack_str.
    replace (len data - off <? n) with false by lia.
    rewrite unpack_from_in by lia. cbn [bind].
    rewrite scan_nul_ok by lia. cbn [bind].
    replace (Z.of_nat (Z.to_nat n)) with n by lia.
    assert (slice data off (off + len (before_nul (win data off n))) = before_nul (win data off n)) as ->.
    { destruct (before_nul_prefix (win data off n)) as [r E].
      pose proof (len_win data off n O ltac:(lia) L) as LW.
      pose proof (f_equal len E) as E2. rewrite len_app in E2.
      pose proof (len_nonneg r). pose proof (len_nonneg (before_nul (win data off n))).
      rewrite slice_win by lia. rewrite <- (win_first data off _ n) by lia.
      rewrite E at 2. rewrite firstn_app.
      replace (Z.to_nat (len (before_nul (win data off n))) - length (before_nul (win data off n)))%nat
        with 0%nat by (unfold len; lia).
      rewrite firstn_O, app_nil_r, firstn_all2; [reflexivity|unfold len; lia]. }
    destruct (utf8_decode (before_nul (win data off n))) as [t|e] eqn:E; cbn [bind].
    + destruct (store _ s); reflexivity.
    + f_equal. revert E. apply utf8_decode_err.
Qed.

(** ** Records *)

Lemma dset_fresh nm x : forall d, ~ In nm (map fst d) -> dset nm x d = d ++ [(nm, x)].
Proof.
  induction d as [|[n v] d IH]; intros F; [reflexivity|]. cbn [dset app].
  cbn [map fst In] in F. rewrite (proj2 (str_eqb_neq _ _)) by tauto. rewrite IH by tauto. reflexivity.
Qed.

Lemma uselect_step ms nm t d k st data off rest : name_ok nm ->
  urun (mbody Unpack ((nm, t) :: ms) ++ rest) false (mk_vmstate (VDict d) k None st) data off =
  urun (body Unpack t ++ mbody Unpack ms ++ rest) false
    (mk_vmstate (VDict d) (Some nm) None st) data off.
Proof.
  intros N. cbn [mbody app]. rewrite <- !app_assoc. cbn [app]. rewrite <- app_assoc.
  rewrite (urun_step _ _ _ _ _ _ _ (parse_select nm (body Unpack t ++ mbody Unpack ms ++ rest) N))
    by reflexivity.
  reflexivity.
Qed.

Lemma wfm_len ms : wfm ms -> 0 <= mlen ms.
Proof.
  intros W. destruct ms; [rewrite mlen_nil; lia|].
  apply (tlen_nonneg (TRec (p :: ms))). apply wf_rec. split; [discriminate|exact W].
Qed.

Lemma umembers data : bytes_ok data -> forall ms,
  Forall (fun m => is_rec (snd m) = false) ms -> NoDup (map fst ms) -> wfm ms ->
  forall k d off rest, 0 <= off -> off + mlen ms <= len data ->
  (forall nm, In nm (map fst ms) -> ~ In nm (map fst d)) ->
  match decm ms (win data off (mlen ms)) with
  | Some d' => exists k', 
    urun (mbody Unpack ms ++ rest) false (mk_vmstate (VDict d) k None []) data off =
    urun rest false (mk_vmstate (VDict (d ++ d')) k' None []) data (off + mlen ms)
  | None =>
    urun (mbody Unpack ms ++ rest) false (mk_vmstate (VDict d) k None []) data off = Err UnicodeError
  end.
Proof.
  intros B. induction ms as [|[nm t] ms IH]; intros F ND W k d off rest O L Fr.
  - cbn [decm mbody app]. exists k. rewrite app_nil_r, mlen_nil. f_equal. lia.
  - apply Forall_cons_iff in F as [F1 F2]. apply Forall_cons_iff in W as [[N W1] W2].
    cbn [fst snd map] in *. apply NoDup_cons_iff in ND as [ND1 ND2].
    rewrite mlen_cons in *. pose proof (tlen_nonneg t W1). pose proof (wfm_len ms W2).
    rewrite uselect_step by exact N. cbn [decm].
    rewrite win_first, win_rest by lia.
    replace (tlen t + mlen ms - tlen t) with (mlen ms) by lia.
    rewrite uleaf by (auto; lia).
    destruct (dec t (win data off (tlen t))) as [x|]; [|reflexivity].
    cbn [store vs_value vs_key bind vs_index vs_stack].
    rewrite dset_fresh by (apply Fr; left; reflexivity).
    specialize (IH F2 ND2 W2 (Some nm) (d ++ [(nm, x)]) (off + tlen t) rest ltac:(lia) ltac:(lia)).
    assert (forall nm0, In nm0 (map fst ms) -> ~ In nm0 (map fst (d ++ [(nm, x)]))) as Fr'.
    { intros n I. rewrite map_app. intros J. apply in_app_or in J as [J|J].
      - eapply Fr; [right; exact I|exact J].
      - cbn in J. destruct J as [<-|[]]. contradiction. }
    specialize (IH Fr').
    destruct (decm ms _) as [d'|]; [|exact IH].
    destruct IH as [k' IH]. exists k'. rewrite IH, <- app_assoc. f_equal. lia.
Qed.

Lemma utop t data off : wf_ty t -> flat t -> bytes_ok data -> 0 <= off -> off + tlen t <= len data ->
  (do '(s, _) <- urun (body Unpack t) false (mk_vmstate VOther None None []) data off;
   Ok (vs_value s)) =
  match dec t (win data off (tlen t)) with Some v => Ok v | None => Err UnicodeError end.
Proof.
  intros W F B O L. rewrite <- (app_nil_r (body Unpack t)). destruct (is_rec t) eqn:R.
  - destruct t as [| | | |ms]; try discriminate. rewrite dec_rec, body_rec. fold (mlen ms) in *.
    apply wf_rec in W as [NE W]. destruct F as [F ND].
    cbn [app]. rewrite <- app_assoc. cbn [app].
    rewrite (urun_step _ _ _ _ _ _ _ (parse_enter (mbody Unpack ms ++ [31]))) by reflexivity.
    cbn [exec_unpack u_record_enter vs_key vs_index vs_stack bind].
    pose proof (umembers data B ms F ND W None [] off [31] O L ltac:(cbn; tauto)) as P.
    destruct (decm ms (win data off (mlen ms))) as [d'|].
    + destruct P as [k' ->]. rewrite (urun_step _ _ _ _ _ _ _ (parse_leave [])) by reflexivity.
      reflexivity.
    + rewrite P. reflexivity.
  - rewrite uleaf by auto. destruct (dec t _); [|reflexivity]. reflexivity.
Qed.

Lemma exec_unpack_prog_start t data off : 0 <= tlen t < 2 ^ 32 ->
  exec_unpack_prog (head Unpack (tlen t) ++ body Unpack t) data off =
  if len data - off <? tlen t then Err RuntimeError
  else do '(s, _) <- urun (body Unpack t) false (mk_vmstate VOther None None []) data off;
       Ok (vs_value s).
Proof.
  intros T. unfold exec_unpack_prog. rewrite verify_total. cbn [bind].
  fold (urun (head Unpack (tlen t) ++ body Unpack t) true (mk_vmstate VOther None None []) data off).
  rewrite (urun_step _ _ _ _ _ _ _ (parse_head Unpack (tlen t) (body Unpack t) T)) by reflexivity.
  cbn [exec_unpack]. unfold verify_data_len. destruct (len data - off <? tlen t); reflexivity.
Qed.

Lemma exec_unpack_exact t data off : wf_ty t -> flat t -> tlen t < 2 ^ 32 -> bytes_ok data ->
  0 <= off ->
  exec_unpack_prog (head Unpack (tlen t) ++ body Unpack t) data off =
  if len data - off <? tlen t then Err RuntimeError
  else match dec t (win data off (tlen t)) with Some v => Ok v | None => Err UnicodeError end.
Proof.
  intros W F T B O. rewrite exec_unpack_prog_start by (pose proof (tlen_nonneg t W); lia).
  destruct (Z.ltb_spec (len data - off) (tlen t)); [reflexivity|].
  apply utop; auto. lia.
Qed.

(** Nested records are never unpacked. *)
Lemma umembers_nested data : bytes_ok data -> forall ms,
  Exists (fun m => is_rec (snd m) = true) ms -> wfm ms ->
  forall k d off rest, 0 <= off -> off + mlen ms <= len data ->
  exists e, urun (mbody Unpack ms ++ rest) false (mk_vmstate (VDict d) k None []) data off = Err e /\
            (e = NotImplementedError \/ e = UnicodeError).
Proof.
  intros B. induction ms as [|[nm t] ms IH]; intros X W k d off rest O L; [inversion X|].
  apply Forall_cons_iff in W as [[N W1] W2]. cbn [fst snd] in *.
  rewrite mlen_cons in *. pose proof (tlen_nonneg t W1). pose proof (wfm_len ms W2).
  rewrite uselect_step by exact N. destruct (is_rec t) eqn:R.
  - destruct t as [| | | |ms']; try discriminate. rewrite body_rec. cbn [app].
    exists NotImplementedError. split; [|auto].
    rewrite (urun_step _ _ _ _ _ _ _ (parse_enter _)) by reflexivity. reflexivity.
  - rewrite uleaf by (auto; lia). destruct (dec t _) as [x|]; [|eexists; eauto].
    cbn [store vs_value vs_key bind vs_index vs_stack].
    apply IH; auto; [|lia|lia]. inversion X; subst; [cbn in *; congruence|auto].
Qed.

Lemma exec_unpack_nested t data off : wf_ty t -> nested t -> tlen t < 2 ^ 32 -> bytes_ok data ->
  0 <= off -> off + tlen t <= len data ->
  exists e, exec_unpack_prog (head Unpack (tlen t) ++ body Unpack t) data off = Err e /\
            (e = NotImplementedError \/ e = UnicodeError).
Proof.
  intros W X T B O L. rewrite exec_unpack_prog_start by (pose proof (tlen_nonneg t W); lia).
  replace (len data - off <? tlen t) with false by lia.
  destruct t as [| | | |ms]; try contradiction. apply wf_rec in W as [NE W]. fold (mlen ms) in *.
  rewrite body_rec.
  rewrite (urun_step _ _ _ _ _ _ _ (parse_enter _)) by reflexivity.
  cbn [exec_unpack u_record_enter vs_key vs_index vs_stack bind].
  destruct (umembers_nested data B ms X W None [] off [31] O L) as (e & -> & E).
  exists e. auto.
Qed.

(** ** Decoding what was encoded *)

Lemma enc_int_exact k z : kmin k <= z <= kmax k ->
  enc_int k (VInt z) = Some (num_le (width k) z) /\ int_val k (num_le (width k) z) = z.
Proof.
  intros R. unfold enc_int, in_range.
  replace (kmin k <=? z) with true by lia. replace (z <=? kmax k) with true by lia.
  split; [reflexivity|].
  assert (V : num_val (num_le (width k) z) = z mod 2 ^ (8 * Z.of_nat (width k))).
  { clear R. generalize (width k). intros n. revert z.
    induction n as [|n IH]; intros z.
    - change (2 ^ (8 * Z.of_nat 0)) with 1. cbn. lia.
    - cbn [num_le num_val]. rewrite IH.
      replace (8 * Z.of_nat (S n)) with (8 + 8 * Z.of_nat n) by lia.
      rewrite Z.pow_add_r by lia. change (2 ^ 8) with 256.
      rewrite Z.rem_mul_r by lia. lia. }
  unfold int_val. rewrite V. unfold kmin, kmax in R.
  set (w := 8 * Z.of_nat (width k)) in *.
  assert (2 ^ w = 2 * 2 ^ (w - 1)) as P2.
  { assert (1 <= w) by (subst w; destruct k; cbn [width]; lia).
    rewrite <- Z.pow_succ_r by lia. f_equal. lia. }
  assert (0 < 2 ^ (w - 1)) by (apply Z.pow_pos_nonneg; subst w; destruct k; cbn [width]; lia).
  destruct (signed k); cbn [andb].
  - destruct (Z.leb_spec 0 z).
    + rewrite Z.mod_small by lia. destruct (Z.leb_spec (2 ^ (w - 1)) z); lia.
    + assert (z mod 2 ^ w = z + 2 ^ w) as ->.
      { symmetry. apply Z.mod_unique_pos with (q := -1); lia. }
      destruct (Z.leb_spec (2 ^ (w - 1)) (z + 2 ^ w)); lia.
  - apply Z.mod_small. lia.
Qed.

Lemma firstn_len {A} (a b : list A) : firstn (length a) (a ++ b) = a.
Proof. rewrite firstn_app, Nat.sub_diag, firstn_O, app_nil_r. apply firstn_all. Qed.
Lemma skipn_len {A} (a b : list A) : skipn (length a) (a ++ b) = b.
Proof. rewrite skipn_app, Nat.sub_diag, skipn_all. reflexivity. Qed.

Lemma enc_ints_exact k : forall l rest,
  Forall (fun v => exists z, v = VInt z /\ kmin k <= z <= kmax k) l ->
  exists b, enc_ints k (length l) l = Some b /\ dec_ints k (length l) (b ++ rest) = l.
Proof.
  induction l as [|v l IH]; intros rest F; [exists []; split; reflexivity|].
  apply Forall_cons_iff in F as [(z & -> & R) F]. destruct (enc_int_exact k z R) as [E V].
  destruct (IH rest F) as (b & Eb & Db).
  exists (num_le (width k) z ++ b). cbn [length enc_ints dec_ints]. rewrite E, Eb.
  split; [reflexivity|]. rewrite <- app_assoc.
  assert (width k = length (num_le (width k) z)) as Lw
    by (pose proof (len_num_le (width k) z); unfold len in *; lia).
  rewrite Lw at 1 3. rewrite firstn_len, skipn_len, V, Db. reflexivity.
Qed.

Lemma before_nul_fit n b : ~ In 0 b -> len b <= n -> before_nul (fit n b) = b.
Proof.
  intros F L. unfold fit.
  rewrite firstn_app, firstn_all2 by (unfold len in L; lia).
  assert (E : before_nul (firstn (Z.to_nat n - length b) (repeat 0 (Z.to_nat n))) = [])
    by (destruct (Z.to_nat n - length b)%nat, (Z.to_nat n); reflexivity).
  revert E. generalize (firstn (Z.to_nat n - length b) (repeat 0 (Z.to_nat n))). intros z E.
  clear L. induction b as [|x b IH]; [exact E|].
  cbn [app before_nul]. cbn [In] in F. replace (x =? 0) with false by lia.
  rewrite IH by tauto. reflexivity.
Qed.

Lemma utf8_enc1_nonzero c b : utf8_enc1 c = Ok b -> c <> 0 -> ~ In 0 b.
Proof.
  unfold utf8_enc1. intros E C I.
  repeat match type of E with (if ?g then _ else _) = _ => destruct g eqn:? end; try discriminate;
    injection E as <-; cbn [In] in I; lia.
Qed.

Lemma utf8_encode_nonzero : forall s b, utf8_encode s = Ok b -> ~ In 0 s -> ~ In 0 b.
Proof.
  induction s as [|c s IH]; intros b E F; cbn [utf8_encode] in E.
  - injection E as <-. auto.
  - apply bind_ok in E as (x & Hx & E). apply bind_ok in E as (y & Hy & E). injection E as <-.
    cbn [In] in F. intros I. apply in_app_or in I as [I|I].
    + eapply utf8_enc1_nonzero; eauto.
    + eapply IH; eauto.
Qed.

Fixpoint exactm (l : list (str * ty)) (d : dict) : Prop :=
  match l, d with
  | [], [] => True
  | (nm, t) :: r, (nm', x) :: d' => nm = nm' /\ exact t x /\ exactm r d'
  | _, _ => False
  end.
Lemma exact_rec ms : forall d, exact (TRec ms) (VDict d) <-> exactm ms d.
Proof.
  intros d. cbn [exact]. revert d.
  induction ms as [|[nm t] ms IH]; intros [|[n x] d]; cbn [exactm]; try reflexivity.
Qed.

(** Every record has different member names, at all depths. *)
Fixpoint distinct (t : ty) : Prop :=
  match t with
  | TRec ms => NoDup (map fst ms) /\
     (fix go l := match l with [] => True | (_, t) :: r => distinct t /\ go r end) ms
  | _ => True
  end.
Lemma distinct_rec ms : distinct (TRec ms) <->
  NoDup (map fst ms) /\ Forall (fun m => distinct (snd m)) ms.
Proof.
  cbn [distinct]. assert ((fix go l := match l with [] => True
     | (_, t) :: r => distinct t /\ go r end) ms <-> Forall (fun m => distinct (snd m)) ms) as E;
    [|rewrite E; tauto].
  induction ms as [|[nm t] ms IH]; [split; constructor|].
  rewrite Forall_cons_iff. cbn [snd]. rewrite IH. tauto.
Qed.

Lemma flat_distinct t : flat t -> distinct t.
Proof.
  destruct t; try exact (fun _ => I). intros [F ND]. apply distinct_rec. split; [exact ND|].
  eapply Forall_impl; [|exact F]. intros [nm t] R. destruct t; try discriminate; exact I.
Qed.

Lemma exact_dec t : wf_ty t -> distinct t -> forall v, exact t v ->
  exists b, enc t v = Some b /\ len b = tlen t /\ bytes_ok b /\ dec t b = Some v.
Proof.
  intros W D v X.
  cut (exists b, enc t v = Some b /\ bytes_ok b /\ dec t b = Some v).
  { intros (b & E & B & Dc). exists b. split; [exact E|]. split; [|auto].
    eapply enc_len; eauto. }
  revert W D v X. induction t as [k|k n| |n|ms IH] using ty_ind2; intros W D v X.
  - destruct v; try contradiction. cbn in X. destruct (enc_int_exact k z X) as [E V].
    exists (num_le (width k) z). cbn [enc dec]. rewrite E, V. split; [reflexivity|].
    split; [apply num_le_ok|reflexivity].
  - destruct v; try contradiction. destruct X as [X F].
    destruct (enc_ints_exact k l [] F) as (b & E & Db). rewrite app_nil_r in Db.
    exists b. cbn [enc dec]. assert (Z.to_nat n = length l) as -> by (unfold len in X; lia).
    rewrite E, Db. split; [reflexivity|]. split; [|reflexivity].
    clear -E. revert b E. generalize (length l) at 1. intros n. revert l.
    induction n as [|n IH]; intros l b E; cbn [enc_ints] in E.
    + injection E as <-. constructor.
    + destruct l as [|v l]; [discriminate|].
      destruct (enc_int k v) as [a|] eqn:Ea; [|discriminate].
      destruct (enc_ints k n l) as [c|] eqn:Ec; [|discriminate]. injection E as <-.
      apply bytes_ok_app. split; [|eapply IH; eauto].
      unfold enc_int in Ea. destruct v; try discriminate. destruct (in_range k z); [|discriminate].
      injection Ea as <-. apply num_le_ok.
  - destruct W.
  - destruct v; try contradiction. destruct X as (F & b & E & L).
    exists (fit n b). cbn [enc dec]. rewrite E. split; [reflexivity|].
    rewrite before_nul_fit by (auto; eapply utf8_encode_nonzero; eauto).
    rewrite (utf8_roundtrip _ _ E). split; [|reflexivity].
    apply bytes_ok_firstn, bytes_ok_app. split; [eapply utf8_encode_ok; eauto|apply bytes_ok_repeat0].
  - destruct v as [| | | |d]; try contradiction. apply exact_rec in X.
    apply wf_rec in W as [_ W]. apply distinct_rec in D as [ND D].
    rewrite enc_rec.
    cut (forall d0, (forall nm, In nm (map fst ms) -> ~ In nm (map fst d0)) ->
      exists b, encm (d0 ++ d) ms = Some b /\ bytes_ok b /\ decm ms b = Some d).
    { intros G. destruct (G []) as (b & E & B & Db); [cbn; tauto|].
      exists b. cbn [app] in E. rewrite dec_rec, Db. auto. }
    revert d X. induction IH as [|[nm t] ms Ht IH IHm]; intros d X d0 Fr.
    + destruct d; [|contradiction]. exists []. split; [reflexivity|]. split; [constructor|reflexivity].
    + destruct d as [|[nm' x] d]; [contradiction|]. destruct X as (<- & X1 & X2).
      apply Forall_cons_iff in W as [[N W1] W2]. apply Forall_cons_iff in D as [D1 D2].
      cbn [map fst snd] in *. apply NoDup_cons_iff in ND as [ND1 ND2].
      destruct (Ht W1 D1 x X1) as (a & Ea & Ba & Da).
      destruct (IHm W2 ND2 D2 d X2 (d0 ++ [(nm, x)])) as (b & Eb & Bb & Db).
      { intros n I. rewrite map_app. intros J. apply in_app_or in J as [J|J].
        - eapply Fr; [right; exact I|exact J].
        - cbn in J. destruct J as [<-|[]]. contradiction. }
      rewrite <- app_assoc in Eb. cbn [app] in Eb.
      exists (a ++ b). cbn [encm decm].
      assert (dget nm (d0 ++ (nm, x) :: d) = Some x) as ->.
      { specialize (Fr nm (or_introl eq_refl)). clear -Fr.
        induction d0 as [|[n v] d0 IH]; cbn [app dget].
        - rewrite str_eqb_refl. reflexivity.
        - cbn [map fst In] in Fr. rewrite (proj2 (str_eqb_neq _ _)) by tauto. apply IH. tauto. }
      rewrite Ea, Eb. split; [reflexivity|].
      split; [apply bytes_ok_app; auto|].
      assert (Z.to_nat (tlen t) = length a) as ->
        by (pose proof (enc_len t W1 _ _ Ea); unfold len in *; lia).
      rewrite firstn_len, skipn_len, Da, Db. reflexivity.
Qed.

(** ** Repeated member names *)

Definition put (d : dict) (m : str * pyval) : dict := dset (fst m) (snd m) d.
Lemma umembers_any data : bytes_ok data -> forall ms,
  Forall (fun m => is_rec (snd m) = false) ms -> wfm ms ->
  forall k d off rest, 0 <= off -> off + mlen ms <= len data ->
  forall d', decm ms (win data off (mlen ms)) = Some d' -> exists k',
    urun (mbody Unpack ms ++ rest) false (mk_vmstate (VDict d) k None []) data off =
    urun rest false (mk_vmstate (VDict (fold_left put d' d)) k' None []) data (off + mlen ms).
Proof.
  intros B. induction ms as [|[nm t] ms IH]; intros F W k d off rest O L d' D.
  - cbn [decm] in D. injection D as <-. cbn [mbody app fold_left]. exists k. rewrite mlen_nil. f_equal. lia.
  - apply Forall_cons_iff in F as [F1 F2]. apply Forall_cons_iff in W as [[N W1] W2].
    cbn [fst snd map] in *. rewrite mlen_cons in *. pose proof (tlen_nonneg t W1). pose proof (wfm_len ms W2).
    rewrite uselect_step by exact N. cbn [decm] in D.
    rewrite win_first, win_rest in D by lia.
    replace (tlen t + mlen ms - tlen t) with (mlen ms) in D by lia.
    rewrite uleaf by (auto; lia).
    destruct (dec t (win data off (tlen t))) as [x|]; [|discriminate].
    cbn [store vs_value vs_key bind vs_index vs_stack].
    destruct (decm ms (win data (off + tlen t) (mlen ms))) as [r|] eqn:E; [|discriminate]. injection D as <-.
    destruct (IH F2 W2 (Some nm) (dset nm x d) (off + tlen t) rest ltac:(lia) ltac:(lia) r E) as (k' & R).
    exists k'. rewrite R. cbn [fold_left put fst snd]. f_equal. lia.
Qed.

Lemma dget_dset k x n d : dget n (dset k x d) = if str_eqb n k then Some x else dget n d.
Proof.
  induction d as [|[a v] d IH]; cbn [dset dget].
  - destruct (str_eqb n k) eqn:E.
    + apply str_eqb_eq in E as ->. rewrite str_eqb_refl. reflexivity.
    + rewrite (proj2 (str_eqb_neq k n)); [reflexivity|]. intros ->. rewrite str_eqb_refl in E. discriminate.
  - destruct (str_eqb a k) eqn:E.
    + apply str_eqb_eq in E as ->. cbn [dget]. destruct (str_eqb n k) eqn:E2.
      * apply str_eqb_eq in E2 as ->. rewrite str_eqb_refl. reflexivity.
      * rewrite (proj2 (str_eqb_neq k n)); [reflexivity|]. intros ->. rewrite str_eqb_refl in E2. discriminate.
    + cbn [dget]. rewrite IH. destruct (str_eqb a n) eqn:E2; [|reflexivity].
      apply str_eqb_eq in E2 as ->. rewrite E. reflexivity.
Qed.
Lemma dset_keys k x d n : In n (map fst (dset k x d)) <-> n = k \/ In n (map fst d).
Proof.
  induction d as [|[a v] d IH]; cbn [dset map fst In]; [intuition auto|].
  destruct (str_eqb a k) eqn:E; cbn [map fst In].
  - apply str_eqb_eq in E as ->. intuition auto.
  - rewrite IH. intuition auto.
Qed.
Lemma dset_nodup k x d : NoDup (map fst d) -> NoDup (map fst (dset k x d)).
Proof.
  induction d as [|[a v] d IH]; cbn [dset map fst]; intros N; [repeat constructor; auto|].
  inversion N as [|? ? NI N']; subst. destruct (str_eqb a k) eqn:E; cbn [map fst].
  - apply str_eqb_eq in E as ->. exact N.
  - constructor; [|auto]. rewrite dset_keys. intros [-> |I]; [rewrite str_eqb_refl in E; discriminate|contradiction].
Qed.
Lemma dget_app n a b : dget n (a ++ b) = match dget n a with Some x => Some x | None => dget n b end.
Proof. induction a as [|[k v] a IH]; cbn [app dget]; [reflexivity|]. destruct (str_eqb k n); auto. Qed.
Lemma puts_last l : forall d, (NoDup (map fst d) -> NoDup (map fst (fold_left put l d))) /\
  forall n, dget n (fold_left put l d) = match dget n (rev l) with Some x => Some x | None => dget n d end.
Proof.
  induction l as [|[k x] l IH]; intros d; [split; auto|]. cbn [fold_left put fst snd]. destruct (IH (dset k x d)) as [A B]. split.
  - intros N. apply A. apply dset_nodup. exact N.
  - intros n. rewrite B. cbn [rev]. rewrite dget_app. destruct (dget n (rev l)); [reflexivity|]. cbn [dget]. rewrite dget_dset.
    destruct (str_eqb n k) eqn:E.
    + apply str_eqb_eq in E as ->. rewrite str_eqb_refl. reflexivity.
    + destruct (str_eqb k n) eqn:E2; [|reflexivity]. apply str_eqb_eq in E2 as ->. rewrite str_eqb_refl in E. discriminate.
Qed.

Lemma exec_unpack_any ms data off d : wf_ty (TRec ms) -> Forall (fun m => is_rec (snd m) = false) ms -> tlen (TRec ms) < 2 ^ 32 -> bytes_ok data ->
  0 <= off -> off + tlen (TRec ms) <= len data -> dec (TRec ms) (win data off (tlen (TRec ms))) = Some (VDict d) ->
  exec_unpack_prog (head Unpack (tlen (TRec ms)) ++ body Unpack (TRec ms)) data off = Ok (VDict (fold_left put d [])).
Proof.
  intros W F T B O L D. rewrite exec_unpack_prog_start by (pose proof (tlen_nonneg _ W); lia).
  replace (len data - off <? tlen (TRec ms)) with false by lia. rewrite dec_rec in D. fold (mlen ms) in *. apply wf_rec in W as [NE W].
  destruct (decm ms (win data off (mlen ms))) as [d'|] eqn:E; [|discriminate]. injection D as ->.
  rewrite body_rec. cbn [app].
  rewrite (urun_step _ _ _ _ _ _ _ (parse_enter (mbody Unpack ms ++ [31]))) by reflexivity.
  cbn [exec_unpack u_record_enter vs_key vs_index vs_stack bind].
  destruct (umembers_any data B ms F W None [] off [31] O L d E) as [k' ->].
  rewrite (urun_step _ _ _ _ _ _ _ (parse_leave [])) by reflexivity. reflexivity.
Qed.
