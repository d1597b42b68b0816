From Coq Require Import ZifyBool ZifyNat Lia.
From Verif Require Import Py PyLemmas RmfModel RmfSpec.
Ltac Zify.zify_post_hook ::= Z.div_mod_to_equations.

Ltac pow2s :=
  change (2 ^ 31) with 2147483648 in *; change (2 ^ 30) with 1073741824 in *;
  change (2 ^ 24) with 16777216 in *; change (2 ^ 16) with 65536 in *;
  change (2 ^ 8) with 256 in *.

Lemma lor_64 b : 0 <= b < 64 -> Z.lor b 64 = 64 + b.
Proof. intros. rewrite Z.lor_comm. exact (lor_shiftl 1 b 6 ltac:(lia) ltac:(lia)). Qed.

Lemma lor_128_r b : 0 <= b < 128 -> Z.lor b 128 = 128 + b.
Proof. intros. rewrite Z.lor_comm. apply lor_128. auto. Qed.

Lemma packHeader_wire a more : 0 <= a < 2 ^ 30 -> packHeader a more = Ok (hdr_wire a more).
Proof.
  intros H. pow2s. unfold packHeader, hdr_wire, RMF_ADDR_BIT_MASK, RMF_MORE_BIT_MASK, RMF_HIGH_BIT_MASK.
  rewrite !land_63, !land_255, !shiftr_div by lia. pow2s.
  destruct (Z.ltb_spec a 16384).
  - replace (a / 256 mod 64) with (a / 256) by lia.
    destruct more; rewrite ?lor_64 by lia; apply mk_bytes_ok; repeat constructor; unfold byte_ok; lia.
  - replace (a <? 1073741824) with true by lia.
    replace (a / 16777216 mod 64) with (a / 16777216) by lia.
    destruct more; rewrite ?lor_64 by lia; rewrite lor_128_r by lia.
    + rewrite mk_bytes_ok by (repeat constructor; unfold byte_ok; lia).
      do 2 f_equal. lia.
    + rewrite mk_bytes_ok by (repeat constructor; unfold byte_ok; lia). do 2 f_equal.
Qed.

Lemma packHeader_rejects a more : 2 ^ 30 <= a -> packHeader a more = Err ValueError.
Proof.
  intros H. pow2s. unfold packHeader. replace (a <? 16384) with false by lia.
  replace (a <? 1073741824) with false by lia. auto.
Qed.

Lemma hdr_wire_ok a more : 0 <= a < 2 ^ 30 -> bytes_ok (hdr_wire a more).
Proof. intros. pow2s. unfold hdr_wire. pow2s. destruct more; ite; repeat constructor; unfold byte_ok; lia. Qed.

(** Bit tests on bytes. *)
Lemma bit64 b : byte_ok b -> bit_set b 64 = (64 <=? b mod 128).
Proof.
  intros. apply Bool.eqb_prop.
  exact (all_bytes_spec (fun b => Bool.eqb (bit_set b 64) (64 <=? b mod 128)) eq_refl b H).
Qed.
Lemma bit128 b : byte_ok b -> bit_set b 128 = (128 <=? b).
Proof.
  intros. apply Bool.eqb_prop.
  exact (all_bytes_spec (fun b => Bool.eqb (bit_set b 128) (128 <=? b)) eq_refl b H).
Qed.

Lemma unpackHeader_wire a more payload :
  0 <= a < 2 ^ 30 -> (a < 16384 \/ payload <> []) ->
  unpackHeader (hdr_wire a more ++ payload) = (len (hdr_wire a more), Some a, more).
Proof.
  intros H Hp. pow2s. unfold unpackHeader, hdr_wire, RMF_ADDR_BIT_MASK, RMF_MORE_BIT_MASK, RMF_HIGH_BIT_MASK in *.
  set (m := if more then 64 else 0). assert (Hm : m = 0 \/ m = 64) by (destruct more; auto).
  assert (Hmore : forall x, 0 <= x < 64 -> (64 <=? m + x) = more) by (intros; subst m; destruct more; lia).
  pow2s. pose proof (len_nonneg payload).
  destruct (Z.ltb_spec a 16384); cbn [app]; rewrite !len_cons, ?len_nil.
  - replace (1 <? 1 + (1 + len payload)) with true by lia.
    rewrite bit128, bit64 by (unfold byte_ok; lia).
    replace ((m + a / 256) mod 128) with (m + a / 256) by lia.
    rewrite Hmore by lia. replace (128 <=? m + a / 256) with false by lia.
    rewrite land_63, lor_shiftl by lia. pow2s.
    replace ((m + a / 256) mod 64 * 256 + a mod 256) with a by lia. auto.
  - assert (0 < len payload).
    { destruct Hp as [Hp|Hp]; [lia|]. destruct payload; [congruence|]. rewrite len_cons in *. pose proof (len_nonneg payload). lia. }
    replace (1 <? 1 + (1 + (1 + (1 + len payload)))) with true by lia.
    replace (4 <? 1 + (1 + (1 + (1 + len payload)))) with true by lia.
    rewrite bit128, bit64 by (unfold byte_ok; lia).
    replace ((128 + m + a / 16777216) mod 128) with (m + a / 16777216) by lia.
    rewrite Hmore by lia. replace (128 <=? 128 + m + a / 16777216) with true by lia.
    rewrite land_63. replace ((128 + m + a / 16777216) mod 64) with (a / 16777216) by lia.
    rewrite <- !Z.lor_assoc.
    rewrite (lor_shiftl (a / 256 mod 256)) by lia. pow2s.
    rewrite (lor_shiftl (a / 65536 mod 256)) by (pow2s; lia). pow2s.
    rewrite (lor_shiftl (a / 16777216)) by (pow2s; lia). pow2s.
    do 2 f_equal. do 2 f_equal. lia.
Qed.

Lemma unpackHeader_bare a more :
  16384 <= a < 2 ^ 30 -> unpackHeader (hdr_wire a more) = (0, None, more).
Proof.
  intros H. pow2s. unfold unpackHeader, hdr_wire, RMF_ADDR_BIT_MASK, RMF_MORE_BIT_MASK, RMF_HIGH_BIT_MASK in *.
  set (m := if more then 64 else 0). assert (Hm : m = 0 \/ m = 64) by (destruct more; auto).
  assert (Hmore : forall x, 0 <= x < 64 -> (64 <=? m + x) = more) by (intros; subst m; destruct more; lia).
  pow2s. replace (a <? 16384) with false by lia.
  change (len _) with 4.
  change (1 <? 4) with true. change (4 <? 4) with false. cbn [app].
  rewrite bit128, bit64 by (unfold byte_ok; lia).
  replace ((128 + m + a / 16777216) mod 128) with (m + a / 16777216) by lia.
  rewrite Hmore by lia. replace (128 <=? 128 + m + a / 16777216) with true by lia. auto.
Qed.

Lemma unpackHeader_sound data k a more :
  bytes_ok data -> unpackHeader data = (k, Some a, more) ->
  0 <= a < 2 ^ 30 /\ ((k = 2 /\ a < 16384 /\ 2 <= len data) \/ (k = 4 /\ 5 <= len data)) /\
  exists b r, data = b :: r /\ more = (64 <=? b mod 128).
Proof.
  intros Hok. pow2s. unfold unpackHeader, RMF_ADDR_BIT_MASK, RMF_MORE_BIT_MASK, RMF_HIGH_BIT_MASK.
  destruct (Z.ltb_spec 1 (len data)); [|discriminate].
  destruct data as [|b1 [|b2 rest]]; try discriminate.
  invc Hok. invc H3. rewrite bit128, bit64, land_63 by auto. unfold byte_ok in *.
  destruct (128 <=? b1) eqn:E1.
  - destruct (Z.ltb_spec 4 (len (b1 :: b2 :: rest))); [|discriminate].
    destruct rest as [|b3 [|b4 rest]]; try discriminate.
    invc H5. invc H7. unfold byte_ok in *.
    rewrite <- !Z.lor_assoc.
    rewrite (lor_shiftl b3) by lia. pow2s.
    rewrite (lor_shiftl b2) by (pow2s; lia). pow2s.
    rewrite lor_shiftl by (pow2s; lia). pow2s.
    intros E. invc E. split; [lia|]. split; [right; lia|]. eauto.
  - rewrite lor_shiftl by lia. pow2s. intros E. invc E. split; [lia|]. split; [left; lia|]. eauto.
Qed.

(** None is returned exactly for too short input; the byte count is then 0. *)
Lemma unpackHeader_none data k more :
  unpackHeader data = (k, None, more) -> k = 0 /\ len data < 5.
Proof.
  unfold unpackHeader.
  destruct (Z.ltb_spec 1 (len data)).
  2:{ intros E. invc E. lia. }
  destruct data as [|b1 [|b2 rest]]; try (rewrite ?len_cons, len_nil in *; lia).
  destruct (bit_set b1 RMF_HIGH_BIT_MASK).
  - destruct (Z.ltb_spec 4 (len (b1 :: b2 :: rest))).
    + destruct rest as [|b3 [|b4 rest]]; try (rewrite ?len_cons, len_nil in *; lia). discriminate.
    + intros E. invc E. lia.
  - discriminate.
Qed.

(** ** Fixed-width numbers *)

Lemma le_num_bytes n v : le_bytes n v = le_num n v.
Proof.
  revert v; induction n; intros; cbn; auto.
  rewrite land_255, shiftr_div by lia. f_equal. apply IHn.
Qed.

Lemma pack_uint_wire e n v :
  0 <= v < 2 ^ (8 * Z.of_nat n) -> pack_uint e n v = Ok (num_wire e n v).
Proof.
  intros H. unfold pack_uint. rewrite shiftl_1 by lia.
  replace ((0 <=? v) && (v <? 2 ^ (8 * Z.of_nat n))) with true by lia.
  unfold num_wire. rewrite le_num_bytes. auto.
Qed.

Lemma num_wire_facts e n v :
  0 <= v < 2 ^ (8 * Z.of_nat n) ->
  len (num_wire e n v) = Z.of_nat n /\ bytes_ok (num_wire e n v) /\ unpack_uint e (num_wire e n v) = v.
Proof.
  intros H. destruct (pack_uint_ok e n v H) as (b & E & L & O & U).
  rewrite pack_uint_wire in E by auto. injection E as E. rewrite E.
  repeat split; auto. unfold len. lia.
Qed.

Lemma num_wire_len e n v : len (num_wire e n v) = Z.of_nat n.
Proof.
  assert (L : forall n v, length (le_num n v) = n) by (induction n0; intros; cbn; auto).
  unfold len. destruct e; cbn; rewrite ?rev_length, L; auto.
Qed.

Lemma num_wire_value e l : bytes_ok l -> num_wire e (length l) (unpack_uint e l) = l.
Proof.
  intros. destruct e; cbn; rewrite <- le_num_bytes.
  - apply le_bytes_value; auto.
  - rewrite <- (rev_length l). rewrite le_bytes_value by (apply -> bytes_ok_rev; auto). apply rev_involutive.
Qed.

(** ** FileInfo *)

Lemma encode_ascii_ok s : Forall (fun c => 0 <= c < 128) s -> encode_ascii s = Ok s.
Proof.
  intros. unfold encode_ascii. replace (forallb _ s) with true; auto.
  symmetry. apply forallb_forall. rewrite Forall_forall in H. intros x Hx. specialize (H x Hx). lia.
Qed.

Lemma encode_ascii_inv s b : encode_ascii s = Ok b -> b = s /\ Forall (fun c => 0 <= c < 128) s.
Proof.
  unfold encode_ascii. destruct (forallb _ s) eqn:E; intros H; invc H. split; auto.
  rewrite forallb_forall in E. apply Forall_forall. intros x Hx. specialize (E x Hx). lia.
Qed.

Lemma until_nul_id b : Forall (fun c => c <> 0) b -> until_nul b = b.
Proof.
  induction b as [|x r IH]; intros H; cbn; auto. invc H.
  destruct (Z.eqb_spec x 0); [congruence|]. rewrite IH; auto.
Qed.

Lemma packFileInfo_wire e f a : finfo_ok f a -> packFileInfo f e = Ok (finfo_wire e f a).
Proof.
  intros (Ha & R1 & R2 & R3 & R4 & L & O & N). unfold packFileInfo. rewrite Ha.
  rewrite encode_ascii_ok by (eapply Forall_impl; [|exact N]; cbn; intros; lia). cbn [bind].
  rewrite !pack_uint_wire; try assumption; [|unfold RMF_CMD_FILE_INFO; split; [lia|reflexivity]].
  cbn [bind]. f_equal. unfold finfo_wire.
  rewrite pack_s_exact. replace (pack_s 32 (fi_digestData f)) with (fi_digestData f).
  - reflexivity.
  - rewrite <- L. symmetry. apply pack_s_exact.
Qed.

Lemma slice_at {A} (l a b c : list A) i j :
  l = a ++ b ++ c -> i = len a -> j = len a + len b -> slice l i j = b.
Proof. intros -> -> ->. apply slice_mid. Qed.

Lemma slice_from_at {A} (l a b : list A) i : l = a ++ b -> i = len a -> slice_from l i = b.
Proof. intros -> ->. apply slice_from_app. Qed.

Lemma unpackFileInfo_tail e f a tl : finfo_ok f a -> tl = [] \/ (exists junk, tl = 0 :: junk) ->
  unpackFileInfo (finfo_wire e f a ++ tl) e = Ok (Some f).
Proof.
  intros (Ha & R1 & R2 & R3 & R4 & L & O & N) T.
  unfold unpackFileInfo, finfo_wire, RMF_FILEINFO_BASE_LEN.
  rewrite <- !app_assoc. set (nm := fi_name f ++ tl).
  assert (until_nul nm = fi_name f) as U.
  { unfold nm. assert (Forall (fun c => c <> 0) (fi_name f)) as NZ by (eapply Forall_impl; [|exact N]; cbn; intros; lia).
    destruct T as [->|[junk ->]]; [rewrite app_nil_r; apply until_nul_id, NZ|].
    clear - NZ. induction NZ as [|x r X R IH]; [reflexivity|]. cbn [app until_nul]. destruct (Z.eqb_spec x 0); [congruence|]. rewrite IH. reflexivity. }
  set (w0 := num_wire e 4 3). set (w1 := num_wire e 4 a). set (w2 := num_wire e 4 (fi_length f)).
  set (w3 := num_wire e 2 (fi_fileType f)). set (w4 := num_wire e 2 (fi_digestType f)).
  assert (L0 : len w0 = 4) by apply num_wire_len. assert (L1 : len w1 = 4) by apply num_wire_len.
  assert (L2 : len w2 = 4) by apply num_wire_len. assert (L3 : len w3 = 2) by apply num_wire_len.
  assert (L4 : len w4 = 2) by apply num_wire_len.
  rewrite !len_app. pose proof (len_nonneg nm).
  replace (48 <=? _) with true by lia.
  rewrite (slice_at _ w0 w1 (w2 ++ w3 ++ w4 ++ fi_digestData f ++ nm) 4 8) by (rewrite ?app_assoc; auto; lia).
  rewrite (slice_at _ (w0 ++ w1) w2 (w3 ++ w4 ++ fi_digestData f ++ nm) 8 12) by (rewrite ?len_app, ?app_assoc; auto; lia).
  rewrite (slice_at _ (w0 ++ w1 ++ w2) w3 (w4 ++ fi_digestData f ++ nm) 12 14) by (rewrite ?len_app, ?app_assoc; auto; lia).
  rewrite (slice_at _ (w0 ++ w1 ++ w2 ++ w3) w4 (fi_digestData f ++ nm) 14 16) by (rewrite ?len_app, ?app_assoc; auto; lia).
  rewrite (slice_at _ (w0 ++ w1 ++ w2 ++ w3 ++ w4) (fi_digestData f) nm 16 48) by (rewrite ?len_app, ?app_assoc; auto; lia).
  rewrite (slice_from_at _ (w0 ++ w1 ++ w2 ++ w3 ++ w4 ++ fi_digestData f) nm) by (rewrite ?len_app, ?app_assoc; auto; lia).
  rewrite U.
  rewrite utf8_decode_ascii by (eapply Forall_impl; [|exact N]; cbn; intros; lia).
  cbn [bind].
  subst w1 w2 w3 w4.
  rewrite (proj2 (proj2 (num_wire_facts e 4 a R1))).
  rewrite (proj2 (proj2 (num_wire_facts e 4 (fi_length f) R2))).
  rewrite (proj2 (proj2 (num_wire_facts e 2 (fi_fileType f) R3))).
  rewrite (proj2 (proj2 (num_wire_facts e 2 (fi_digestType f) R4))).
  rewrite <- Ha. destruct f; auto.
Qed.

Lemma unpackFileInfo_wire e f a : finfo_ok f a -> unpackFileInfo (finfo_wire e f a) e = Ok (Some f).
Proof. intros K. rewrite <- (app_nil_r (finfo_wire e f a)). apply unpackFileInfo_tail; auto. Qed.

Lemma packFileInfo_inv e f b :
  packFileInfo f e = Ok b ->
  exists a, fi_address f = Some a /\ 0 <= a < 2 ^ 32 /\ 0 <= fi_length f < 2 ^ 32 /\
    0 <= fi_fileType f < 2 ^ 16 /\ 0 <= fi_digestType f < 2 ^ 16 /\
    Forall (fun c => 0 <= c < 128) (fi_name f) /\ len b = 48 + len (fi_name f).
Proof.
  unfold packFileInfo. destruct (fi_address f) as [a|]; [|discriminate]. intros H.
  inv_bind H. inv_bind H. inv_bind H. inv_bind H. inv_bind H. inv_bind H. invc H.
  apply pack_uint_inv in Ha0, Ha1, Ha2, Ha3, Ha4. apply encode_ascii_inv in Ha.
  destruct Ha as [-> Ha], Ha0 as (_ & E0 & _ & _), Ha1 as (R1 & E1 & _ & _), Ha2 as (R2 & E2 & _ & _),
    Ha3 as (R3 & E3 & _ & _), Ha4 as (R4 & E4 & _ & _).
  exists a. repeat split; auto; try tauto.
  rewrite !len_app, len_pack_s, pack_s_exact by lia. unfold len. lia.
Qed.

(** ** FileOpen *)

Lemma packFileOpen_wire e a :
  0 <= a < 2 ^ 32 -> packFileOpen a e = Ok (num_wire e 4 10 ++ num_wire e 4 a).
Proof.
  intros. unfold packFileOpen. rewrite !pack_uint_wire; auto. unfold RMF_CMD_FILE_OPEN. split; [lia|reflexivity].
Qed.

Lemma packFileOpen_rejects e a : ~ 0 <= a < 2 ^ 32 -> packFileOpen a e = Err StructError.
Proof.
  intros. unfold packFileOpen. rewrite pack_uint_wire by (split; [discriminate|reflexivity]). cbn [bind].
  rewrite pack_uint_err; auto.
Qed.

Lemma unpack_2I_wire e x y :
  0 <= x < 2 ^ 32 -> 0 <= y < 2 ^ 32 ->
  unpack_2I (num_wire e 4 x ++ num_wire e 4 y) e = Ok (x, y).
Proof.
  intros Hx Hy. unfold unpack_2I. rewrite len_app, !num_wire_len. cbn [Z.of_nat].
  change (Z.of_nat 4 + Z.of_nat 4 =? 8) with true.
  rewrite (slice_at _ [] (num_wire e 4 x) (num_wire e 4 y)) by (rewrite ?num_wire_len; auto).
  rewrite (slice_at _ (num_wire e 4 x) (num_wire e 4 y) []) by (rewrite ?num_wire_len, ?app_nil_r; auto).
  rewrite (proj2 (proj2 (num_wire_facts e 4 x Hx))), (proj2 (proj2 (num_wire_facts e 4 y Hy))). auto.
Qed.

Lemma unpack_2I_inv e data x y :
  bytes_ok data -> unpack_2I data e = Ok (x, y) ->
  data = num_wire e 4 x ++ num_wire e 4 y /\ 0 <= x < 2 ^ 32 /\ 0 <= y < 2 ^ 32.
Proof.
  intros Hok. unfold unpack_2I. destruct (Z.eqb_spec (len data) 8); [|discriminate]. intros H.
  assert (Hx : x = unpack_uint e (slice data 0 4)) by congruence.
  assert (Hy : y = unpack_uint e (slice data 4 8)) by congruence. clear H.
  destruct (slice_in data 0 4 ltac:(lia) ltac:(lia)) as (a0 & b0 & c0 & E0 & La0 & Lb0 & S0).
  destruct (slice_in data 4 8 ltac:(lia) ltac:(lia)) as (a1 & b1 & c1 & E1 & La1 & Lb1 & S1).
  rewrite S0 in Hx. rewrite S1 in Hy.
  apply len_zero_inv in La0. subst a0. cbn [app] in E0.
  assert (c1 = []). { apply len_zero_inv. rewrite E1, !len_app in e0. lia. }
  subst c1. rewrite app_nil_r in E1.
  assert (b0 = a1).
  { assert (length b0 = length a1) by (unfold len in *; lia).
    rewrite E0 in E1. apply (f_equal (firstn (length b0))) in E1.
    rewrite firstn_app, firstn_all, Nat.sub_diag, firstn_O, app_nil_r in E1.
    rewrite H, firstn_app, firstn_all, Nat.sub_diag, firstn_O, app_nil_r in E1. auto. }
  subst a1. rewrite E1 in Hok. apply bytes_ok_app in Hok. destruct Hok as [O0 O1].
  assert (L0 : length b0 = 4%nat) by (unfold len in *; lia).
  assert (L1 : length b1 = 4%nat) by (unfold len in *; lia).
  pose proof (num_wire_value e b0 O0) as V0. pose proof (num_wire_value e b1 O1) as V1.
  rewrite L0, <- Hx in V0. rewrite L1, <- Hy in V1.
  assert (RR : forall l, bytes_ok l -> length l = 4%nat -> 0 <= unpack_uint e l < 2 ^ 32).
  { intros l Ol Ll. destruct e; cbn; [pose proof (le_value_range l Ol) as R|
      apply bytes_ok_rev in Ol; pose proof (le_value_range (rev l) Ol) as R; rewrite len_rev in R];
      unfold len in R; rewrite Ll in R; exact R. }
  rewrite V0, V1. subst x y. split; auto.
Qed.

Lemma unpackFileOpen_wire e a :
  0 <= a < 2 ^ 32 -> unpackFileOpen (num_wire e 4 10 ++ num_wire e 4 a) e = Ok a.
Proof.
  intros. unfold unpackFileOpen. rewrite unpack_2I_wire; auto; split; [lia|reflexivity].
Qed.

Lemma unpackFileOpen_inv e data a :
  bytes_ok data -> unpackFileOpen data e = Ok a ->
  data = num_wire e 4 10 ++ num_wire e 4 a /\ 0 <= a < 2 ^ 32.
Proof.
  intros Hok. unfold unpackFileOpen. intros H. apply bind_ok in H. destruct H as ([x y] & H1 & H2).
  apply unpack_2I_inv in H1; auto. unfold RMF_CMD_FILE_OPEN in H2.
  destruct (Z.eqb_spec x 10); cbn in H2; invc H2. tauto.
Qed.

Lemma unpackFileOpen_err e data :
  len data <> 8 -> unpackFileOpen data e = Err StructError.
Proof.
  intros. unfold unpackFileOpen, unpack_2I. destruct (Z.eqb_spec (len data) 8); [congruence|auto].
Qed.

Lemma unpackFileClose_always e data :
  unpackFileClose data e = Err (if len data =? 8 then NameError else StructError).
Proof. unfold unpackFileClose, unpack_2I. destruct (len data =? 8); auto. Qed.

Lemma packFileClose_wire e a :
  0 <= a < 2 ^ 32 -> packFileClose a e = Ok (num_wire e 4 11 ++ num_wire e 4 a).
Proof.
  intros. unfold packFileClose. rewrite !pack_uint_wire; auto. unfold RMF_CMD_FILE_CLOSE. split; [lia|reflexivity].
Qed.

Lemma packFileClose_rejects e a : ~ 0 <= a < 2 ^ 32 -> packFileClose a e = Err StructError.
Proof.
  intros. unfold packFileClose. rewrite pack_uint_wire by (split; [discriminate|reflexivity]). cbn [bind].
  rewrite pack_uint_err; auto.
Qed.
