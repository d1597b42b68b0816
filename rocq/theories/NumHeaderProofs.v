From Coq Require Import ZifyBool ZifyNat Lia.
From Verif Require Import Py PyLemmas NumHeaderModel NumHeaderSpec.
Ltac Zify.zify_post_hook ::= Z.div_mod_to_equations.

Lemma encode16_wire n : 0 <= n < 32896 -> encode16 n = Ok (wire16 n).
Proof.
  intros H. unfold encode16, encode_, wire16.
  rewrite land_255, shiftr_div by lia. change (2 ^ 8) with 256.
  destruct (Z.ltb_spec n 128).
  { apply mk_bytes_ok. repeat constructor; unfold byte_ok; lia. }
  cbn [Z.eqb Pos.eqb].
  destruct (Z.ltb_spec n 32768).
  { rewrite lor_128 by lia. apply mk_bytes_ok. repeat constructor; unfold byte_ok; lia. }
  replace (n <? 32896) with true by lia.
  rewrite land_255. replace ((n - 32768) mod 256) with (n - 32768) by lia.
  apply mk_bytes_ok. repeat constructor; unfold byte_ok; lia.
Qed.

Lemma encode_neg n mode : n < 0 -> encode_ n mode = Err ValueError.
Proof.
  intros. unfold encode_. replace (n <? 128) with true by lia.
  unfold mk_bytes. cbn [forallb]. unfold byte_okb.
  replace ((0 <=? n) && (n <? 256) && true) with false by lia. auto.
Qed.

Lemma encode16_rejects n : ~ 0 <= n < 32896 -> encode16 n = Err ValueError.
Proof.
  intros H. destruct (Z.ltb_spec n 0); [apply encode_neg; auto|].
  unfold encode16, encode_. replace (n <? 128) with false by lia. cbn [Z.eqb Pos.eqb].
  replace (n <? 32768) with false by lia. replace (n <? 32896) with false by lia. auto.
Qed.

Lemma encode32_wire n : 0 <= n < 2 ^ 31 -> encode32 n = Ok (wire32 n).
Proof.
  intros H. unfold encode32, encode_, wire32.
  destruct (Z.ltb_spec n 128).
  { apply mk_bytes_ok. repeat constructor; unfold byte_ok; lia. }
  cbn [Z.eqb Pos.eqb]. change (2 ^ 31) with 2147483648 in H.
  replace (n <? 2147483648) with true by lia.
  rewrite !land_255, !shiftr_div by lia.
  change (2 ^ 24) with 16777216. change (2 ^ 16) with 65536. change (2 ^ 8) with 256.
  replace (n / 16777216 mod 256) with (n / 16777216) by lia.
  rewrite lor_128 by lia.
  apply mk_bytes_ok. repeat constructor; unfold byte_ok; lia.
Qed.

Lemma encode32_rejects n : ~ 0 <= n < 2 ^ 31 -> encode32 n = Err ValueError.
Proof.
  intros H. destruct (Z.ltb_spec n 0); [apply encode_neg; auto|].
  change (2 ^ 31) with 2147483648 in H.
  unfold encode32, encode_. replace (n <? 128) with false by lia. cbn [Z.eqb Pos.eqb].
  replace (n <? 2147483648) with false by lia. auto.
Qed.

Lemma decode16_wire n pre tail e :
  0 <= n < 32896 -> end_allows e (len pre) (len (wire16 n)) ->
  decode16 (pre ++ wire16 n ++ tail) (len pre) e = Ok (len (wire16 n), Some n).
Proof.
  intros H He. unfold decode16, decode_.
  pose proof (len_nonneg pre). pose proof (len_nonneg tail).
  set (fin := match e with None => _ | Some e => e end).
  assert (Hf : len pre + len (wire16 n) <= fin).
  { subst fin. destruct e; cbn in He; auto. rewrite !len_app. lia. }
  unfold wire16 in *.
  destruct (Z.ltb_spec n 128).
  { rewrite len_cons, len_nil in *. replace (len pre + 1 <=? fin) with true by lia.
    cbn [app]. rewrite index_mid. cbn [bind]. rewrite land_128 by (unfold byte_ok; lia).
    replace (n <? 128) with true by lia. auto. }
  destruct (Z.ltb_spec n 32768).
  { rewrite !len_cons, len_nil in *. replace (len pre + 1 <=? fin) with true by lia.
    cbn [app]. rewrite index_mid. cbn [bind]. rewrite land_128 by (unfold byte_ok; lia).
    replace (128 + n / 256 <? 128) with false by lia. cbn [negb Z.eqb Pos.eqb].
    replace (len pre + 2 <=? fin) with true by lia.
    rewrite index_mid1. cbn [bind].
    rewrite land_127. rewrite lor_shiftl by lia. change (2 ^ 8) with 256.
    replace ((128 + n / 256) mod 128 * 256 + n mod 256) with n by lia.
    replace (n <? 128) with false by lia. auto. }
  { rewrite !len_cons, len_nil in *. replace (len pre + 1 <=? fin) with true by lia.
    cbn [app]. rewrite index_mid. cbn [bind]. change (Z.land 128 128 =? 0) with false.
    cbn [negb Z.eqb Pos.eqb].
    replace (len pre + 2 <=? fin) with true by lia.
    rewrite index_mid1. cbn [bind].
    rewrite land_127. rewrite lor_shiftl by lia. change (2 ^ 8) with 256.
    replace (128 mod 128 * 256 + (n - 32768)) with (n - 32768) by lia.
    replace (n - 32768 <? 128) with true by lia.
    replace (n - 32768 + 32768) with n by lia. auto. }
Qed.

Lemma decode32_wire n pre tail e :
  0 <= n < 2 ^ 31 -> end_allows e (len pre) (len (wire32 n)) ->
  decode32 (pre ++ wire32 n ++ tail) (len pre) e = Ok (len (wire32 n), Some n).
Proof.
  intros H He. unfold decode32, decode_.
  pose proof (len_nonneg pre). pose proof (len_nonneg tail).
  set (fin := match e with None => _ | Some e => e end).
  assert (Hf : len pre + len (wire32 n) <= fin).
  { subst fin. destruct e; cbn in He; auto. rewrite !len_app. lia. }
  clearbody fin. clear He.
  unfold wire32 in *.
  change (2 ^ 24) with 16777216 in *. change (2 ^ 16) with 65536 in *. change (2 ^ 8) with 256 in *.
  change (2 ^ 31) with 2147483648 in H.
  destruct (Z.ltb_spec n 128).
  { rewrite len_cons, len_nil in *. replace (len pre + 1 <=? fin) with true by lia.
    cbn [app]. rewrite index_mid. cbn [bind]. rewrite land_128 by (unfold byte_ok; lia).
    replace (n <? 128) with true by lia. auto. }
  { rewrite !len_cons, len_nil in *. replace (len pre + 1 <=? fin) with true by lia.
    cbn [app]. rewrite index_mid. cbn [bind]. rewrite land_128 by (unfold byte_ok; lia).
    replace (128 + n / 16777216 <? 128) with false by lia. cbn [negb Z.eqb Pos.eqb].
    replace (len pre + 4 <=? fin) with true by lia.
    replace (pre ++ 128 + n / 16777216 :: n / 65536 mod 256 :: n / 256 mod 256 :: n mod 256 :: tail)
      with ((pre ++ [128 + n / 16777216]) ++ [n / 65536 mod 256; n / 256 mod 256; n mod 256] ++ tail)
      by (rewrite <- app_assoc; auto).
    replace (len pre + 1) with (len (pre ++ [128 + n / 16777216])) by (rewrite len_app, len_cons, len_nil; lia).
    replace (len pre + 4) with (len (pre ++ [128 + n / 16777216]) + len [n / 65536 mod 256; n / 256 mod 256; n mod 256])
      by (rewrite len_app, !len_cons, !len_nil; lia).
    rewrite slice_mid.
    rewrite land_127.
    replace ((128 + n / 16777216) mod 128) with (n / 16777216) by lia.
    rewrite <- !Z.lor_assoc.
    rewrite (lor_shiftl (n / 256 mod 256)) by lia. change (2 ^ 8) with 256.
    rewrite (lor_shiftl (n / 65536 mod 256)) by (change (2 ^ 16) with 65536; lia). change (2 ^ 16) with 65536.
    rewrite (lor_shiftl (n / 16777216)) by (change (2 ^ 24) with 16777216; lia). change (2 ^ 24) with 16777216.
    do 3 f_equal. lia. }
Qed.

Lemma wire32_len n : len (wire32 n) = if n <? 128 then 1 else 4.
Proof. unfold wire32. ite; auto. Qed.

Lemma wire16_len n : len (wire16 n) = if n <? 128 then 1 else 2.
Proof. unfold wire16. ite; auto. Qed.

Lemma wire32_ok n : 0 <= n < 2 ^ 31 -> bytes_ok (wire32 n).
Proof.
  intros. pose proof (encode32_wire n H) as E. unfold encode32, encode_ in E.
  destruct (n <? 128). { apply mk_bytes_inv in E. destruct E; congruence. }
  cbn [Z.eqb Pos.eqb] in E. destruct (n <? 2147483648); [|discriminate].
  apply mk_bytes_inv in E. destruct E as [E1 E2]. rewrite E1; auto.
Qed.

Lemma wire16_ok n : 0 <= n < 32896 -> bytes_ok (wire16 n).
Proof.
  intros. unfold wire16. ite; repeat constructor; unfold byte_ok; lia.
Qed.

Lemma prefix_free32 n m t u :
  0 <= n < 2 ^ 31 -> 0 <= m < 2 ^ 31 ->
  wire32 n ++ t = wire32 m ++ u -> n = m /\ t = u.
Proof.
  intros Hn Hm E.
  pose proof (decode32_wire n [] t None Hn I) as D1.
  pose proof (decode32_wire m [] u None Hm I) as D2.
  cbn [app] in *. rewrite E in D1. rewrite D1 in D2. invc D2.
  split; auto. apply app_inv_head in E. auto.
Qed.

Lemma prefix_free16 n m t u :
  0 <= n < 32896 -> 0 <= m < 32896 ->
  wire16 n ++ t = wire16 m ++ u -> n = m /\ t = u.
Proof.
  intros Hn Hm E.
  pose proof (decode16_wire n [] t None Hn I) as D1.
  pose proof (decode16_wire m [] u None Hm I) as D2.
  cbn [app] in *. rewrite E in D1. rewrite D1 in D2. invc D2.
  split; auto. apply app_inv_head in E. auto.
Qed.

(** Every accepted 16-bit prefix is canonical. *)
Lemma decode16_canonical data k v :
  bytes_ok data -> decode16 data 0 None = Ok (k, Some v) ->
  0 <= v < 32896 /\ exists tail, data = wire16 v ++ tail /\ k = len (wire16 v).
Proof.
  intros Hok. unfold decode16, decode_.
  destruct data as [|b1 r]; [intros H; vm_compute in H; discriminate|].
  rewrite len_cons. pose proof (len_nonneg r). replace (0 + 1 <=? 1 + len r) with true by lia.
  change (index (b1 :: r) 0) with (Ok b1). cbn [bind].
  invc Hok. rewrite land_128 by auto. unfold byte_ok in *.
  destruct (b1 <? 128) eqn:E1; cbn [negb Z.eqb Pos.eqb].
  { intros E. invc E. split; [lia|]. exists r. unfold wire16. rewrite E1. auto. }
  destruct r as [|b2 r].
  { change (0 + 2 <=? 1 + @len Z []) with false. discriminate. }
  rewrite len_cons in *. pose proof (len_nonneg r). replace (0 + 2 <=? 1 + (1 + len r)) with true by lia.
  change (index (b1 :: b2 :: r) (0 + 1)) with (Ok b2). cbn [bind].
  invc H3. unfold byte_ok in *.
  rewrite land_127, lor_shiftl by lia. change (2 ^ 8) with 256.
  intros E. invc E. unfold wire16. ite; cbn [app]; split; try lia; exists r; try (split; auto; f_equal; [lia|f_equal; lia]).
Qed.

(** The 32-bit prefix: accepted values are in range. *)
Lemma decode32_range data k v :
  bytes_ok data -> decode32 data 0 None = Ok (k, Some v) ->
  0 <= v < 2 ^ 31 /\ (k = 1 /\ v < 128 \/ k = 4) /\ k <= len data.
Proof.
  intros Hok. unfold decode32, decode_. change (2 ^ 31) with 2147483648.
  destruct data as [|b1 r]; [intros H; vm_compute in H; discriminate|].
  rewrite len_cons. pose proof (len_nonneg r). replace (0 + 1 <=? 1 + len r) with true by lia.
  change (index (b1 :: r) 0) with (Ok b1). cbn [bind].
  invc Hok. rewrite land_128 by auto. unfold byte_ok in *.
  destruct (b1 <? 128) eqn:E1; cbn [negb Z.eqb Pos.eqb].
  { intros E. invc E. lia. }
  destruct r as [|b2 [|b3 [|b4 r]]].
  1,2,3: match goal with |- context [0 + 4 <=? ?x] => change (0 + 4 <=? x) with false end; discriminate.
  rewrite !len_cons in *. pose proof (len_nonneg r).
  replace (0 + 4 <=? 1 + (1 + (1 + (1 + len r)))) with true by lia.
  replace (slice (b1 :: b2 :: b3 :: b4 :: r) (0 + 1) (0 + 4)) with [b2; b3; b4].
  2:{ symmetry. exact (slice_mid [b1] [b2; b3; b4] r). }
  invc H3. invc H6. invc H7. unfold byte_ok in *.
  rewrite land_127. rewrite <- !Z.lor_assoc.
  rewrite (lor_shiftl b3) by lia. change (2 ^ 8) with 256.
  rewrite (lor_shiftl b2) by (change (2 ^ 16) with 65536; lia). change (2 ^ 16) with 65536.
  rewrite lor_shiftl by (change (2 ^ 24) with 16777216; lia). change (2 ^ 24) with 16777216.
  intros E. invc E. lia.
Qed.

(** Incomplete input is reported as such. *)
Lemma decode_truncated mode n p q r :
  (mode = 16 \/ mode = 32) ->
  encode_ n mode = Ok p -> p = q ++ r -> r <> [] -> decode_ q mode 0 None = Ok (0, None).
Proof.
  intros Hm He Hp Hr.
  assert (Hb : bytes_ok p /\ (p = [n] \/ (exists b1 b2, mode = 16 /\ p = [b1; b2] /\ 128 <= b1)
               \/ (exists b1 b2 b3 b4, mode = 32 /\ p = [b1; b2; b3; b4] /\ 128 <= b1))).
  { destruct Hm as [-> | ->].
    - destruct (Z.leb_spec 0 n); [destruct (Z.ltb_spec n 32896)|].
      + change (encode_ n 16) with (encode16 n) in He. rewrite encode16_wire in He by lia. invc He.
        rewrite H2 in *. split; [rewrite <- H2; apply wire16_ok; lia|]. rewrite <- H2. unfold wire16. ite; auto.
        * right; left; do 2 eexists; split; auto. split; eauto. lia.
        * right; left; do 2 eexists; split; auto. split; eauto. lia.
      + change (encode_ n 16) with (encode16 n) in He. rewrite encode16_rejects in He by lia. discriminate.
      + rewrite encode_neg in He by lia. discriminate.
    - destruct (Z.leb_spec 0 n); [destruct (Z.ltb_spec n (2 ^ 31))|].
      + change (encode_ n 32) with (encode32 n) in He. rewrite encode32_wire in He by lia. invc He.
        rewrite H2 in *. split; [rewrite <- H2; apply wire32_ok; lia|]. rewrite <- H2. unfold wire32. ite; auto.
        right; right; do 4 eexists; split; auto. split; eauto. lia.
      + change (encode_ n 32) with (encode32 n) in He. rewrite encode32_rejects in He by lia. discriminate.
      + rewrite encode_neg in He by lia. discriminate. }
  destruct Hb as [Hok Hb].
  assert (Hq : q = [] \/ exists b1 q', q = b1 :: q' /\ 128 <= b1 /\ len q < (if mode =? 16 then 2 else 4)).
  { destruct q as [|b1 q']; [auto|]. right. exists b1, q'. split; auto.
    assert (0 < len r) by (destruct r; [congruence | rewrite len_cons; pose proof (len_nonneg r); lia]).
    assert (Hl : len p = len (b1 :: q') + len r) by (rewrite Hp; apply len_app).
    rewrite len_cons in *. pose proof (len_nonneg q').
    destruct Hb as [Hb | [(c1 & c2 & -> & Hb & H128) | (c1 & c2 & c3 & c4 & -> & Hb & H128)]];
      rewrite Hb in Hp, Hl; rewrite ?len_cons, len_nil in Hl; invc Hp; cbn [Z.eqb Pos.eqb]; lia. }
  destruct Hq as [-> | (b1 & q' & -> & H128 & Hl)].
  { unfold decode_. cbn. auto. }
  assert (Hb1 : byte_ok b1) by (rewrite Hp in Hok; invc Hok; auto).
  unfold decode_. rewrite len_cons in *. pose proof (len_nonneg q').
  replace (0 + 1 <=? 1 + len q') with true by lia.
  change (index (b1 :: q') 0) with (Ok b1). cbn [bind]. rewrite land_128 by auto.
  replace (b1 <? 128) with false by lia. cbn [negb].
  destruct Hm as [-> | ->]; cbn [Z.eqb Pos.eqb] in *.
  - replace (0 + 2 <=? 1 + len q') with false by lia. auto.
  - replace (0 + 4 <=? 1 + len q') with false by lia. auto.
Qed.

(** Inside the buffer the decoder never fails and never reads too far. *)
Lemma decode_total data mode off fin :
  bytes_ok data -> (mode = 16 \/ mode = 32) -> 0 <= off <= fin -> fin <= len data ->
  exists k v, decode_ data mode off (Some fin) = Ok (k, v) /\ 0 <= k /\ off + k <= fin /\
    (k = 0 <-> v = None).
Proof.
  intros Hok Hm Ho Hf. unfold decode_.
  destruct (Z.leb_spec (off + 1) fin).
  2:{ exists 0, None. repeat split; auto; lia. }
  destruct (index_nth data off) as (b1 & Hn & ->); [lia|]. cbn [bind].
  assert (byte_ok b1) by (unfold bytes_ok in Hok; rewrite Forall_forall in Hok; apply Hok; eapply nth_error_In; eauto).
  rewrite land_128 by auto. destruct (b1 <? 128); cbn [negb].
  { exists 1, (Some b1). repeat split; try lia; discriminate. }
  destruct Hm as [-> | ->]; cbn [Z.eqb Pos.eqb].
  - destruct (Z.leb_spec (off + 2) fin).
    + destruct (index_nth data (off + 1)) as (b2 & _ & ->); [lia|]. cbn [bind].
      eexists 2, _. repeat split; try lia; discriminate.
    + exists 0, None. repeat split; auto; lia.
  - destruct (Z.leb_spec (off + 4) fin).
    + pose proof (len_slice data (off + 1) (off + 4) ltac:(lia) ltac:(lia)) as L.
      destruct (slice data (off + 1) (off + 4)) as [|b2 [|b3 [|b4 [|]]]];
        rewrite ?len_cons, ?len_nil in L; try lia.
      * eexists 4, _. repeat split; try lia; discriminate.
      * pose proof (len_nonneg l). lia.
    + exists 0, None. repeat split; auto; lia.
Qed.
