(** Lemmas about the Python basics of Py.v. *)
From Coq Require Import ZifyBool ZifyNat Lia.
From Verif Require Import Py.
Ltac Zify.zify_post_hook ::= Z.div_mod_to_equations.

(** ** Tactics *)

(** Split on the innermost boolean test or match in the goal. *)
Ltac ite :=
  repeat match goal with
  | |- context [if ?b then _ else _] =>
      lazymatch b with
      | context [if _ then _ else _] => fail
      | _ => destruct b eqn:?
      end
  end.

Ltac invc H := inversion H; subst; clear H.

(** ** Results *)

Lemma bind_ok {A B} (x : res A) (f : A -> res B) b :
  bind x f = Ok b -> exists a, x = Ok a /\ f a = Ok b.
Proof. destruct x; cbn; intros; [eauto | discriminate]. Qed.

Lemma bind_err {A B} (x : res A) (f : A -> res B) e :
  bind x f = Err e -> x = Err e \/ exists a, x = Ok a /\ f a = Err e.
Proof. destruct x; cbn; intros; [eauto | left; congruence]. Qed.

Ltac inv_bind H :=
  let a := fresh "a" in let Ha := fresh "Ha" in
  apply bind_ok in H; destruct H as (a & Ha & H).

(** ** Length *)

Lemma len_nil {A} : len (@nil A) = 0.
Proof. reflexivity. Qed.

Lemma len_cons {A} (a : A) l : len (a :: l) = 1 + len l.
Proof. unfold len; cbn [length]; lia. Qed.

Lemma len_app {A} (a b : list A) : len (a ++ b) = len a + len b.
Proof. unfold len; rewrite app_length; lia. Qed.

Lemma len_nonneg {A} (l : list A) : 0 <= len l.
Proof. unfold len; lia. Qed.

Lemma len_zero_inv {A} (l : list A) : len l = 0 -> l = [].
Proof. destruct l; [auto | rewrite len_cons; pose proof (len_nonneg l); lia]. Qed.

Lemma len_repeat {A} (a : A) n : len (repeat a n) = Z.of_nat n.
Proof. unfold len; rewrite repeat_length; auto. Qed.

Lemma len_zeros n : 0 <= n -> len (zeros n) = n.
Proof. unfold zeros; intros; rewrite len_repeat; lia. Qed.

Lemma len_map {A B} (f : A -> B) l : len (map f l) = len l.
Proof. unfold len; rewrite map_length; auto. Qed.

Lemma len_rev {A} (l : list A) : len (rev l) = len l.
Proof. unfold len; rewrite rev_length; auto. Qed.

Lemma len_firstn {A} n (l : list A) : len (firstn n l) = Z.min (Z.of_nat n) (len l).
Proof. unfold len; rewrite firstn_length; lia. Qed.

Lemma len_skipn {A} n (l : list A) : len (skipn n l) = Z.max 0 (len l - Z.of_nat n).
Proof. unfold len; rewrite skipn_length; lia. Qed.

Lemma to_nat_len {A} (l : list A) : Z.to_nat (len l) = length l.
Proof. unfold len; lia. Qed.

(** ** Bits *)

Lemma lor_add a b : Z.land a b = 0 -> Z.lor a b = a + b.
Proof. intros H. rewrite Z.add_nocarry_lxor, Z.lxor_lor by auto. auto. Qed.

Lemma land_shiftl_low a b n :
  0 <= n -> 0 <= b < 2 ^ n -> Z.land (Z.shiftl a n) b = 0.
Proof.
  intros Hn Hb. apply Z.bits_inj'. intros i Hi.
  rewrite Z.land_spec, Z.bits_0, Z.shiftl_spec by lia.
  destruct (Z.ltb_spec i n).
  - rewrite Z.testbit_neg_r by lia. auto.
  - replace b with (b mod 2 ^ n) by (apply Z.mod_small; lia).
    rewrite Z.mod_pow2_bits_high by lia. apply andb_false_r.
Qed.

Lemma lor_shiftl a b n :
  0 <= n -> 0 <= b < 2 ^ n -> Z.lor (Z.shiftl a n) b = a * 2 ^ n + b.
Proof.
  intros. rewrite lor_add by (apply land_shiftl_low; auto).
  rewrite Z.shiftl_mul_pow2 by lia. auto.
Qed.

Lemma lor_shiftl_r a b n :
  0 <= n -> 0 <= b < 2 ^ n -> Z.lor b (Z.shiftl a n) = b + a * 2 ^ n.
Proof. intros. rewrite Z.lor_comm, lor_shiftl by auto. lia. Qed.

Lemma land_mod v n : 0 <= n -> Z.land v (Z.ones n) = v mod 2 ^ n.
Proof. intros; apply Z.land_ones; auto. Qed.

Lemma land_255 v : Z.land v 255 = v mod 256.
Proof. exact (land_mod v 8 ltac:(lia)). Qed.
Lemma land_127 v : Z.land v 127 = v mod 128.
Proof. exact (land_mod v 7 ltac:(lia)). Qed.
Lemma land_63 v : Z.land v 63 = v mod 64.
Proof. exact (land_mod v 6 ltac:(lia)). Qed.

Lemma shiftr_div v n : 0 <= n -> Z.shiftr v n = v / 2 ^ n.
Proof. intros; apply Z.shiftr_div_pow2; auto. Qed.

(** Finite sweep over all byte values. *)
Definition all_bytes : list Z := map Z.of_nat (seq 0 256).

Lemma all_bytes_spec (P : Z -> bool) :
  forallb P all_bytes = true -> forall b, byte_ok b -> P b = true.
Proof.
  intros H b [H1 H2]. rewrite forallb_forall in H. apply H.
  unfold all_bytes. apply in_map_iff. exists (Z.to_nat b). split; [lia|].
  apply in_seq. lia.
Qed.

Lemma land_128 b : byte_ok b -> (Z.land b 128 =? 0) = (b <? 128).
Proof.
  intros. pose proof (all_bytes_spec (fun b => Bool.eqb (Z.land b 128 =? 0) (b <? 128)) eq_refl b H) as E.
  apply Bool.eqb_prop in E. auto.
Qed.

Lemma lor_128 b : 0 <= b < 128 -> Z.lor 128 b = 128 + b.
Proof.
  intros. exact (lor_shiftl 1 b 7 ltac:(lia) ltac:(lia)).
Qed.

(** ** Bytes *)

Lemma byte_okb_spec b : byte_okb b = true <-> byte_ok b.
Proof. unfold byte_okb, byte_ok. lia. Qed.

Lemma mk_bytes_ok l : bytes_ok l -> mk_bytes l = Ok l.
Proof.
  intros H. unfold mk_bytes.
  replace (forallb byte_okb l) with true; auto.
  symmetry. apply forallb_forall. intros x Hx. apply byte_okb_spec.
  unfold bytes_ok in H. rewrite Forall_forall in H. auto.
Qed.

Lemma mk_bytes_inv l r : mk_bytes l = Ok r -> r = l /\ bytes_ok l.
Proof.
  unfold mk_bytes. destruct (forallb byte_okb l) eqn:E; intros H; invc H.
  split; auto. apply Forall_forall. intros x Hx.
  rewrite forallb_forall in E. apply byte_okb_spec; auto.
Qed.

Lemma bytes_ok_app a b : bytes_ok (a ++ b) <-> bytes_ok a /\ bytes_ok b.
Proof. apply Forall_app. Qed.

Lemma bytes_ok_repeat0 n : bytes_ok (repeat 0 n).
Proof. apply Forall_forall. intros x Hx. apply repeat_spec in Hx. subst. unfold byte_ok; lia. Qed.

Lemma bytes_ok_firstn n l : bytes_ok l -> bytes_ok (firstn n l).
Proof. intros. apply Forall_forall. intros x Hx. unfold bytes_ok in H. rewrite Forall_forall in H.
  apply H. rewrite <- (firstn_skipn n l). apply in_or_app; auto. Qed.

Lemma bytes_ok_skipn n l : bytes_ok l -> bytes_ok (skipn n l).
Proof. intros. apply Forall_forall. intros x Hx. unfold bytes_ok in H. rewrite Forall_forall in H.
  apply H. rewrite <- (firstn_skipn n l). apply in_or_app; auto. Qed.

Lemma bytes_ok_rev l : bytes_ok l <-> bytes_ok (rev l).
Proof. unfold bytes_ok. rewrite !Forall_forall. split; intros H x Hx; apply H.
  - apply in_rev; auto.
  - apply in_rev in Hx; auto. Qed.

(** ** Slices and indexing *)

Lemma slice_bound_in n i : 0 <= i <= n -> slice_bound n i = i.
Proof. unfold slice_bound. intros. ite; lia. Qed.

Lemma slice_mid {A} (a b c : list A) :
  slice (a ++ b ++ c) (len a) (len a + len b) = b.
Proof.
  unfold slice. pose proof (len_nonneg a); pose proof (len_nonneg b); pose proof (len_nonneg c).
  rewrite !len_app. rewrite !slice_bound_in by lia.
  replace (len a + len b - len a) with (len b) by lia.
  rewrite !to_nat_len.
  rewrite skipn_app, skipn_all, Nat.sub_diag. cbn [app skipn].
  rewrite firstn_app, firstn_all, Nat.sub_diag, firstn_O, app_nil_r. auto.
Qed.

Lemma slice_in {A} (l : list A) i j :
  0 <= i <= j -> j <= len l ->
  exists a b c, l = a ++ b ++ c /\ len a = i /\ len b = j - i /\ slice l i j = b.
Proof.
  intros. exists (firstn (Z.to_nat i) l), (firstn (Z.to_nat (j - i)) (skipn (Z.to_nat i) l)),
    (skipn (Z.to_nat (j - i)) (skipn (Z.to_nat i) l)).
  repeat split.
  - rewrite !firstn_skipn. auto.
  - rewrite len_firstn. lia.
  - rewrite len_firstn, len_skipn. lia.
  - unfold slice. rewrite !slice_bound_in by lia. auto.
Qed.

Lemma len_slice {A} (l : list A) i j :
  0 <= i <= j -> j <= len l -> len (slice l i j) = j - i.
Proof. intros. destruct (slice_in l i j) as (a & b & c & _ & _ & L & E); auto. rewrite E; auto. Qed.

Lemma slice_from_in {A} (l : list A) i :
  0 <= i <= len l -> slice_from l i = skipn (Z.to_nat i) l.
Proof. intros. unfold slice_from. rewrite slice_bound_in by lia. auto. Qed.

Lemma slice_from_app {A} (a b : list A) : slice_from (a ++ b) (len a) = b.
Proof.
  pose proof (len_nonneg a); pose proof (len_nonneg b).
  rewrite slice_from_in by (rewrite len_app; lia). rewrite to_nat_len.
  rewrite skipn_app, skipn_all, Nat.sub_diag. auto.
Qed.

Lemma splice_in {A} (l : list A) i j d :
  0 <= i <= j -> j <= len l ->
  splice l i j d = firstn (Z.to_nat i) l ++ d ++ skipn (Z.to_nat j) l.
Proof. intros. unfold splice. rewrite !slice_bound_in by lia. rewrite Z.max_r by lia. auto. Qed.

Lemma splice_mid {A} (a b c d : list A) :
  splice (a ++ b ++ c) (len a) (len a + len b) d = a ++ d ++ c.
Proof.
  pose proof (len_nonneg a); pose proof (len_nonneg b); pose proof (len_nonneg c).
  rewrite splice_in by (rewrite ?len_app; lia).
  rewrite to_nat_len, firstn_app, firstn_all, Nat.sub_diag, firstn_O, app_nil_r.
  f_equal. f_equal. replace (Z.to_nat (len a + len b)) with (length a + length b)%nat by (unfold len; lia).
  rewrite app_assoc, <- app_length, skipn_app, skipn_all, Nat.sub_diag. auto.
Qed.

Lemma index_nth {A} (l : list A) i :
  0 <= i < len l -> exists a, nth_error l (Z.to_nat i) = Some a /\ index l i = Ok a.
Proof.
  intros. destruct (nth_error l (Z.to_nat i)) as [a|] eqn:E.
  - exists a. split; auto. unfold index. replace (i <? 0) with false by lia. cbn.
    replace (i <? 0) with false by lia. rewrite E. auto.
  - apply nth_error_None in E. unfold len in *. lia.
Qed.

Lemma index_mid {A} (a : list A) x c : index (a ++ x :: c) (len a) = Ok x.
Proof.
  destruct (index_nth (a ++ x :: c) (len a)) as (y & H1 & H2).
  - rewrite len_app, len_cons. pose proof (len_nonneg a); pose proof (len_nonneg c); lia.
  - rewrite H2. rewrite to_nat_len, nth_error_app2 in H1 by lia.
    rewrite Nat.sub_diag in H1. cbn in H1. congruence.
Qed.

Lemma index_mid1 {A} (a : list A) x y c : index (a ++ x :: y :: c) (len a + 1) = Ok y.
Proof.
  replace (a ++ x :: y :: c) with ((a ++ [x]) ++ y :: c) by (rewrite <- app_assoc; auto).
  replace (len a + 1) with (len (a ++ [x])) by (rewrite len_app, len_cons, len_nil; lia).
  apply index_mid.
Qed.

Lemma index_ok_inv {A} (l : list A) i a : index l i = Ok a -> In a l.
Proof.
  unfold index. destruct ((if i <? 0 then i + len l else i) <? 0); try discriminate.
  destruct (nth_error _ _) eqn:E; intros H; invc H. eapply nth_error_In; eauto.
Qed.

Lemma index_err {A} (l : list A) i e : index l i = Err e -> e = IndexError.
Proof.
  unfold index. destruct ((if i <? 0 then i + len l else i) <? 0); try congruence.
  destruct (nth_error _ _); congruence.
Qed.

(** ** Text *)

Lemma str_eqb_eq a b : str_eqb a b = true <-> a = b.
Proof.
  revert b; induction a as [|x a IH]; intros [|y b]; cbn; try (split; congruence).
  rewrite andb_true_iff, Z.eqb_eq, IH. split; [intros [-> ->] | intros H; invc H]; auto.
Qed.

Lemma str_eqb_refl a : str_eqb a a = true.
Proof. apply str_eqb_eq; auto. Qed.

Lemma str_eqb_neq a b : str_eqb a b = false <-> a <> b.
Proof. rewrite <- not_true_iff_false, str_eqb_eq. tauto. Qed.

Lemma starts_with_spec p s : starts_with p s = true <-> exists r, s = p ++ r.
Proof.
  revert s; induction p as [|x p IH]; intros s; cbn.
  - split; eauto.
  - destruct s as [|y s].
    + split; [discriminate | intros [r H]; discriminate].
    + rewrite andb_true_iff, Z.eqb_eq, IH. split.
      * intros [-> [r ->]]. eauto.
      * intros [r H]. invc H. eauto.
Qed.

Lemma ends_with_spec p s : ends_with p s = true <-> exists r, s = r ++ p.
Proof.
  unfold ends_with. rewrite starts_with_spec. split; intros [r H].
  - exists (rev r). apply (f_equal (@rev Z)) in H. rewrite rev_involutive, rev_app_distr, rev_involutive in H. auto.
  - exists (rev r). subst. rewrite rev_app_distr. auto.
Qed.

(** ** Numbers as bytes *)

Lemma length_le_bytes n v : length (le_bytes n v) = n.
Proof. revert v; induction n; intros; cbn; auto. Qed.

Lemma len_le_bytes n v : len (le_bytes n v) = Z.of_nat n.
Proof. unfold len. rewrite length_le_bytes. auto. Qed.

Lemma le_bytes_ok n v : bytes_ok (le_bytes n v).
Proof.
  revert v; induction n; intros; cbn; constructor.
  - rewrite land_255. unfold byte_ok. lia.
  - apply IHn.
Qed.

Lemma le_value_cons b r : byte_ok b -> le_value (b :: r) = b + 256 * le_value r.
Proof.
  intros [H1 H2]. cbn [le_value]. rewrite lor_shiftl_r by lia. lia.
Qed.

Lemma le_value_bytes n v : le_value (le_bytes n v) = v mod 2 ^ (8 * Z.of_nat n).
Proof.
  revert v; induction n as [|n IH]; intros v.
  - cbn. rewrite Z.mod_1_r. auto.
  - cbn [le_bytes]. rewrite le_value_cons by (rewrite land_255; unfold byte_ok; lia).
    rewrite IH, land_255, shiftr_div by lia.
    replace (8 * Z.of_nat (S n)) with (8 + 8 * Z.of_nat n) by lia.
    rewrite Z.pow_add_r by lia. change (2 ^ 8) with 256.
    rewrite Z.rem_mul_r by lia. lia.
Qed.

Lemma le_value_range l : bytes_ok l -> 0 <= le_value l < 2 ^ (8 * len l).
Proof.
  induction l as [|b r IH]; intros H.
  - split; vm_compute; congruence.
  - invc H. rewrite le_value_cons by auto. specialize (IH H3).
    rewrite len_cons. replace (8 * (1 + len r)) with (8 + 8 * len r) by lia.
    rewrite Z.pow_add_r by (pose proof (len_nonneg r); lia). change (2 ^ 8) with 256.
    unfold byte_ok in H2. lia.
Qed.

Lemma le_bytes_value l : bytes_ok l -> le_bytes (length l) (le_value l) = l.
Proof.
  induction l as [|b r IH]; intros H; auto.
  invc H. cbn [length le_bytes]. rewrite le_value_cons by auto.
  rewrite land_255, shiftr_div by lia. change (2 ^ 8) with 256.
  unfold byte_ok in H2.
  replace ((b + 256 * le_value r) mod 256) with b by lia.
  replace ((b + 256 * le_value r) / 256) with (le_value r) by lia.
  f_equal. auto.
Qed.

Lemma le_bytes_mod n v : le_bytes n (v mod 2 ^ (8 * Z.of_nat n)) = le_bytes n v.
Proof.
  rewrite <- le_value_bytes. rewrite <- (length_le_bytes n v) at 1.
  apply le_bytes_value, le_bytes_ok.
Qed.

(** ** struct *)

Lemma shiftl_1 n : 0 <= n -> Z.shiftl 1 n = 2 ^ n.
Proof. intros. rewrite Z.shiftl_1_l. auto. Qed.

Lemma pack_uint_ok e n v :
  0 <= v < 2 ^ (8 * Z.of_nat n) ->
  exists b, pack_uint e n v = Ok b /\ length b = n /\ bytes_ok b /\ unpack_uint e b = v.
Proof.
  intros H. unfold pack_uint. rewrite shiftl_1 by lia.
  replace ((0 <=? v) && (v <? 2 ^ (8 * Z.of_nat n))) with true by lia.
  eexists; split; [reflexivity|].
  destruct e; cbn [unpack_uint]; rewrite ?rev_length, ?length_le_bytes, ?rev_involutive;
    (repeat split; auto using le_bytes_ok).
  - rewrite le_value_bytes, Z.mod_small; auto.
  - apply -> bytes_ok_rev. apply le_bytes_ok.
  - rewrite le_value_bytes, Z.mod_small; auto.
Qed.

Lemma pack_uint_err e n v :
  ~ 0 <= v < 2 ^ (8 * Z.of_nat n) -> pack_uint e n v = Err StructError.
Proof.
  intros H. unfold pack_uint. rewrite shiftl_1 by lia.
  replace ((0 <=? v) && (v <? 2 ^ (8 * Z.of_nat n))) with false by lia. auto.
Qed.

Lemma pack_uint_inv e n v b :
  pack_uint e n v = Ok b ->
  0 <= v < 2 ^ (8 * Z.of_nat n) /\ length b = n /\ bytes_ok b /\ unpack_uint e b = v.
Proof.
  intros H.
  destruct (Z.leb_spec 0 v); [destruct (Z.ltb_spec v (2 ^ (8 * Z.of_nat n)))|].
  - destruct (pack_uint_ok e n v) as (b' & E & ? & ? & ?); [lia|]. rewrite E in H. invc H. auto.
  - rewrite pack_uint_err in H by lia. discriminate.
  - rewrite pack_uint_err in H by lia. discriminate.
Qed.

Lemma pow_half n : 0 < n -> 2 ^ (8 * n) = 2 * 2 ^ (8 * n - 1).
Proof. intros. replace (8 * n) with (1 + (8 * n - 1)) at 1 by lia. rewrite Z.pow_add_r by lia. auto. Qed.

Lemma pack_sint_ok e n v :
  (0 < n)%nat -> - 2 ^ (8 * Z.of_nat n - 1) <= v < 2 ^ (8 * Z.of_nat n - 1) ->
  exists b, pack_sint e n v = Ok b /\ length b = n /\ bytes_ok b /\ unpack_sint e b = v.
Proof.
  intros Hn H. unfold pack_sint. rewrite shiftl_1 by lia.
  replace ((- 2 ^ (8 * Z.of_nat n - 1) <=? v) && (v <? 2 ^ (8 * Z.of_nat n - 1))) with true by lia.
  eexists; split; [reflexivity|].
  rewrite land_mod by lia. rewrite le_bytes_mod.
  pose proof (pow_half (Z.of_nat n) ltac:(lia)) as Hp.
  assert (Hu : forall b, length b = n -> unpack_uint e b = v mod 2 ^ (8 * Z.of_nat n) ->
             unpack_sint e b = v).
  { intros b Hl Hb. unfold unpack_sint, len. rewrite Hb, Hl.
    rewrite !shiftl_1 by lia. rewrite Hp in *.
    destruct (Z.ltb_spec v 0).
    - replace (v mod (2 * 2 ^ (8 * Z.of_nat n - 1))) with (v + 2 * 2 ^ (8 * Z.of_nat n - 1)).
      + replace (_ <? _) with false by lia. lia.
      + rewrite <- (Z.mod_add v 1) by lia. rewrite Z.mod_small by lia. lia.
    - rewrite Z.mod_small by lia. replace (_ <? _) with true by lia. auto. }
  destruct e; cbn [unpack_uint]; rewrite ?rev_length, ?length_le_bytes;
    (repeat split; auto using le_bytes_ok).
  - apply Hu; [apply length_le_bytes|]. cbn. apply le_value_bytes.
  - apply -> bytes_ok_rev. apply le_bytes_ok.
  - apply Hu; [rewrite rev_length; apply length_le_bytes|]. cbn. rewrite rev_involutive. apply le_value_bytes.
Qed.

Lemma pack_sint_err e n v :
  (0 < n)%nat ->
  ~ - 2 ^ (8 * Z.of_nat n - 1) <= v < 2 ^ (8 * Z.of_nat n - 1) -> pack_sint e n v = Err StructError.
Proof.
  intros Hn H. unfold pack_sint. rewrite shiftl_1 by lia.
  replace ((- 2 ^ (8 * Z.of_nat n - 1) <=? v) && (v <? 2 ^ (8 * Z.of_nat n - 1))) with false by lia. auto.
Qed.

Lemma len_pack_s n b : 0 <= n -> len (pack_s n b) = n.
Proof. intros. unfold pack_s. rewrite len_app, len_firstn, len_repeat. unfold len. lia. Qed.

Lemma pack_s_exact b : pack_s (len b) b = b.
Proof. unfold pack_s. rewrite to_nat_len, firstn_all, Nat.sub_diag. cbn. apply app_nil_r. Qed.

Lemma pack_s_ok n b : bytes_ok b -> bytes_ok (pack_s n b).
Proof. intros. apply bytes_ok_app. auto using bytes_ok_firstn, bytes_ok_repeat0. Qed.

(** ** UTF-8 *)

Lemma utf8_decode_ascii b :
  Forall (fun c => 0 <= c < 128) b -> utf8_decode b = Ok b.
Proof.
  induction b as [|c r IH]; intros H; cbn [utf8_decode]; auto.
  invc H. replace (c <? 128) with true by lia. rewrite IH by auto. auto.
Qed.

Lemma utf8_encode_ascii b :
  Forall (fun c => 0 <= c < 128) b -> utf8_encode b = Ok b.
Proof.
  induction b as [|c r IH]; intros H; cbn [utf8_encode]; auto.
  invc H. rewrite IH by auto. unfold utf8_enc1.
  replace (c <? 0) with false by lia. replace (c <? 128) with true by lia. auto.
Qed.

Lemma utf8_enc1_decode c a r :
  utf8_enc1 c = Ok a -> utf8_decode (a ++ r) = bind (utf8_decode r) (fun s => Ok (c :: s)).
Proof.
  unfold utf8_enc1. intros H.
  destruct (c <? 0) eqn:E0; [discriminate|].
  destruct (c <? 128) eqn:E1; [invc H; cbn [app utf8_decode]; rewrite E1; auto|].
  destruct (c <? 2048) eqn:E2.
  { invc H. cbn [app utf8_decode]. unfold is_cont.
    replace (192 + c / 64 <? 128) with false by lia.
    replace (192 + c / 64 <? 194) with false by lia.
    replace (192 + c / 64 <? 224) with true by lia.
    replace ((128 <=? 128 + c mod 64) && (128 + c mod 64 <? 192)) with true by lia.
    destruct (utf8_decode r); cbn [bind]; auto. do 2 f_equal. lia. }
  destruct (c <? 65536) eqn:E3.
  { destruct ((55296 <=? c) && (c <? 57344)) eqn:E4; invc H.
    cbn [app utf8_decode]. unfold is_cont.
    replace (224 + c / 4096 <? 128) with false by lia.
    replace (224 + c / 4096 <? 194) with false by lia.
    replace (224 + c / 4096 <? 224) with false by lia.
    replace (224 + c / 4096 <? 240) with true by lia.
    replace ((224 + c / 4096 - 224) * 4096 + (128 + (c / 64) mod 64 - 128) * 64 + (128 + c mod 64 - 128)) with c by lia.
    rewrite E4. cbn [negb].
    replace ((128 <=? 128 + (c / 64) mod 64) && (128 + (c / 64) mod 64 <? 192)
      && ((128 <=? 128 + c mod 64) && (128 + c mod 64 <? 192)) && (2048 <=? c) && true) with true by lia.
    auto. }
  destruct (c <? 1114112) eqn:E4; invc H.
  cbn [app utf8_decode]. unfold is_cont.
  replace (240 + c / 262144 <? 128) with false by lia.
  replace (240 + c / 262144 <? 194) with false by lia.
  replace (240 + c / 262144 <? 224) with false by lia.
  replace (240 + c / 262144 <? 240) with false by lia.
  replace (240 + c / 262144 <? 245) with true by lia.
  replace ((240 + c / 262144 - 240) * 262144 + (128 + (c / 4096) mod 64 - 128) * 4096 + (128 + (c / 64) mod 64 - 128) * 64 + (128 + c mod 64 - 128)) with c by lia.
  rewrite E4.
  replace ((128 <=? 128 + (c / 4096) mod 64) && (128 + (c / 4096) mod 64 <? 192)
      && ((128 <=? 128 + (c / 64) mod 64) && (128 + (c / 64) mod 64 <? 192))
      && ((128 <=? 128 + c mod 64) && (128 + c mod 64 <? 192)) && (65536 <=? c) && true) with true by lia.
  auto.
Qed.

Lemma utf8_roundtrip s b : utf8_encode s = Ok b -> utf8_decode b = Ok s.
Proof.
  revert b; induction s as [|c r IH]; intros b H; cbn in H.
  - invc H. auto.
  - inv_bind H. inv_bind H. invc H. rewrite (utf8_enc1_decode c a a0 Ha).
    rewrite (IH a0 Ha0). auto.
Qed.

Lemma utf8_enc1_ok c a : utf8_enc1 c = Ok a -> bytes_ok a.
Proof.
  unfold utf8_enc1. intros H.
  destruct (c <? 0) eqn:E0; [discriminate|].
  destruct (c <? 128) eqn:E1; [invc H; repeat constructor; unfold byte_ok; lia|].
  destruct (c <? 2048) eqn:E2; [invc H; repeat constructor; unfold byte_ok; lia|].
  destruct (c <? 65536) eqn:E3.
  { destruct ((55296 <=? c) && (c <? 57344)) eqn:E4; invc H. repeat constructor; unfold byte_ok; lia. }
  destruct (c <? 1114112) eqn:E4; invc H. repeat constructor; unfold byte_ok; lia.
Qed.

Lemma utf8_encode_ok s b : utf8_encode s = Ok b -> bytes_ok b.
Proof.
  revert b; induction s as [|c r IH]; intros b H; cbn in H.
  - invc H. constructor.
  - inv_bind H. inv_bind H. invc H. apply bytes_ok_app. eauto using utf8_enc1_ok.
Qed.

(** ** List lookups *)

Lemma nth_error_skipn {A} n : forall (l : list A) i, nth_error (skipn n l) i = nth_error l (n + i).
Proof.
  induction n; intros l i; auto. destruct l as [|x l]; cbn [skipn plus nth_error]; auto.
  destruct i; auto.
Qed.

Lemma nth_error_firstn {A} n : forall (l : list A) i,
  nth_error (firstn n l) i = if Nat.ltb i n then nth_error l i else None.
Proof.
  induction n; intros l i.
  - cbn. destruct i; auto.
  - destruct l as [|x l]; cbn [firstn].
    + destruct (Nat.ltb i (S n)); destruct i; auto.
    + destruct i; [auto|]. cbn [nth_error]. rewrite IHn. reflexivity.
Qed.

Lemma nth_error_ext {A} : forall (a b : list A), (forall i, nth_error a i = nth_error b i) -> a = b.
Proof.
  induction a as [|x a IH]; intros [|y b] H; auto.
  - specialize (H O). discriminate.
  - specialize (H O). discriminate.
  - f_equal. { specialize (H O). cbn in H. congruence. } apply IH. intros i. apply (H (S i)).
Qed.

Lemma nth_error_slice {A} (l : list A) i j k :
  0 <= i <= j -> j <= len l -> 0 <= k ->
  nth_error (slice l i j) (Z.to_nat k) = if k <? j - i then nth_error l (Z.to_nat (i + k)) else None.
Proof.
  intros Hi Hj Hk. unfold slice. rewrite !slice_bound_in by lia.
  rewrite nth_error_firstn, nth_error_skipn.
  replace (Nat.ltb (Z.to_nat k) (Z.to_nat (j - i))) with (k <? j - i).
  - destruct (k <? j - i); auto. f_equal. lia.
  - destruct (Z.ltb_spec k (j - i)); symmetry; [apply Nat.ltb_lt | apply Nat.ltb_ge]; lia.
Qed.

(** Two ways of cutting the same list. *)
Lemma app_cut {A} : forall (a b c d : list A), a ++ b = c ++ d -> (length c <= length a)%nat ->
  exists e, a = c ++ e /\ d = e ++ b.
Proof.
  intros a b c. revert a b. induction c as [|x c IH]; intros a b d E Hl; cbn [app length] in *.
  - exists a. auto.
  - destruct a as [|y a]; cbn [app length] in *; [lia|]. inversion E; subst.
    destruct (IH a b d H1 ltac:(lia)) as (e & -> & ->). exists e. auto.
Qed.
