(** Packing what was unpacked. *)
From Coq Require Import ZifyBool ZifyNat Lia.
From Verif Require Import Py PyLemmas TypesModel VmModel TypesSpec TypesProofs CompilerProofs VmProofs VmPackProofs
  VmUnpackProofs VmBackSpec.
Ltac Zify.zify_post_hook ::= Z.div_mod_to_equations.

(** ** UTF-8 *)

Lemma utf8_decode_encode : forall n b s, (length b <= n)%nat -> bytes_ok b -> utf8_decode b = Ok s -> utf8_encode s = Ok b.
Proof.
  induction n as [|n IH]; intros b s L B D.
  - destruct b; [|cbn in L; lia]. cbn in D. injection D as <-. reflexivity.
  - destruct b as [|b1 r1]; [cbn in D; injection D as <-; reflexivity|]. cbn [length] in L. apply Forall_cons_iff in B as [B1 B].
    unfold byte_ok in B1. cbn [utf8_decode] in D.
    destruct (Z.ltb_spec b1 128).
    { apply bind_ok in D as (s' & D & E). injection E as <-. cbn [utf8_encode]. rewrite (IH r1 s') by (auto; lia).
      unfold utf8_enc1. replace (b1 <? 0) with false by lia. replace (b1 <? 128) with true by lia. reflexivity. }
    destruct (Z.ltb_spec b1 194); [discriminate|]. destruct (Z.ltb_spec b1 224).
    { destruct r1 as [|b2 r2]; [discriminate|]. destruct (is_cont b2) eqn:C2; [|discriminate]. unfold is_cont in C2. cbn [length] in L.
      apply Forall_cons_iff in B as [B2 B]. apply bind_ok in D as (s' & D & E). injection E as <-. cbn [utf8_encode]. rewrite (IH r2 s') by (auto; lia).
      unfold utf8_enc1. set (c := (b1 - 192) * 64 + (b2 - 128)) in *. replace (c <? 0) with false by lia. replace (c <? 128) with false by lia.
      replace (c <? 2048) with true by lia. cbn [bind app]. repeat f_equal; subst c; lia. }
    destruct (Z.ltb_spec b1 240).
    { destruct r1 as [|b2 [|b3 r3]]; [discriminate|discriminate|]. cbn [length] in L. cbv zeta in D.
      set (c := (b1 - 224) * 4096 + (b2 - 128) * 64 + (b3 - 128)) in *.
      destruct (is_cont b2 && is_cont b3 && (2048 <=? c) && negb ((55296 <=? c) && (c <? 57344))) eqn:C; [|discriminate]. unfold is_cont in C.
      apply Forall_cons_iff in B as [B2 B]. apply Forall_cons_iff in B as [B3 B]. apply bind_ok in D as (s' & D & E). injection E as <-.
      cbn [utf8_encode]. rewrite (IH r3 s') by (auto; lia). unfold utf8_enc1.
      replace (c <? 0) with false by lia. replace (c <? 128) with false by lia. replace (c <? 2048) with false by lia. replace (c <? 65536) with true by lia.
      replace ((55296 <=? c) && (c <? 57344)) with false by lia. cbn [bind app]. repeat f_equal; subst c; lia. }
    destruct (Z.ltb_spec b1 245); [|discriminate].
    destruct r1 as [|b2 [|b3 [|b4 r4]]]; try discriminate. cbn [length] in L. cbv zeta in D.
    set (c := (b1 - 240) * 262144 + (b2 - 128) * 4096 + (b3 - 128) * 64 + (b4 - 128)) in *.
    destruct (is_cont b2 && is_cont b3 && is_cont b4 && (65536 <=? c) && (c <? 1114112)) eqn:C; [|discriminate]. unfold is_cont in C.
    apply Forall_cons_iff in B as [B2 B]. apply Forall_cons_iff in B as [B3 B]. apply Forall_cons_iff in B as [B4 B]. apply bind_ok in D as (s' & D & E). injection E as <-.
    cbn [utf8_encode]. rewrite (IH r4 s') by (auto; lia). unfold utf8_enc1.
    replace (c <? 0) with false by lia. replace (c <? 128) with false by lia. replace (c <? 2048) with false by lia. replace (c <? 65536) with false by lia.
    replace (c <? 1114112) with true by lia. cbn [bind app]. repeat f_equal; subst c; lia.
Qed.

Lemma utf8_decode_nonzero : forall n b s, (length b <= n)%nat -> utf8_decode b = Ok s -> ~ In 0 b -> ~ In 0 s.
Proof.
  induction n as [|n IH]; intros b s L D N.
  - destruct b; [|cbn in L; lia]. cbn in D. injection D as <-. tauto.
  - destruct b as [|b1 r1]; [cbn in D; injection D as <-; tauto|]. cbn [length] in L. cbn [In] in N. cbn [utf8_decode] in D.
    destruct (Z.ltb_spec b1 128).
    { apply bind_ok in D as (s' & D & E). injection E as <-. intros [Z|Z]; [tauto|]. apply (IH r1 s'); [lia|exact D|tauto|exact Z]. }
    destruct (Z.ltb_spec b1 194); [discriminate|]. destruct (Z.ltb_spec b1 224).
    { destruct r1 as [|b2 r2]; [discriminate|]. destruct (is_cont b2) eqn:C2; [|discriminate]. unfold is_cont in C2. cbn [length In] in *.
      apply bind_ok in D as (s' & D & E). injection E as <-. intros [Z|Z]; [lia|]. apply (IH r2 s'); [lia|exact D|tauto|exact Z]. }
    destruct (Z.ltb_spec b1 240).
    { destruct r1 as [|b2 [|b3 r3]]; [discriminate|discriminate|]. cbn [length In] in *. cbv zeta in D.
      match type of D with (if ?x then _ else _) = _ => destruct x eqn:C; [|discriminate] end. unfold is_cont in C.
      apply bind_ok in D as (s' & D & E). injection E as <-. intros [Z|Z]; [lia|]. apply (IH r3 s'); [lia|exact D|tauto|exact Z]. }
    destruct (Z.ltb_spec b1 245); [|discriminate]. destruct r1 as [|b2 [|b3 [|b4 r4]]]; try discriminate. cbn [length In] in *. cbv zeta in D.
    match type of D with (if ?x then _ else _) = _ => destruct x eqn:C; [|discriminate] end. unfold is_cont in C.
    apply bind_ok in D as (s' & D & E). injection E as <-. intros [Z|Z]; [lia|]. apply (IH r4 s'); [lia|exact D|tauto|exact Z].
Qed.

(** ** Numbers *)

Lemma num_val_bound b : bytes_ok b -> 0 <= num_val b < 2 ^ (8 * len b).
Proof.
  induction 1 as [|x b X B IH]; [split; [apply Z.le_refl|reflexivity]|]. cbn [num_val]. unfold byte_ok in X. unfold len in *. cbn [length].
  replace (8 * Z.of_nat (S (length b))) with (8 + 8 * Z.of_nat (length b)) by lia. rewrite Z.pow_add_r by lia. change (2 ^ 8) with 256. lia.
Qed.
Lemma num_le_val b : bytes_ok b -> forall z q, z = num_val b + q * 2 ^ (8 * len b) -> num_le (length b) z = b.
Proof.
  induction 1 as [|x b X B IH]; intros z q E; [reflexivity|]. cbn [length num_le num_val] in *. unfold byte_ok in X.
  assert (P : 2 ^ (8 * len (x :: b)) = 256 * 2 ^ (8 * len b)).
  { unfold len. cbn [length]. replace (8 * Z.of_nat (S (length b))) with (8 + 8 * Z.of_nat (length b)) by lia. rewrite Z.pow_add_r by lia. reflexivity. }
  rewrite P in E. set (p := 2 ^ (8 * len b)) in *. assert (z = x + 256 * (num_val b + q * p)) as -> by lia.
  f_equal; [lia|]. apply (IH _ q). fold p. lia.
Qed.
Lemma int_val_back k b : bytes_ok b -> length b = width k -> kmin k <= int_val k b <= kmax k /\ num_le (width k) (int_val k b) = b.
Proof.
  intros B L. pose proof (num_val_bound b B) as N. assert (E : len b = Z.of_nat (width k)) by (unfold len; lia). rewrite E in N. unfold int_val, kmin, kmax.
  set (w := 8 * Z.of_nat (width k)) in *.
  assert (2 ^ w = 2 * 2 ^ (w - 1)) as P2.
  { assert (1 <= w) by (subst w; destruct k; cbn [width]; lia). rewrite <- Z.pow_succ_r by lia. f_equal. lia. }
  assert (0 < 2 ^ (w - 1)) by (apply Z.pow_pos_nonneg; subst w; destruct k; cbn [width]; lia).
  rewrite <- L at 1. destruct (signed k); cbn [andb].
  - destruct (Z.leb_spec (2 ^ (w - 1)) (num_val b)).
    + split; [lia|]. apply (num_le_val b B _ (-1)). rewrite E. fold w. lia.
    + split; [lia|]. apply (num_le_val b B _ 0). lia.
  - split; [lia|]. apply (num_le_val b B _ 0). lia.
Qed.
Lemma dec_ints_back k : forall n b, bytes_ok b -> length b = (width k * n)%nat ->
  length (dec_ints k n b) = n /\ Forall (fun v => exists z, v = VInt z /\ kmin k <= z <= kmax k) (dec_ints k n b) /\ enc_ints k n (dec_ints k n b) = Some b.
Proof.
  induction n as [|n IH]; intros b B L; cbn [dec_ints enc_ints length].
  - assert (b = []) as -> by (destruct b; [reflexivity|cbn in L; lia]). auto.
  - assert (L1 : length (firstn (width k) b) = width k) by (rewrite firstn_length; lia).
    destruct (int_val_back k (firstn (width k) b) (bytes_ok_firstn _ _ B) L1) as [R E].
    destruct (IH (skipn (width k) b)) as (I1 & I2 & I3); [apply bytes_ok_skipn; exact B|rewrite skipn_length; lia|].
    split; [congruence|]. split; [constructor; eauto|]. rewrite I3. destruct (enc_int_exact k _ R) as [-> _]. rewrite E, firstn_skipn. reflexivity.
Qed.

(** ** Texts *)

Lemma before_nul_in b : ~ In 0 (before_nul b).
Proof. induction b as [|x b IH]; cbn [before_nul]; [tauto|]. destruct (Z.eqb_spec x 0); [tauto|]. cbn [In]. lia || tauto. Qed.
Lemma before_nul_ok b : bytes_ok b -> bytes_ok (before_nul b).
Proof. induction 1 as [|x b X B IH]; cbn [before_nul]; [constructor|]. destruct (x =? 0); constructor; auto. Qed.
Lemma before_nul_len b : (length (before_nul b) <= length b)%nat.
Proof. induction b as [|x b IH]; cbn [before_nul length]; [lia|]. destruct (x =? 0); cbn [length]; lia. Qed.
Lemma before_nul_split b : b = before_nul b \/ exists r, b = before_nul b ++ 0 :: r.
Proof.
  induction b as [|x b IH]; cbn [before_nul]; [left; reflexivity|]. destruct (Z.eqb_spec x 0) as [->|N].
  - right. exists b. reflexivity.
  - destruct IH as [E|(r & E)]; [left; congruence|right; exists r; cbn [app]; congruence].
Qed.
Lemma fit_tidy b : (forall a r, b = a ++ 0 :: r -> Forall (eq 0) r) -> fit (len b) (before_nul b) = b.
Proof.
  intros T. unfold fit, len. rewrite Nat2Z.id. destruct (before_nul_split b) as [E|(r & E)].
  - rewrite <- E, firstn_app, Nat.sub_diag, firstn_O, app_nil_r. apply firstn_all.
  - specialize (T _ _ E). set (a := before_nul b) in *. clearbody a. subst b.
    assert (0 :: r = repeat 0 (S (length r))) as ->.
    { cbn [repeat]. f_equal. clear - T. induction T as [|x r <- T IH]; [reflexivity|]. cbn [length repeat]. congruence. }
    rewrite app_length, repeat_length, firstn_app. rewrite firstn_all2 by lia. f_equal.
    replace (length a + S (length r) - length a)%nat with (S (length r)) by lia.
    replace (length a + S (length r))%nat with (S (length r) + length a)%nat by lia. rewrite repeat_app, firstn_app, repeat_length, Nat.sub_diag, firstn_O, app_nil_r.
    apply firstn_all2. rewrite repeat_length. lia.
Qed.

(** ** Values *)

Definition tidym (l : list (str * ty)) (b : bytes) : Prop := tidy (TRec l) b.
Lemma tidym_cons nm t l b : tidym ((nm, t) :: l) b <-> tidy t (firstn (Z.to_nat (tlen t)) b) /\ tidym l (skipn (Z.to_nat (tlen t)) b).
Proof. reflexivity. Qed.

Lemma dec_back t : wf_ty t -> distinct t -> forall b v, bytes_ok b -> len b = tlen t -> dec t b = Some v ->
  exact t v /\ (tidy t b -> enc t v = Some b).
Proof.
  induction t as [k|k n| |n|ms IH] using ty_ind2; intros W D b v B L E.
  - cbn [dec tlen] in *. injection E as <-. destruct (int_val_back k b B) as [R V]; [unfold len in L; lia|].
    split; [exact R|]. intros _. cbn [enc]. destruct (enc_int_exact k _ R) as [-> _]. congruence.
  - cbn [dec tlen wf_ty] in *. injection E as <-. destruct (dec_ints_back k (Z.to_nat n) b B) as (I1 & I2 & I3); [unfold len in L; lia|].
    split; [split; [unfold len; lia|exact I2]|]. intros _. exact I3.
  - destruct W.
  - cbn [dec tlen] in *. destruct (utf8_decode (before_nul b)) as [s|] eqn:U; [|discriminate]. injection E as <-.
    pose proof (utf8_decode_encode _ _ _ (le_n _) (before_nul_ok b B) U) as V. split.
    + split; [eapply utf8_decode_nonzero; [apply le_n|exact U|apply before_nul_in]|]. eexists. split; [exact V|]. pose proof (before_nul_len b). unfold len in *. lia.
    + intros T. cbn [enc]. rewrite V. cbn [tidy] in T. rewrite <- L, (fit_tidy b T). reflexivity.
  - rewrite dec_rec in E. destruct (decm ms b) as [d|] eqn:Dm; [|discriminate]. injection E as <-.
    apply wf_rec in W as [_ W]. apply distinct_rec in D as [ND D]. rewrite exact_rec, enc_rec. change (tidy (TRec ms) b) with (tidym ms b). change (tlen (TRec ms)) with (mlen ms) in L.
    cut (exactm ms d /\ forall d0, (forall nm, In nm (map fst ms) -> ~ In nm (map fst d0)) -> tidym ms b -> encm (d0 ++ d) ms = Some b).
    { intros [X G]. split; [exact X|]. intros T. apply (G []); [cbn; tauto|exact T]. }
    revert b d B L Dm. induction IH as [|[nm t] ms Ht IH IHm]; intros b d B L Dm.
    + cbn [decm] in Dm. injection Dm as <-. split; [exact I|]. intros d0 _ _. rewrite mlen_nil in L. assert (b = []) as -> by (destruct b; [reflexivity|unfold len in L; cbn in L; lia]). reflexivity.
    + apply Forall_cons_iff in W as [[N W1] W2]. apply Forall_cons_iff in D as [D1 D2]. cbn [map fst snd] in *. apply NoDup_cons_iff in ND as [ND1 ND2].
      rewrite mlen_cons in L. pose proof (tlen_nonneg t W1). pose proof (wfm_len ms W2). cbn [decm] in Dm.
      destruct (dec t (firstn (Z.to_nat (tlen t)) b)) as [x|] eqn:Dx; [|discriminate]. destruct (decm ms (skipn (Z.to_nat (tlen t)) b)) as [d'|] eqn:Dd; [|discriminate]. injection Dm as <-.
      destruct (Ht W1 D1 (firstn (Z.to_nat (tlen t)) b) x (bytes_ok_firstn _ _ B)) as [X1 G1]; [unfold len in *; rewrite firstn_length; lia|exact Dx|].
      destruct (IHm W2 ND2 D2 (skipn (Z.to_nat (tlen t)) b) d') as [X2 G2]; [apply bytes_ok_skipn; exact B|unfold len in *; rewrite skipn_length; lia|exact Dd|].
      split; [cbn [exactm]; auto|]. intros d0 Fr T. apply tidym_cons in T as [T1 T2]. cbn [encm].
      assert (dget nm (d0 ++ (nm, x) :: d') = Some x) as ->.
      { specialize (Fr nm (or_introl eq_refl)). clear - Fr. induction d0 as [|[n v] d0 IH]; cbn [app dget].
        - rewrite str_eqb_refl. reflexivity.
        - cbn [map fst In] in Fr. rewrite (proj2 (str_eqb_neq _ _)) by tauto. apply IH. tauto. }
      rewrite (G1 T1). replace (d0 ++ (nm, x) :: d') with ((d0 ++ [(nm, x)]) ++ d') by (rewrite <- app_assoc; reflexivity).
      rewrite (G2 (d0 ++ [(nm, x)])), firstn_skipn; [reflexivity| |exact T2].
      intros n I. rewrite map_app. intros J. apply in_app_or in J as [J|J]; [eapply Fr; [right; exact I|exact J]|]. cbn in J. destruct J as [<-|[]]. contradiction.
Qed.

(** ** Room *)

Lemma exactm_len : forall ms d, exactm ms d -> len d = len ms.
Proof.
  induction ms as [|[nm t] ms IH]; intros [|[n x] d] X; cbn [exactm] in X; try contradiction; [reflexivity|].
  destruct X as (_ & _ & X). apply IH in X. unfold len in *. cbn [length]. lia.
Qed.
Lemma short_arrays_rec ms : short_arrays (TRec ms) <->
  Forall (fun m => match snd m with TArr _ n => n <= len ms | t => short_arrays t end) ms.
Proof.
  cbn [short_arrays]. generalize (len ms). intros k. induction ms as [|[nm t] ms IH]; [split; constructor|].
  rewrite Forall_cons_iff. cbn [snd]. rewrite IH. destruct t; reflexivity.
Qed.
Lemma flat_roomy t v : flat t -> exact t v -> short_arrays t -> roomy t v.
Proof.
  destruct t as [| | | |ms]; try (destruct v; intros; exact I). destruct v as [| | | |d]; try (intros; exact I). intros [F _] X S. apply exact_rec, exactm_len in X. apply roomy_rec.
  unfold roomym. apply short_arrays_rec in S. apply Forall_forall. intros [nm t] M. pose proof (proj1 (Forall_forall _ _) F _ M) as F'. pose proof (proj1 (Forall_forall _ _) S _ M) as S'.
  cbn [snd fst] in *. unfold mroom. rewrite X. destruct t; try discriminate; cbn; try exact S'; destruct (dget nm d) as [[]|]; exact I.
Qed.
