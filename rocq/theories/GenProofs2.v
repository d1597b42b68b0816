(** Lemmas about the C generator: what objects and bytes mean. *)
From Coq Require Import ZifyBool ZifyNat Lia.
From Verif Require Import Py PyLemmas TypesModel CompilerModel VmModel TypesSpec TypesProofs
  VmProofs VmPackProofs VmUnpackProofs TextModel SigModel AttrModel NodeModel NodeDataModel NodeDataSpec NodeDataProofs
  GenModel GenSpec GenProofs.
Ltac Zify.zify_post_hook ::= Z.div_mod_to_equations.

Definition meanings : list (str * ty) -> list (str * cval) -> option (list (str * pyval)) :=
  fix go ms fs := match ms, fs with
                  | [], [] => Some []
                  | (nm, t) :: ms', (_, x) :: fs' =>
                    match meaning t x, go ms' fs' with
                    | Some v, Some d => Some ((nm, v) :: d)
                    | _, _ => None
                    end
                  | _, _ => None
                  end.
Definition terminateds : list (str * ty) -> bytes -> Prop :=
  fix go ms b := match ms with
                 | [] => True
                 | (_, t) :: ms' =>
                   terminated t (firstn (Z.to_nat (tlen t)) b) /\ go ms' (skipn (Z.to_nat (tlen t)) b)
                 end.
Lemma meaning_rec ms fs : meaning (TRec ms) (CStruct fs) = match meanings ms fs with Some d => Some (VDict d) | None => None end.
Proof. reflexivity. Qed.
Lemma terminated_rec ms b : terminated (TRec ms) b = terminateds ms b. Proof. reflexivity. Qed.

Lemma before_nul_app a b : In 0 a -> before_nul (a ++ b) = before_nul a.
Proof.
  induction a as [|x a IH]; intros I; [destruct I|]. cbn [app before_nul]. destruct (Z.eqb_spec x 0); [reflexivity|].
  f_equal. apply IH. destruct I; [congruence|assumption].
Qed.
Lemma before_nul_last a b : ~ In 0 a -> before_nul (a ++ 0 :: b) = a.
Proof.
  induction a as [|x a IH]; intros I; [reflexivity|]. cbn [app before_nul In] in *. destruct (Z.eqb_spec x 0); [tauto|].
  f_equal. apply IH. tauto.
Qed.
Lemma nul_in l : existsb (Z.eqb 0) l = true <-> In 0 l.
Proof.
  rewrite existsb_exists. split; [intros (x & I & E); apply Z.eqb_eq in E; subst; exact I|].
  intros I. exists 0. auto.
Qed.

Lemma dec_flat k l : Forall (fun z => kmin k <= z <= kmax k) l ->
  dec_ints k (length l) (flat_map (num_le (width k)) l) = map VInt l.
Proof.
  induction 1 as [|z l R F IH]; [reflexivity|]. cbn [length dec_ints flat_map map].
  assert (L : length (num_le (width k) z) = width k) by (pose proof (num_le_len (width k) z); unfold len in *; lia).
  rewrite firstn_app, firstn_all2, L, Nat.sub_diag by lia. cbn [firstn]. rewrite app_nil_r.
  rewrite (proj2 (enc_int_exact k z R)). rewrite skipn_app, skipn_all2, L, Nat.sub_diag by lia. cbn [skipn app].
  f_equal. exact IH.
Qed.
Lemma dec_ints_of k : forall n b, dec_ints k n b = map VInt (ints_of k n b).
Proof. induction n as [|n IH]; intros b; [reflexivity|]. cbn [dec_ints ints_of map]. f_equal. apply IH. Qed.

Lemma image_means H :
  (forall d t, cable H d t -> forall s c v, shape s t c -> meaning t c = Some v -> dec t (image t c) = Some v) /\
  (forall es ms, cables H es ms -> forall s fs d, shapes s ms fs -> meanings ms fs = Some d -> decm ms (images ms fs) = Some d).
Proof.
  apply cable_cables_ind.
  - intros nm c lo hi k K S s [z| |] v SH M; cbn [shape] in SH; try contradiction. cbn [meaning] in M. injection M as <-.
    cbn [image dec]. rewrite (proj2 (enc_int_exact k z SH)). reflexivity.
  - intros nm c lo hi k n K S N s [|l|] v SH M; cbn [shape] in SH; try contradiction. cbn [meaning] in M. injection M as <-.
    destruct SH as [L F]. cbn [image dec]. replace (Z.to_nat n) with (length l) by (unfold len in L; lia).
    rewrite (dec_flat k l F). reflexivity.
  - intros nm lo hi n N s [|l|] v SH M; cbn [shape] in SH; try contradiction. destruct SH as [L _]. cbn [meaning] in M.
    cbn [image dec]. destruct (existsb (Z.eqb 0) l) eqn:Z; [|discriminate]. apply nul_in in Z.
    replace (before_nul (firstn (Z.to_nat (n - 1)) l ++ [0])) with (before_nul l); [exact M|].
    rewrite <- (firstn_skipn (Z.to_nat (n - 1)) l) at 1.
    destruct (in_dec Z.eq_dec 0 (firstn (Z.to_nat (n - 1)) l)) as [I|I].
    + rewrite !before_nul_app by exact I. reflexivity.
    + rewrite before_nul_last by exact I.
      assert (T : exists x, skipn (Z.to_nat (n - 1)) l = [x]).
      { pose proof (skipn_length (Z.to_nat (n - 1)) l) as SL. unfold len in L.
        destruct (skipn (Z.to_nat (n - 1)) l) as [|x [|y r]] eqn:E; cbn [length] in SL; try lia. eauto. }
      destruct T as [x T]. rewrite T. rewrite <- (firstn_skipn (Z.to_nat (n - 1)) l), T in Z. apply in_app_or in Z as [Z|[->|[]]]; [contradiction|].
      apply before_nul_last. exact I.
  - intros nm es ms ND CS IH s [| |fs] v SH M; try contradiction. rewrite meaning_rec in M.
    destruct (meanings ms fs) as [d|] eqn:E; [|discriminate]. rewrite image_rec, dec_rec, (IH s fs d SH E). exact M.
  - intros nm r nm' c lo hi k R K S s [z| |] v SH M; cbn [shape] in SH; try contradiction. cbn [meaning] in M. injection M as <-.
    cbn [image dec]. rewrite (proj2 (enc_int_exact k z SH)). reflexivity.
  - intros s [|] d SH M; [|contradiction]. exact M.
  - intros e es nm t ms E C IH CS IHS s [|[k x] fs] d SH M; cbn [shapes] in SH; [contradiction|]. destruct SH as (-> & S1 & S2).
    cbn [meanings] in M. destruct (meaning t x) as [v|] eqn:Mx; [|discriminate]. fold meanings in M.
    destruct (meanings ms fs) as [d'|] eqn:Ms; [|discriminate]. injection M as <-.
    pose proof (proj2 (proj1 (image_lens H) _ _ C) _ _ S1) as L.
    cbn [images decm]. fold images.
    assert (L' : length (image t x) = Z.to_nat (tlen t)) by (unfold len in L; lia).
    rewrite firstn_app, firstn_all2, L', Nat.sub_diag by lia. cbn [firstn]. rewrite app_nil_r.
    rewrite (IH _ _ _ S1 Mx). rewrite skipn_app, skipn_all2, L', Nat.sub_diag by lia. cbn [skipn app].
    rewrite (IHS _ _ _ S2 Ms). reflexivity.
Qed.

Lemma loaded_means H :
  (forall d t, cable H d t -> forall s old b v, shape s t old -> len b = tlen t -> terminated t b -> dec t b = Some v ->
     meaning t (loaded t old b) = Some v) /\
  (forall es ms, cables H es ms -> forall s fs b d, shapes s ms fs -> len b = mlen ms -> terminateds ms b -> decm ms b = Some d ->
     meanings ms (loadeds ms fs b) = Some d).
Proof.
  apply cable_cables_ind.
  - intros nm c lo hi k K S s [z| |] b v SH L T D; cbn [shape] in SH; try contradiction. exact D.
  - intros nm c lo hi k n K S N s [|l|] b v SH L T D; cbn [shape] in SH; try contradiction.
    cbn [dec] in D. rewrite dec_ints_of in D. exact D.
  - intros nm lo hi n N s [|l|] b v SH L T D; cbn [shape] in SH; try contradiction. destruct SH as [LL _].
    cbn [terminated] in T. cbn [loaded meaning]. cbn [dec] in D.
    replace (existsb _ _) with true by (symmetry; apply nul_in, in_or_app; left; exact T).
    rewrite before_nul_app by exact T. rewrite <- (firstn_skipn (Z.to_nat (n - 1)) b), before_nul_app in D by exact T. exact D.
  - intros nm es ms ND CS IH s [| |fs] b v SH L T D; try contradiction. rewrite loaded_rec, meaning_rec. rewrite dec_rec in D.
    destruct (decm ms b) as [d|] eqn:E; [|discriminate]. rewrite (IH s fs b d SH L T E). exact D.
  - intros nm r nm' c lo hi k R K S s [z| |] b v SH L T D; cbn [shape] in SH; try contradiction. exact D.
  - intros s [|] b d SH L T D; [|contradiction]. exact D.
  - intros e es nm t ms E C IH CS IHS s [|[k x] fs] b d SH L T D; cbn [shapes] in SH; [contradiction|]. destruct SH as (-> & S1 & S2).
    rewrite mlen_cons in L. pose proof (proj1 (proj1 (image_lens H) _ _ C)). pose proof (proj1 (proj2 (image_lens H) _ _ CS)).
    cbn [terminateds] in T. destruct T as [T1 T2]. cbn [decm] in D.
    destruct (dec t _) as [v|] eqn:D1; [|discriminate]. destruct (decm ms _) as [d'|] eqn:D2; [|discriminate]. injection D as <-.
    cbn [loadeds meanings]. fold loadeds. fold meanings.
    rewrite (IH _ _ (firstn (Z.to_nat (tlen t)) b) _ S1 ltac:(rewrite len_firstn; lia) T1 D1).
    rewrite (IHS _ _ (skipn (Z.to_nat (tlen t)) b) _ S2 ltac:(rewrite len_skipn; lia) T2 D2). reflexivity.
Qed.

(** Supported types are types. *)
Lemma resolve_denotes H c lo hi k nm' : kind_of c = Some k ->
  forall count e, resolve_loop count H e = Ok (DPrim nm' c lo hi None) -> exists n, denotes H n e (TInt k).
Proof.
  intros K. induction count as [|count IH]; intros e R; cbn [resolve_loop] in R.
  - destruct e as [nm c' lo' hi' a|nm es|nm r]; cbn in R; try discriminate. injection R as -> -> -> -> ->. exists 1%nat. constructor. exact K.
  - destruct e as [nm c' lo' hi' a|nm es|nm [i|s|o]]; try discriminate.
    + injection R as -> -> -> -> ->. exists 1%nat. constructor. exact K.
    + destruct (IH _ R) as [n D]. exists (S n). constructor. exact D.
Qed.

Lemma cable_denotes H :
  (forall d t, cable H d t -> exists n, denotes H n d t) /\
  (forall es ms, cables H es ms -> exists n, members H n es ms).
Proof.
  apply cable_cables_ind.
  - intros. exists 1%nat. constructor. assumption.
  - intros. exists 1%nat. constructor. assumption.
  - intros. exists 1%nat. constructor.
  - intros nm es ms ND CS [n M]. exists (S n). constructor. exact M.
  - intros nm r nm' c lo hi k R K S. exact (resolve_denotes H c lo hi k nm' K _ _ R).
  - exists 1%nat. constructor.
  - intros e es nm t ms E C [n D] CS [n' M]. exists (Nat.max n n'). constructor; [exact E| |].
    + apply (proj1 (denotes_mono H) n); [exact D|lia].
    + apply (proj2 (denotes_mono H) n'); [exact M|lia].
Qed.
