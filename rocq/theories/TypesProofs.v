(** Lemmas on types: sizes and the set of types the compiler accepts. *)
From Coq Require Import ZifyBool ZifyNat Lia.
From Verif Require Import Py PyLemmas TypesModel CompilerModel VmModel TypesSpec.
Ltac Zify.zify_post_hook ::= Z.div_mod_to_equations.

Scheme denotes_mut := Induction for denotes Sort Prop
  with members_mut := Induction for members Sort Prop.
Combined Scheme denotes_members_ind from denotes_mut, members_mut.
Scheme accepts_mut := Induction for accepts Sort Prop
  with acc_members_mut := Induction for acc_members Sort Prop.
Combined Scheme accepts_members_ind from accepts_mut, acc_members_mut.

(** Induction over types. *)
Section TyInd.
  Variable P : ty -> Prop.
  Hypothesis Hint : forall k, P (TInt k).
  Hypothesis Harr : forall k n, P (TArr k n).
  Hypothesis Hchr : P TChr.
  Hypothesis Hstr : forall n, P (TStr n).
  Hypothesis Hrec : forall ms, Forall (fun m => P (snd m)) ms -> P (TRec ms).
  Fixpoint ty_ind2 (t : ty) : P t :=
    match t with
    | TInt k => Hint k
    | TArr k n => Harr k n
    | TChr => Hchr
    | TStr n => Hstr n
    | TRec ms =>
      Hrec ms ((fix go l : Forall (fun m => P (snd m)) l :=
                  match l with
                  | [] => Forall_nil _
                  | m :: r => Forall_cons m (ty_ind2 (snd m)) (go r)
                  end) ms)
    end.
End TyInd.

Definition mlen (ms : list (str * ty)) : Z := tlen (TRec ms).
Lemma mlen_nil : mlen [] = 0. Proof. reflexivity. Qed.
Lemma mlen_cons nm t ms : mlen ((nm, t) :: ms) = tlen t + mlen ms. Proof. reflexivity. Qed.

Lemma denotes_mono H :
  (forall n e t, denotes H n e t -> forall m, (n <= m)%nat -> denotes H m e t) /\
  (forall n es ms, members H n es ms -> forall m, (n <= m)%nat -> members H m es ms).
Proof.
  apply denotes_members_ind; intros;
    try match goal with L : (S _ <= ?m)%nat |- _ => destruct m; [lia|] end.
  1-4: constructor; auto.
  - constructor. apply H0. lia.
  - constructor. apply H0. lia.
  - constructor.
  - constructor; auto.
Qed.

Lemma denotes_det H :
  (forall n e t, denotes H n e t -> forall m t', denotes H m e t' -> t = t') /\
  (forall n es ms, members H n es ms -> forall m ms', members H m es ms' -> ms = ms').
Proof.
  apply denotes_members_ind; intros.
  - inversion H0; subst; cbn in *; congruence.
  - inversion H0; subst; cbn in *; congruence.
  - inversion H0; subst; cbn in *; congruence.
  - inversion H0; subst; cbn in *; congruence.
  - inversion H1; subst. f_equal. eapply H0; eauto.
  - inversion H1; subst. eapply H0; eauto.
  - inversion H0; subst. reflexivity.
  - inversion H2; subst. f_equal; [f_equal; [congruence|eapply H0; eauto]|eapply H1; eauto].
Qed.

Lemma accepts_denotes H :
  (forall n e t, accepts H n e t -> exists m, denotes H m e t) /\
  (forall n es ms, acc_members H n es ms -> exists m, members H m es ms).
Proof.
  apply accepts_members_ind; intros.
  - exists 1%nat. constructor; auto.
  - exists 1%nat. constructor; auto.
  - exists 1%nat. constructor; auto.
  - destruct H0 as [m Hm]. exists (S m). constructor; auto.
  - destruct H0 as [m Hm]. exists (S m). constructor; auto.
  - exists O. constructor.
  - destruct H0 as [m1 H0], H1 as [m2 H1]. exists (Nat.max m1 m2). econstructor; eauto.
    + eapply (proj1 (denotes_mono H)); eauto. lia.
    + eapply (proj2 (denotes_mono H)); eauto. lia.
Qed.

Lemma typeSize_kind c k : kind_of c = Some k -> typeSize c = Z.of_nat (width k).
Proof. destruct c; cbn; intros E; inversion E; reflexivity. Qed.

Lemma calcElemSize_denotes H :
  (forall n e t, denotes H n e t -> calcElemSize n H e = Ok (tlen t)) /\
  (forall n es ms, members H n es ms -> forall a,
     fold_left (fun acc c => do a <- acc; do s <- calcElemSize n H c; Ok (a + s)) es (Ok a)
     = Ok (a + mlen ms)).
Proof.
  apply denotes_members_ind; intros; cbn [calcElemSize tlen].
  - erewrite typeSize_kind by eauto. reflexivity.
  - erewrite typeSize_kind by eauto. reflexivity.
  - reflexivity.
  - cbn [typeSize]. f_equal; try lia.
  - rewrite H0. reflexivity.
  - exact H0.
  - cbn [fold_left]. rewrite mlen_nil. f_equal; try lia.
  - cbn [fold_left bind]. rewrite H0. cbn [bind]. rewrite H1, mlen_cons. f_equal. lia.
Qed.

Lemma calcElemSize_fuel H n e t fuel : denotes H n e t -> (n <= fuel)%nat ->
  calcElemSize fuel H e = Ok (tlen t).
Proof.
  intros D L. apply (proj1 (calcElemSize_denotes H)). eapply (proj1 (denotes_mono H)); eauto.
Qed.

(** The size of a list of elements. *)
Definition sizes (l : list delem) : nat :=
  fold_right (fun e n => delem_size e + n)%nat 0%nat l.
Lemma delem_size_rec nm es : delem_size (DRec nm es) = S (sizes es).
Proof. reflexivity. Qed.
Lemma delem_size_pos e : (1 <= delem_size e)%nat.
Proof. destruct e; cbn; lia. Qed.

(** Turns still needed by the loop. *)
Definition turns_for (i : list delem) (stack : list (list delem)) : nat :=
  (2 * sizes i + fold_right (fun l n => 2 * sizes l + 1 + n) 0 stack + 1)%nat.

Definition tsum (l : list ty) : Z := fold_right (fun t z => tlen t + z) 0 l.
Definition tsums (l : list (list ty)) : Z := fold_right (fun t z => tsum t + z) 0 l.

Lemma members_sum H n es ms : members H n es ms ->
  exists ts, Forall2 (denotes H n) es ts /\ tsum ts = mlen ms.
Proof.
  induction ms as [|[nm t] ms IH] in es |- *; intros M; inversion M; subst.
  - exists []. split; [constructor|reflexivity].
  - destruct (IH es0) as (ts & F & E); auto.
    exists (t :: ts). split; [constructor; auto|].
    unfold tsum in *. cbn [fold_right]. rewrite E, mlen_cons. reflexivity.
Qed.

Lemma packLen_loop_ok H fuel : forall turns i stack acc ts sts,
  Forall2 (denotes H fuel) i ts -> Forall2 (Forall2 (denotes H fuel)) stack sts ->
  (turns_for i stack <= turns)%nat ->
  packLen_loop turns fuel H i stack acc = Ok (acc + tsum ts + tsums sts).
Proof.
  induction turns as [|k IH]; intros i stack acc ts sts Fi Fs L.
  - unfold turns_for in L. lia.
  - cbn [packLen_loop]. inversion Fi as [|e t i' ts' De Fi']; subst.
    + inversion Fs as [|i' ts' st' sts' Fi' Fs']; subst.
      * unfold tsum, tsums. cbn. f_equal; try lia.
      * rewrite (IH i' st' acc ts' sts') by
          (auto; unfold turns_for in *; cbn [sizes fold_right] in *; fold (sizes i') in *; lia).
        unfold tsums. cbn [fold_right]. change (tsum []) with 0. f_equal; lia.
    + assert (P := delem_size_pos e).
      destruct e as [nm c lo hi a|nm es|nm r].
      * rewrite (proj1 (calcElemSize_denotes H) _ _ _ De). cbn [bind].
        rewrite (IH i' stack (acc + tlen t) ts' sts) by
          (auto; unfold turns_for in *; cbn [sizes fold_right] in *; fold (sizes i') in *; lia).
        unfold tsum. cbn [fold_right]. f_equal; lia.
      * inversion De; subst.
        match goal with M : members _ _ _ _ |- _ => apply members_sum in M as (us & Fu & Eu) end.
        assert (Fu' : Forall2 (denotes H (S n)) es us).
        { clear - Fu. induction Fu; constructor; auto.
          eapply (proj1 (denotes_mono H)); eauto. }
        erewrite IH; [|exact Fu'|constructor; [exact Fi'|exact Fs]|].
        -- unfold tsums, tsum in *. cbn [fold_right]. change (tlen (TRec ms)) with (mlen ms).
           f_equal; try lia.
        -- unfold turns_for in *. cbn [sizes fold_right] in *.
           rewrite delem_size_rec in L. fold (sizes i') in *. lia.
      * rewrite (proj1 (calcElemSize_denotes H) _ _ _ De). cbn [bind].
        rewrite (IH i' stack (acc + tlen t) ts' sts) by
          (auto; unfold turns_for in *; cbn [sizes fold_right] in *; fold (sizes i') in *; lia).
        unfold tsum. cbn [fold_right]. f_equal; lia.
Qed.

Lemma packLen_denotes H n e t fuel : denotes H n e t -> (n <= fuel)%nat ->
  packLen fuel H e = Ok (tlen t).
Proof.
  intros D L. unfold packLen.
  rewrite (packLen_loop_ok H fuel _ [e] [] 0 [t] []).
  - unfold tsum, tsums. cbn. f_equal; try lia.
  - constructor; [|constructor]. eapply (proj1 (denotes_mono H)); eauto.
  - constructor.
  - unfold turns_for. cbn [sizes fold_right]. lia.
Qed.
