(** Lemmas for the merging of compatible nodes. *)
From Coq Require Import ZifyBool ZifyNat Lia.
From Verif Require Import Py PyLemmas TypesModel TextModel SigModel AttrModel NodeModel.
From Verif Require Import SigSpec NodeSpec MergeSpec MergeOkSpec TextProofs SigProofs NodeProofs ElemTextProofs MirrorProofs FinalizeProofs ExtendProofs.
Ltac Zify.zify_post_hook ::= Z.div_mod_to_equations.

(** ** Elements that say the same have the same text *)

Lemma moved_text H H2 types types2 names names2 : Forall2 (fun o nm => dt_name (H o) = nm) types names ->
  Forall2 (fun o nm => dt_name (H2 o) = nm) types2 names2 -> forall a2 a, moved names2 names a2 a ->
  forall e e2, stands types e a -> stands types2 e2 a2 -> elem_string true H e = elem_string true H2 e2 /\ de_name e = de_name e2.
Proof.
  intros F F2.
  apply (moved_mind names2 names (fun a2 a _ => forall e e2, stands types e a -> stands types2 e2 a2 -> elem_string true H e = elem_string true H2 e2 /\ de_name e = de_name e2)
    (fun l2 l _ => forall es es2, stands_all types es l -> stands_all types2 es2 l2 -> members_string true H es = members_string true H2 es2)).
  - intros n c lo hi k e e2 A B. inversion A; subst. inversion B; subst. auto.
  - intros n i j nm A B e e2 C D. inversion C as [|? o ? O|]; subst. inversion D as [|? o2 ? O2|]; subst.
    repeat match goal with X : Z.of_nat _ = Z.of_nat _ |- _ => apply Nat2Z.inj in X; subst end.
    destruct (Forall2_nth _ _ _ _ _ F O) as (x & X & NX). destruct (Forall2_nth _ _ _ _ _ F2 O2) as (y & Y & NY).
    split; [|reflexivity]. cbn [elem_string]. rewrite NX, NY. replace x with y by congruence. reflexivity.
  - intros n l l' _ IH e e2 A B. inversion A; subst. inversion B; subst. split; [|reflexivity]. rewrite !elem_string_rec. erewrite IH by eassumption. reflexivity.
  - intros es es2 A B. inversion A; subst. inversion B; subst. reflexivity.
  - intros a a' l l' _ IH _ IHs es es2 A B. inversion A; subst. inversion B; subst. cbn [members_string].
    destruct (IH _ _ ltac:(eassumption) ltac:(eassumption)) as [-> ->]. erewrite IHs by eassumption. reflexivity.
Qed.
Lemma described_text H H' types : findable true H types -> forall e a, stands types e a ->
  elem_string true H' (described true H e) = elem_string true H e /\ de_name (described true H e) = de_name e.
Proof.
  intros FN.
  apply (stands_mind types (fun e a _ => elem_string true H' (described true H e) = elem_string true H e /\ de_name (described true H e) = de_name e)
    (fun es l _ => members_string true H' (map (described true H) es) = members_string true H es)).
  - auto.
  - intros n o i O. destruct (FN _ _ O) as ((s & S1 & _) & _). cbn [described]. unfold reference_text. rewrite S1. split; [|reflexivity].
    cbn [elem_string]. rewrite S1. reflexivity.
  - intros n es l _ IH. split; [|reflexivity]. cbn [described]. rewrite !elem_string_rec, IH. reflexivity.
  - reflexivity.
  - intros e a es l _ [IH1 IH2] _ IHs. cbn [map members_string]. rewrite IH1, IH2, IHs. reflexivity.
Qed.

Lemma type_text_ok W nd D i o t : inv W nd D -> nth_error (n_types nd) i = Some o -> nth_error (df_types D) i = Some t ->
  stands (n_types nd) (dt_elem (w_types W o)) (td_elem t) /\ dt_name (w_types W o) = td_name t /\ dt_attr (w_types W o) = td_attr t /\
  dt_short (w_types W o) = None /\ exists s, elem_string true (w_types W) (dt_elem (w_types W o)) = Ok s /\ parse_signature s = Ok (described true (w_types W) (dt_elem (w_types W o))).
Proof.
  intros IN O T. pose proof (inv_find _ _ _ IN) as FN. destruct IN as (R & L & CP & TT & US).
  destruct (Forall2_nth _ _ _ _ _ (rp_types _ _ _ R) O) as (t' & T' & N & A & ST). assert (t' = t) by congruence. subst t'. clear T'.
  pose proof (nth_error_In _ _ T) as IT. destruct (TT t IT) as [_ TD].
  destruct (stands_text true _ _ _ FN (rep_names _ _ _ R) _ _ ST TD) as (PR & _ & _). destruct (signature_read true _ _ PR) as (s & S1 & S2).
  rewrite nameless_described in S2 by (eapply stands_nameless; [exact ST|]; apply (ln_plain _ L); exact IT).
  split; [exact ST|]. split; [exact N|]. split; [exact A|]. split; [apply US; eapply nth_error_In; eauto|]. eauto.
Qed.
Lemma clone_type_ok W nd D i o t : inv W nd D -> nth_error (n_types nd) i = Some o -> nth_error (df_types D) i = Some t ->
  clone_type (w_types W) (w_types W o) = Ok (mk_dtype (td_name t) (described true (w_types W) (dt_elem (w_types W o))) (td_attr t) None None).
Proof.
  intros IN O T. destruct (type_text_ok _ _ _ _ _ _ IN O T) as (ST & N & A & SH & s & S1 & S2). unfold clone_type. rewrite S1. cbn [bind].
  rewrite N, A. unfold make_type. rewrite S2. cbn [bind]. destruct (td_attr t) as [x|] eqn:AT; [|reflexivity].
  destruct IN as (_ & L & _). destruct (ln_tattr _ L t x (nth_error_In _ _ T) AT) as (v & ->). reflexivity.
Qed.
Lemma same_type_text W nd D other D2 i o t j oo t2 : inv W nd D -> inv W other D2 -> nth_error (n_types nd) i = Some o -> nth_error (df_types D) i = Some t ->
  nth_error (n_types other) j = Some oo -> nth_error (df_types D2) j = Some t2 -> same_type D2 D t2 t ->
  elem_string true (w_types W) (dt_elem (w_types W o)) = elem_string true (w_types W) (dt_elem (w_types W oo)) /\
  verify_equal (type_string true (w_types W) (w_types W o)) (type_string true (w_types W) (w_types W oo)) = Ok tt.
Proof.
  intros IN IN2 O T OO T2 (N & A & MV). destruct (type_text_ok _ _ _ _ _ _ IN O T) as (ST & N1 & A1 & SH1 & s & S1 & _).
  destruct (type_text_ok _ _ _ _ _ _ IN2 OO T2) as (ST2 & N2 & A2 & SH2 & s2 & S2 & _).
  destruct (moved_text (w_types W) (w_types W) _ _ _ _ (rep_names _ _ _ (proj1 IN)) (rep_names _ _ _ (proj1 IN2)) _ _ MV _ _ ST ST2) as [E _].
  split; [exact E|]. unfold type_string. rewrite E, S2. cbn [bind]. rewrite SH1, SH2, N1, N2, A1, A2, N, A. apply (verify_equal_refl _ _ eq_refl).
Qed.

(** ** Agreement of the types, and chains of references *)

Definition agree (D D2 : ndef) : Prop :=
  forall t t2, In t (df_types D) -> In t2 (df_types D2) -> td_name t = td_name t2 -> same_type D2 D t2 t.
Lemma agree_more D D2 ts : NoDup (type_names D2) -> agree D D2 ->
  Forall (fun t => exists t2, In t2 (df_types D2) /\ same_type D2 (plus_types D ts) t2 t) ts -> agree (plus_types D ts) D2.
Proof.
  intros ND AG FR t t2 I I2 N. cbn [plus_types df_types] in I. apply in_app_or in I as [I|I].
  - apply same_type_more. apply AG; assumption.
  - rewrite Forall_forall in FR. destruct (FR t I) as (u & IU & ST). pose proof ST as (NU & _).
    assert (u = t2) as <-; [|exact ST]. apply In_nth_error in IU as (a & IU). apply In_nth_error in I2 as (b & I2).
    assert (a = b); [|congruence]. apply (nodup_nth (type_names D2) a b (td_name t) ND); unfold type_names; rewrite nth_error_map; [rewrite IU|rewrite I2]; cbn; congruence.
Qed.
Lemma from_upto_in D2 need D i ts : Forall (from_upto D2 need D i) ts -> Forall (fun t => exists t2, In t2 (df_types D2) /\ same_type D2 D t2 t) ts.
Proof. apply Forall_impl. intros t (j & u & _ & U & ST & _). exists u. split; [eapply nth_error_In; eauto|exact ST]. Qed.

Lemma nth_name D i t : nth_error (df_types D) i = Some t -> nth_error (type_names D) i = Some (td_name t).
Proof. intros E. unfold type_names. rewrite nth_error_map, E. reflexivity. Qed.
Lemma name_nth D i nm : nth_error (type_names D) i = Some nm -> exists t, nth_error (df_types D) i = Some t /\ td_name t = nm.
Proof. unfold type_names. rewrite nth_error_map. destruct (nth_error (df_types D) i) as [t|]; intros E; [|discriminate]. injection E as <-. eauto. Qed.

Lemma reaches_moved D D2 : agree D D2 -> forall n a2, reaches (df_types D2) n a2 -> forall a, moved (type_names D2) (type_names D) a2 a -> reaches (df_types D) n a.
Proof.
  intros AG n a2 RC. induction RC as [n a2 NR|n nm i t2 T RC IH]; intros a MV.
  - constructor. intros X. apply NR. apply (moved_ref _ _ _ _ MV). exact X.
  - inversion MV as [|n' i' j nm' A B|]; subst. match goal with X : Z.of_nat _ = Z.of_nat _ |- _ => apply Nat2Z.inj in X; subst end.
    rewrite (nth_name _ _ _ T) in A. injection A as <-. apply name_nth in B as (t & T1 & N).
    econstructor; [exact T1|]. apply IH. apply (AG t t2); eauto using nth_error_In.
Qed.

(** ** Taking over a type *)

Lemma opt_str_dec (a b : option str) : {a = b} + {a <> b}.
Proof. decide equality. apply (list_eq_dec Z.eq_dec). Qed.
Lemma refless_same H types names : forall e a, stands types e a -> refless a -> described true H e = a /\ refers names a a.
Proof.
  apply (stands_mind types (fun e a _ => refless a -> described true H e = a /\ refers names a a)
    (fun es l _ => Forall refless l -> map (described true H) es = l /\ refers_all names l l)).
  - intros. split; [reflexivity|constructor].
  - intros n o i O X. inversion X.
  - intros n es l _ IH X. inversion X; subst. destruct (IH ltac:(assumption)) as [A B]. split; [cbn [described]; rewrite A; reflexivity|constructor; exact B].
  - intros _. split; [reflexivity|constructor].
  - intros e a es l _ IH _ IHs X. inversion X; subst. destruct (IH ltac:(assumption)) as [A B]. destruct (IHs ltac:(assumption)) as [A' B'].
    split; [cbn [map]; rewrite A, A'; reflexivity|constructor; assumption].
Qed.
Lemma nth_of_in {A} (l : list A) x : In x l -> exists i, nth_error l i = Some x.
Proof. apply In_nth_error. Qed.

Section Take.
  Variables (other : node) (D2 : ndef).

  Lemma members_refer W names : src W other D2 -> forall es l, stands_all (n_types other) es l -> Forall (member D2) l ->
    (forall n j u, In (DRef n (RInt (Z.of_nat j))) l -> nth_error (df_types D2) j = Some u -> In (td_name u) names) ->
    exists l', refers_all names (map (described true (w_types W)) es) l'.
  Proof.
    intros SR es l SA. pose proof (inv_find _ _ _ (src_inv _ _ _ SR)) as FN. induction SA as [|e a es l ST SA IH]; intros M NM; [exists []; constructor|].
    inversion M as [|? ? M1 M2]; subst. destruct IH as (l' & RL); [exact M2|intros n j u I; apply (NM n j u); right; exact I|].
    assert (exists a', refers names (described true (w_types W) e) a') as (a' & RA); [|exists (a' :: l'); constructor; assumption].
    inversion M1 as [? RL1|n j MJ]; subst.
    - destruct (refless_same (w_types W) _ names _ _ ST RL1) as [-> ?]. eauto.
    - inversion ST as [|? o ? O|]; subst. match goal with X : Z.of_nat _ = Z.of_nat _ |- _ => apply Nat2Z.inj in X; subst end.
      destruct (Forall2_nth _ _ _ _ _ (rp_types _ _ _ (proj1 SR)) O) as (u & U & N & _). destruct (FN _ _ O) as ((s & S1 & _) & _).
      specialize (NM n j u (or_introl eq_refl) U). rewrite <- N, S1 in NM. apply In_nth_error in NM as (x & X).
      exists (DRef n (RInt (Z.of_nat x))). cbn [described]. unfold reference_text. rewrite S1. constructor. exact X.
  Qed.

  Definition takes (k i : nat) : Prop := forall W nd D o t2, inv W nd D -> src W other D2 -> agree D D2 ->
    nth_error (n_types other) i = Some o -> nth_error (df_types D2) i = Some t2 -> exists W' nd' o', add_type_from k W nd o = Ok (W', nd', o').

  Lemma takes_name k i W nd D o t2 W' nd' o' : inv W nd D -> src W other D2 -> agree D D2 -> nth_error (n_types other) i = Some o -> nth_error (df_types D2) i = Some t2 ->
    add_type_from k W nd o = Ok (W', nd', o') ->
    exists ts, grown D2 (fun _ => True) (S i) W nd D W' nd' ts /\ agree (plus_types D ts) D2 /\ In (td_name t2) (type_names (plus_types D ts)).
  Proof.
    intros IN SR AG O T E. destruct (add_type_from_adds other D2 (fun _ => True) (fun _ _ _ _ _ _ => Logic.I) k W nd D o i t2 W' nd' o' IN SR O T Logic.I E) as (ts & G & X). exists ts. split; [exact G|].
    split; [apply agree_more; [apply SR|exact AG|eapply from_upto_in; apply G]|]. rewrite plus_types_names. apply in_or_app.
    destruct (in_dec opt_str_dec (td_name t2) (type_names D)) as [I|NI]; [left; exact I|right]. destruct (X NI) as (_ & _ & t & It & <-). apply in_map. exact It.
  Qed.

  Lemma members_take k i : (forall j, (j < i)%nat -> movable D2 j -> takes k j) -> forall es l, stands_all (n_types other) es l -> belows i l -> Forall (member D2) l ->
    forall W nd D, inv W nd D -> src W other D2 -> agree D D2 ->
    exists W' nd' ts, fold_left (member_step k) es (Ok (W, nd)) = Ok (W', nd') /\ grown D2 (fun _ => True) i W nd D W' nd' ts /\ agree (plus_types D ts) D2 /\
      forall n j u, In (DRef n (RInt (Z.of_nat j))) l -> nth_error (df_types D2) j = Some u -> In (td_name u) (type_names (plus_types D ts)).
  Proof.
    intros IH es l SA. induction SA as [|e a es l ST SA IHl]; intros B M W nd D IN SR AG.
    - exists W, nd, []. rewrite plus_types_nil. split; [reflexivity|]. split; [apply grown_refl; exact IN|]. split; [exact AG|]. intros n j u [].
    - inversion B as [|? ? B1 B2]; subst. inversion M as [|? ? M1 M2]; subst. cbn [fold_left].
      assert (exists W1 nd1 ts, member_step k (Ok (W, nd)) e = Ok (W1, nd1) /\ grown D2 (fun _ => True) i W nd D W1 nd1 ts /\ agree (plus_types D ts) D2 /\
        forall n j u, a = DRef n (RInt (Z.of_nat j)) -> nth_error (df_types D2) j = Some u -> In (td_name u) (type_names (plus_types D ts))) as (W1 & nd1 & ts & E & G & AG1 & NM).
      { inversion M1 as [? RL1|n j MJ]; subst.
        - exists W, nd, []. rewrite plus_types_nil. split; [|split; [apply grown_refl; exact IN|split; [exact AG|intros n j u ->; inversion RL1]]].
          inversion ST; subst; [reflexivity|inversion RL1|reflexivity].
        - inversion ST as [|? o ? O|]; subst. inversion B1 as [|? j' LT|]; subst. repeat match goal with X : Z.of_nat _ = Z.of_nat _ |- _ => apply Nat2Z.inj in X; subst end.
          destruct (Forall2_nth _ _ _ _ _ (rp_types _ _ _ (proj1 SR)) O) as (u & U & _).
          destruct (IH j LT MJ W nd D o u IN SR AG O U) as (W1 & nd1 & o1 & E).
          destruct (takes_name k j W nd D o u W1 nd1 o1 IN SR AG O U E) as (ts & G & AG1 & NM).
          exists W1, nd1, ts. unfold member_step. cbn [bind]. rewrite E. cbn [bind]. split; [reflexivity|]. split; [eapply grown_upto; [|exact G]; lia|]. split; [exact AG1|].
          intros n' j' u' X U'. injection X as _ X. apply Nat2Z.inj in X. subst j'. replace u' with u by congruence. exact NM. }
      rewrite E. destruct (IHl B2 M2 W1 nd1 (plus_types D ts) ltac:(apply G) ltac:(eapply src_wle; [apply G|exact SR]) AG1) as (W2 & nd2 & ts2 & E2 & G2 & AG2 & NM2).
      rewrite plus_types_app in AG2, NM2. exists W2, nd2, (ts ++ ts2). split; [exact E2|]. split; [eapply grown_trans; eauto|]. split; [exact AG2|].
      intros n j u [X|X] U; [|eapply NM2; eauto]. rewrite <- plus_types_app, plus_types_names. apply in_or_app. left. eapply NM; eauto.
  Qed.

  Lemma add_type_from_takes : linked D2 -> forall k i, (i < k)%nat -> movable D2 i -> takes k i.
  Proof.
    intros L2. induction k as [|k IH]; intros i LT MI W nd D o t2 IN SR AG O T; [lia|]. cbn [add_type_from].
    pose proof (src_inv _ _ _ SR) as IN2. destruct (type_text_ok _ _ _ _ _ _ IN2 O T) as (ST & N & A & SH & _).
    pose proof (ln_below _ L2 i t2 T) as BL.
    assert (~ is_ref (td_elem t2)) as NR by (inversion MI; subst; match goal with X : nth_error (df_types D2) i = Some ?x |- _ => assert (x = t2) by congruence; subst x end;
      match goal with X : td_elem t2 = _ |- _ => rewrite X end; exact (fun x => x)).
    assert (exists W1 nd1 ts, match dt_elem (w_types W o) with
        | DPrim _ _ _ _ _ => Ok (W, nd)
        | DRec _ es => fold_left (member_step k) es (Ok (W, nd))
        | DRef _ _ => Err NotImplementedError end = Ok (W1, nd1) /\ grown D2 (fun _ => True) i W nd D W1 nd1 ts /\ agree (plus_types D ts) D2 /\
        exists a, ~ is_ref a /\ refers (type_names (plus_types D ts)) (described true (w_types W) (dt_elem (w_types W o))) a) as (W1 & nd1 & ts & E & G & AG1 & a & NRA & RF).
    { inversion MI as [? t n c lo hi x T' EE|? t n l T' EE M]; subst; assert (t = t2) by congruence; subst t; rewrite EE in *.
      - inversion ST; subst. exists W, nd, []. rewrite plus_types_nil. split; [reflexivity|]. split; [apply grown_refl; exact IN|]. split; [exact AG|].
        eexists. split; [|constructor]. exact (fun x => x).
      - inversion ST as [| |? es ? SA]; subst. inversion BL; subst.
        destruct (members_take k i ltac:(intros j J MJ; apply IH; [lia|exact MJ]) es l SA ltac:(assumption) M W nd D IN SR AG) as (W1 & nd1 & ts & E & G & AG1 & NM).
        exists W1, nd1, ts. split; [exact E|]. split; [exact G|]. split; [exact AG1|].
        destruct (members_refer W (type_names (plus_types D ts)) SR es l SA M NM) as (l' & RL). exists (DRec n l'). split; [exact (fun x => x)|]. cbn [described]. constructor. exact RL. }
    unfold member_step in E. rewrite E. cbn [bind]. destruct G as (INm & WL & _).
    pose proof (src_inv _ _ _ (src_wle _ _ _ _ WL SR)) as IN2m. rewrite (clone_type_ok _ _ _ _ _ _ IN2m O T). cbn [bind].
    set (d := mk_dtype _ _ _ _ _). destruct (new_type W1 d) as [W2 on] eqn:NT. destruct (new_type_wle _ _ _ _ NT) as (WL1 & ON & DN & NN & NP1).
    pose proof (inv_wle _ _ _ _ WL1 INm) as IN1. pose proof (inv_wle _ _ _ _ WL1 IN2m) as IN21.
    assert (w_types W1 o = w_types W o) as OE by (apply WL; apply (rp_tbelow _ _ _ (proj1 SR)); eapply nth_error_In; eauto).
    assert (described true (w_types W1) (dt_elem (w_types W1 o)) = described true (w_types W) (dt_elem (w_types W o))) as DE.
    { rewrite OE. destruct (type_text_ok _ _ _ _ _ _ IN2 O T) as (_ & _ & _ & _ & s & S1 & P1).
      destruct (type_text_ok _ _ _ _ _ _ IN2m O T) as (STm & _ & _ & _ & s' & S1' & P1').
      rewrite OE in *.
      destruct (moved_text (w_types W1) (w_types W) _ _ _ _ (rep_names _ _ _ (proj1 IN2m)) (rep_names _ _ _ (proj1 IN2)) (td_elem t2) (td_elem t2)) with (e := dt_elem (w_types W o)) (e2 := dt_elem (w_types W o)) as [X _]; [|exact ST|exact ST|].
      - eapply described_moved; [apply (inv_find _ _ _ IN2)|apply rep_names; apply IN2|exact ST|].
        pose proof (inv_find _ _ _ IN2) as FN. destruct IN2 as (R & _ & _ & TT & _).
        destruct (stands_text true _ _ _ FN (rep_names _ _ _ R) _ _ ST (proj2 (TT t2 (nth_error_In _ _ T)))) as (_ & _ & RR).
        specialize (RR (length (type_names D2))). rewrite firstn_all in RR. apply RR. apply below_names.
        eapply below_more; [|exact BL]. assert (i < length (df_types D2))%nat by (apply nth_error_Some; congruence). lia.
      - rewrite X, S1 in S1'. injection S1' as <-. rewrite P1 in P1'. injection P1' as P1'. symmetry. exact P1'. }
    assert (exists r, add_type W2 nd1 on = Ok r) as ([[W3 nd3] o3] & EA); [|rewrite EA; cbn [bind]; eauto].
    destruct (in_dec opt_str_dec (td_name t2) (type_names (plus_types D ts))) as [I|NI].
    - apply In_nth_error in I as (x & X). destruct (name_nth _ _ _ X) as (t & T' & NT').
      destruct (Forall2_nth_r _ _ _ _ _ (rp_types _ _ _ (proj1 IN1)) T') as (ot & OT & _).
      unfold add_type. rewrite DN. change (dt_name d) with (td_name t2).
      rewrite (proj2 (rp_map _ _ _ (proj1 IN1) (td_name t2) ot)) by (exists x; auto).
      destruct (same_type_text _ _ _ _ _ _ _ _ _ _ _ IN1 IN21 OT T' O T) as [TE VE]; [apply AG1; eauto using nth_error_In|].
      replace (type_string true (w_types W2) d) with (type_string true (w_types W2) (w_types W2 o)); [rewrite VE; cbn [bind]; eauto|].
      destruct (type_text_ok _ _ _ _ _ _ IN21 O T) as (ST21 & N21 & A21 & SH21 & _).
      unfold type_string. rewrite SH21, N21, A21. cbn [dt_short dt_name dt_elem dt_attr d]. f_equal.
      destruct (described_text (w_types W1) (w_types W2) _ (inv_find _ _ _ IN2m) _ _ (proj1 (type_text_ok _ _ _ _ _ _ IN2m O T))) as [-> _].
      assert (w_types W2 o = w_types W1 o) as OE2 by (apply WL1; apply (rp_tbelow _ _ _ (proj1 IN2m)); eapply nth_error_In; eauto).
      rewrite OE2. destruct (type_text_ok _ _ _ _ _ _ IN2m O T) as (STm & _). 
      apply (moved_text (w_types W2) (w_types W1) _ _ _ _ (rep_names _ _ _ (proj1 IN21)) (rep_names _ _ _ (proj1 IN2m)) (td_elem t2) (td_elem t2)); [|rewrite OE; exact ST|rewrite OE; exact ST].
      rewrite OE in STm. eapply described_moved; [apply (inv_find _ _ _ IN2)|apply rep_names; apply IN2|exact ST|].
      pose proof (inv_find _ _ _ IN2) as FN. destruct IN2 as (R & _ & _ & TT & _).
      destruct (stands_text true _ _ _ FN (rep_names _ _ _ R) _ _ ST (proj2 (TT t2 (nth_error_In _ _ T)))) as (_ & _ & RR).
      specialize (RR (length (type_names D2))). rewrite firstn_all in RR. apply RR. apply below_names.
      eapply below_more; [|exact BL]. assert (i < length (df_types D2))%nat by (apply nth_error_Some; congruence). lia.
    - destruct (add_type_ok W2 nd1 (plus_types D ts) on a (proj1 IN1)) as (W3 & nd3 & E3); [apply IN1|rewrite DN; exact NI| | |eauto].
      + rewrite DN. cbn [dt_elem d]. rewrite DE. exact RF.
      + constructor. exact NRA.
  Qed.
End Take.

(** ** Taking over a port *)

Lemma moved_port_text W nd D other D2 pr o q po p : inv W nd D -> inv W other D2 -> In q (df_provide D ++ df_require D) -> In p (df_provide D2 ++ df_require D2) ->
  port_is W (n_types nd) pr o q -> port_is W (n_types other) pr po p -> moved_port D2 D p q ->
  verify_equal (port_string true (w_types W) (w_ports W o)) (port_string true (w_types W) (w_ports W po)) = Ok tt.
Proof.
  intros IN IN2 IQ IP PQ PP (MN & MA & M1 & M2).
  destruct (port_sig _ _ _ _ _ _ IN IQ PQ) as (s & e & S1 & _ & P1 & X). destruct (port_sig _ _ _ _ _ _ IN2 IP PP) as (s' & e' & S1' & _ & P1' & X').
  assert (elem_string true (w_types W) (pt_elem (w_ports W o)) = elem_string true (w_types W) (pt_elem (w_ports W po))) as E.
  { destruct X' as [(I1' & I2' & ST' & T')|(N1' & E' & E1')].
    - specialize (M1 I2'). destruct X as [(I1 & I2 & ST & T)|(N1 & _)]; [|exfalso; apply N1; apply (moved_ref _ _ _ _ M1); exact I2'].
      eapply moved_text; [apply rep_names; apply IN|apply rep_names; apply IN2|exact M1|exact ST|exact ST'].
    - specialize (M2 N1'). destruct X as [(I1 & I2 & _)|(N1 & _ & E1)]; [exfalso; apply N1'; rewrite <- M2; exact I2|]. congruence. }
  destruct PQ as (PQ1 & PQ2 & PQ3 & _). destruct PP as (PP1 & PP2 & PP3 & _).
  unfold port_string. rewrite E, S1'. cbn [bind]. rewrite PQ1, PQ2, PQ3, PP1, PP2, PP3, MN, MA. apply (verify_equal_refl _ _ eq_refl).
Qed.

Lemma check_dup_ok W p l : (forall o, In o l -> pt_name (w_ports W o) = pt_name p -> pt_provide (w_ports W o) = pt_provide p /\
    verify_equal (port_string true (w_types W) (w_ports W o)) (port_string true (w_types W) p) = Ok tt) ->
  exists r, check_duplicate W p l = Ok r.
Proof.
  induction l as [|o l IH]; intros A; cbn [check_duplicate]; [eauto|]. destruct (opt_eqb (pt_name (w_ports W o)) (pt_name p)) eqn:N.
  - apply opt_eqb_eq in N. destruct (A o (or_introl eq_refl) N) as [-> ->]. rewrite Bool.eqb_reflx. cbn [bind]. eauto.
  - apply IH. intros x X. apply A. right. exact X.
Qed.

Lemma node_find_port W nd D nm o : represents W nd D -> node_find W nd nm = Some (FPort o) -> ~ In nm (type_names D) /\ In nm (port_names D).
Proof.
  intros R E. split.
  - intros I. unfold node_find in E. destruct (find _ (n_types nd)) as [x|] eqn:F; [discriminate|].
    apply In_nth_error in I as (i & I). destruct (Forall2_nth_r _ _ _ _ _ (rep_names _ _ _ R) I) as (y & O & N).
    apply find_none with (x := y) in F; [|eapply nth_error_In; eauto]. rewrite N, (proj2 (opt_eqb_eq nm nm) eq_refl) in F. discriminate.
  - unfold node_find in E. destruct (find _ (n_types nd)) as [x|] eqn:F; [discriminate|]. unfold option_map in E.
    match type of E with match ?x with _ => _ end = _ => destruct x as [y|] eqn:FP end; [|discriminate]. apply find_some in FP as [I N]. apply opt_eqb_eq in N.
    destruct (port_obj W nd D y R) as (pr & q & (_ & PN & _) & _ & IQ); [rewrite in_app_iff in *; tauto|].
    unfold port_names. rewrite <- N, PN. apply in_map. exact IQ.
Qed.

Lemma add_port_ok W nd D p W1 o a : inv W nd D -> port_stands (n_types nd) (pt_elem p) a -> new_port W p = (W1, o) -> (is_ref a -> reaches (df_types D) 10 a) ->
  exists r, add_port W1 nd o = Ok r.
Proof.
  intros IN PS NP RC. destruct (new_port_wle _ _ _ _ NP) as (WL & ON & PN & NN). pose proof (rep_wle _ _ _ _ WL (proj1 IN)) as R1.
  unfold add_port, resolve_port. rewrite PN. cbn [with_pid pt_elem pt_provide]. inversion PS as [n r x S1 E1 E2|x NR E1 E2].
  - cbn [is_reference]. inversion S1 as [|n' o' i N E3 E4|]; subst r. unfold resolve_sig. cbn [resolve_type bind].
    subst a. destruct (proj2 (follow _ _ _ (rp_types _ _ _ R1) 10 _ _ S1)) as (d & RD); [apply RC; rewrite <- E4; exact I|].
    unfold resolve_data_element, MAX_RECURSE_DEPTH. rewrite RD. cbn [bind]. eauto.
  - assert (is_reference (pt_elem p) = false) as -> by (apply is_ref_false; exact NR). cbn [bind]. eauto.
Qed.

Lemma add_port_from_ok fuel W nd D other D2 pr po p2 : inv W nd D -> src W other D2 -> compatible D D2 -> (length (df_types D2) <= fuel)%nat ->
  In po (n_provide other ++ n_require other) -> In p2 (ports pr D2) -> port_is W (n_types other) pr po p2 ->
  exists W' nd' o, add_port_from fuel W nd po = Ok (W', nd', o).
Proof.
  intros IN SR CM FU IPO IP2 PI. unfold add_port_from. pose proof (src_inv _ _ _ SR) as IN2.
  assert (In p2 (df_provide D2 ++ df_require D2)) as IP by (destruct pr; apply in_or_app; auto).
  assert (exists r, check_duplicate W (w_ports W po) (n_provide nd ++ n_require nd) = Ok r) as (dup & CD).
  { apply check_dup_ok. intros o O N. destruct (port_obj _ _ _ _ (proj1 IN) O) as (pr' & q & PQ & IQ & IQ').
    destruct (cm_ports _ _ CM pr pr' p2 q IP2 IQ) as [-> MP]; [destruct PI as (_ & A & _); destruct PQ as (_ & B & _); congruence|].
    split; [destruct PI as (A & _); destruct PQ as (B & _); congruence|]. exact (moved_port_text W nd D other D2 pr o q po p2 IN IN2 IQ' IP PQ PI MP). }
  rewrite CD. cbn [bind]. destruct dup as [x|]; [eauto|].
  pose proof SR as (R2 & L2 & C2 & TT2 & TG2).
  destruct (copy_port_ok W other D2 pr (pt_provide (w_ports W po)) po p2 R2 L2 TG2 C2 IP PI) as (q' & CQ & Q1 & Q2 & Q3 & Q4 & Q5 & Q6).
  unfold clone_port. rewrite CQ. cbn [bind]. destruct PI as (PI1 & PI2 & PI3 & PI4). destruct (ln_ports _ L2 p2 IP) as (G1 & G2 & G3 & G4).
  inversion PI4 as [n r x ST E1 E2|x NR E1 E2].
  - assert (is_ref (pd_elem p2)) as IR by (apply (stands_ref _ _ _ ST); exact I).
    destruct Q6 as [(Q7 & Q8 & Q9)|(Q7 & Q8)]; [|rewrite Q8 in IR; contradiction].
    inversion ST as [|n' oo i OO E3 E4|]. subst r.
    assert (exists r', pt_elem q' = DRef n r') as (r' & QE). { rewrite <- E4 in Q8. inversion Q8; subst; eauto. }
    destruct (Forall2_nth _ _ _ _ _ (rp_types _ _ _ R2) OO) as (t2 & T2 & N2 & _). rewrite N2.
    assert (exists Wa nda oa ts k, match node_find W nd (td_name t2) with
        | None => add_type_from fuel W nd oo
        | Some (FType o') => do _ <- verify_equal (type_string true (w_types W) (w_types W o')) (type_string true (w_types W) (w_types W oo)); Ok (W, nd, o')
        | Some (FPort o') => do _ <- verify_equal (port_string true (w_types W) (w_ports W o')) (type_string true (w_types W) (w_types W oo)); Err ValueError
        end = Ok (Wa, nda, oa) /\ inv Wa nda (plus_types D ts) /\ agree (plus_types D ts) D2 /\ nth_error (n_types nda) k = Some oa /\ nth_error (type_names (plus_types D ts)) k = Some (td_name t2))
      as (Wa & nda & oa & ts & k & TY & INa & AG & K & KN).
    { destruct (node_find W nd (td_name t2)) as [[of|of]|] eqn:NF.
      - destruct (node_find_type _ _ _ _ _ (proj1 IN) NF) as [IOF NOF]. apply In_nth_error in IOF as (k & K).
        destruct (Forall2_nth _ _ _ _ _ (rp_types _ _ _ (proj1 IN)) K) as (t & T & NT & _).
        assert (td_name t = td_name t2) as NE by congruence.
        destruct (same_type_text _ _ _ _ _ _ _ _ _ _ _ IN IN2 K T OO T2) as [_ VE]; [apply (cm_types _ _ CM); eauto using nth_error_In|].
        rewrite VE. cbn [bind]. exists W, nd, of, [], k. rewrite plus_types_nil. split; [reflexivity|]. split; [exact IN|]. split; [exact (cm_types _ _ CM)|]. split; [exact K|].
        rewrite (nth_name _ _ _ T). congruence.
      - exfalso. destruct (node_find_port _ _ _ _ _ (proj1 IN) NF) as [NT IN']. destruct (cm_names _ _ CM t2 (nth_error_In _ _ T2)) as [X|[X _]]; contradiction.
      - pose proof (node_find_none _ _ _ _ (proj1 IN) NF) as NI.
        destruct (cm_taken _ _ CM pr p2 n i t2 IP2 (eq_sym E4) T2) as [X|MI]; [contradiction|].
        assert (i < length (df_types D2))%nat as IB by (apply nth_error_Some; congruence).
        destruct (add_type_from_takes other D2 L2 fuel i ltac:(lia) MI W nd D oo t2 IN SR (cm_types _ _ CM) OO T2) as (Wa & nda & oa & E).
        destruct (add_type_from_adds other D2 (fun _ => True) (fun _ _ _ _ _ _ => Logic.I) fuel W nd D oo i t2 Wa nda oa IN SR OO T2 Logic.I E) as (ts & G & H). destruct (H NI) as (H1 & H2 & t & H3 & H4).
        apply In_nth_error in H1 as (k & K). exists Wa, nda, oa, ts, k. split; [exact E|]. split; [apply G|].
        split; [apply agree_more; [apply (ln_names _ L2)|exact (cm_types _ _ CM)|eapply from_upto_in; apply G]|]. split; [exact K|].
        destruct G as ((Ra & _) & _). destruct (Forall2_nth _ _ _ _ _ (rep_names _ _ _ Ra) K) as (nm & NM & X). congruence. }
    rewrite TY. cbn [bind]. rewrite QE. cbn [set_ref].
    destruct (new_port Wa (with_pelem q' (DRef n (RObj oa)))) as [W2 on] eqn:NP.
    destruct (add_port_ok Wa nda (plus_types D ts) (with_pelem q' (DRef n (RObj oa))) W2 on (DRef n (RInt (Z.of_nat k))) INa) as ([W3 nd3] & EP).
    + cbn [with_pelem pt_elem]. constructor. constructor. exact K.
    + exact NP.
    + intros _. destruct (G1 IR) as [_ RC]. eapply reaches_moved; [exact AG|exact RC|]. rewrite <- E4. econstructor; [apply nth_name; exact T2|exact KN].
    + rewrite EP. cbn [bind]. eauto.
  - assert (~ is_ref (pd_elem p2)) as NR2 by (rewrite <- E2; exact NR).
    destruct Q6 as [(Q7 & Q8 & _)|(Q7 & Q8)]; [exfalso; apply NR2; apply (refers_ref _ _ _ Q8); exact Q7|].
    destruct (new_port W q') as [W2 on] eqn:NP.
    destruct (add_port_ok W nd D q' W2 on (pd_elem p2) IN) as ([W3 nd3] & EP); [rewrite Q8; constructor; exact Q7|exact NP|contradiction|].
    destruct (pt_elem (w_ports W po)); [| |exfalso; apply NR; exact I]; cbn [bind]; rewrite NP, EP; cbn [bind]; eauto.
Qed.

Lemma compatible_added D D2 D' pr p2 W nd po W' nd' o : linked D2 -> compatible D D2 -> In p2 (ports pr D2) -> added D2 D D' pr p2 W nd po W' nd' o -> compatible D' D2.
Proof.
  intros L2 CM IP (ts & q & -> & _ & _ & FR0 & NI & MP & _).
  assert (Forall (fun t => exists t2, In t2 (df_types D2) /\ same_type D2 (plus_types D ts) t2 t) ts) as FR.
  { eapply Forall_impl; [|exact FR0]. intros t (i & t2 & _ & T2 & ST). exists t2. split; [eapply nth_error_In; exact T2|exact ST]. }
  assert (type_names (plus_port pr (plus_types D ts) q) = type_names D ++ map td_name ts) as TN by (rewrite <- plus_types_names; destruct pr; reflexivity).
  assert (forall pr', ports pr' (plus_port pr (plus_types D ts) q) = ports pr' D ++ (if Bool.eqb pr pr' then [q] else [])) as PO by (intros [|]; destruct pr; cbn; rewrite ?app_nil_r; reflexivity).
  assert (pd_name q = pd_name p2) as NQ by apply MP.
  assert (forall nm, In nm (port_names (plus_port pr (plus_types D ts) q)) -> In nm (port_names D) \/ nm = pd_name p2) as PN.
  { intros nm I. unfold port_names in *. destruct pr; cbn in I; rewrite !map_app in *; cbn in I; rewrite !in_app_iff in *; cbn in I; intuition congruence. }
  assert (agree (plus_types D ts) D2) as AG by (apply agree_more; [apply (ln_names _ L2)|exact (cm_types _ _ CM)|exact FR]).
  split.
  - destruct pr; exact AG.
  - intros pr1 pr2 p q' I IQ N. rewrite PO in IQ. assert (moved_port D2 (plus_port pr (plus_types D ts) q) p q' = moved_port D2 (plus_types D ts) p q') as -> by (destruct pr; reflexivity).
    apply in_app_or in IQ as [IQ|IQ].
    + destruct (cm_ports _ _ CM pr1 pr2 p q' I IQ N) as [A B]. split; [exact A|]. apply moved_port_more. exact B.
    + destruct (Bool.eqb pr pr2) eqn:E; [|destruct IQ]. apply Bool.eqb_prop in E. subst pr2. destruct IQ as [<- |[]].
      destruct (cm_once _ _ CM pr pr1 p2 p IP I) as [-> ->]; [congruence|]. auto.
  - exact (cm_once _ _ CM).
  - intros pr1 p n j t2 I E T. rewrite TN. destruct (cm_taken _ _ CM pr1 p n j t2 I E T) as [X|X]; [left; apply in_or_app; auto|auto].
  - intros t2 I. rewrite TN. destruct (cm_names _ _ CM t2 I) as [X|[X Y]]; [left; apply in_or_app; auto|]. right. split; [|exact Y].
    intros Z. destruct (PN _ Z) as [Z'|Z']; [contradiction|]. apply Y. rewrite Z'. unfold port_names. apply in_map. destruct pr; apply in_or_app; auto.
Qed.

Lemma add_ports_from_ok fuel other D2 : (length (df_types D2) <= fuel)%nat -> forall l W nd D, inv W nd D -> src W other D2 -> compatible D D2 ->
  (forall o, In o l -> In o (n_provide other ++ n_require other)) -> exists W' nd', add_ports_from fuel W nd l = Ok (W', nd').
Proof.
  intros FU. induction l as [|po l IH]; intros W nd D IN SR CM SUB; [cbn; eauto|]. cbn [add_ports_from].
  pose proof (SUB po (or_introl eq_refl)) as IPO. destruct (port_obj _ _ _ _ (proj1 SR) IPO) as (pr & p2 & PI & IP & _).
  destruct (add_port_from_ok fuel W nd D other D2 pr po p2 IN SR CM FU IPO IP PI) as (W1 & nd1 & o & E). rewrite E. cbn [bind].
  destruct (add_port_from_step fuel W nd D other D2 pr po p2 W1 nd1 o IN SR IPO IP PI E) as [(-> & -> & _)|(D' & AD)].
  - apply (IH W nd D IN SR CM). intros x X. apply SUB. right. exact X.
  - pose proof (compatible_added _ _ _ _ _ _ _ _ _ _ _ (proj1 (proj2 SR)) CM IP AD) as CM'. destruct AD as (ts & q & _ & IN' & WL & _).
    apply (IH W1 nd1 D' IN' (src_wle _ _ _ _ WL SR) CM'). intros x X. apply SUB. right. exact X.
Qed.

(** ** The order of the ports *)

Definition of_dir (pr : bool) (lp : list (bool * pdef)) : list pdef := map snd (filter (fun x => Bool.eqb (fst x) pr) lp).
Lemma moved_port_types D2 D1 D' ts p q : df_types D' = df_types D1 ++ ts -> moved_port D2 D1 p q -> moved_port D2 D' p q.
Proof.
  intros E (A & B & C & X). split; [exact A|]. split; [exact B|]. split; [|exact X]. intros IR. unfold type_names at 2. rewrite E, map_app. apply moved_more. apply C. exact IR.
Qed.

Lemma add_ports_from_order fuel other D2 l lp : forall W nd D W' nd', inv W nd D -> src W other D2 ->
  Forall2 (fun o x => In o (n_provide other ++ n_require other) /\ In (snd x) (ports (fst x) D2) /\ port_is W (n_types other) (fst x) o (snd x)) l lp ->
  add_ports_from fuel W nd l = Ok (W', nd') ->
  exists D' ts (new : bool -> list pdef), inv W' nd' D' /\ df_types D' = df_types D ++ ts /\ (forall pr, ports pr D' = ports pr D ++ new pr) /\
    forall pr names, (forall nm, In nm (map pd_name (ports pr D)) -> In nm names) -> (forall nm, In nm names -> In nm (port_names D)) -> taken D2 D' names (of_dir pr lp) (new pr).
Proof.
  revert lp. induction l as [|po l IH]; intros lp W nd D W' nd' IN SR F E; inversion F as [|po' [pr p2] l' lp' (IPO & IP2 & PI) F']; subst; cbn [add_ports_from] in E.
  - injection E as <- <-. exists D, [], (fun _ => []). split; [exact IN|]. split; [symmetry; apply app_nil_r|]. split; [intros pr; symmetry; apply app_nil_r|]. intros. constructor.
  - inv_bind E. destruct a as [[W1 nd1] o]. cbn [fst snd] in *.
    destruct (add_port_from_step fuel W nd D other D2 pr po p2 W1 nd1 o IN SR IPO IP2 PI Ha) as [(-> & -> & _ & q & IQ & MP)|(D1 & AD)].
    + destruct (IH lp' W nd D W' nd' IN SR F' E) as (D' & ts & new & IN' & TE & PE & TK). exists D', ts, new. split; [exact IN'|]. split; [exact TE|]. split; [exact PE|].
      intros pr' names SUP SUB. unfold of_dir. cbn [filter fst]. destruct (Bool.eqb pr pr') eqn:B; [|apply TK; assumption].
      apply Bool.eqb_prop in B. subst pr'. cbn [map snd]. apply tk_old; [|apply TK; assumption]. apply SUP. destruct MP as (<- & _). apply in_map. exact IQ.
    + destruct AD as (ts1 & q & -> & IN1 & WL & FR & NI & MP & _). set (D1 := plus_port pr (plus_types D ts1) q) in *.
      assert (forall pr', ports pr' D1 = ports pr' D ++ (if Bool.eqb pr pr' then [q] else [])) as PO by (intros [|]; destruct pr; cbn; rewrite ?app_nil_r; reflexivity).
      assert (df_types D1 = df_types D ++ ts1) as T1 by (destruct pr; reflexivity).
      assert (pd_name q = pd_name p2) as NQ by apply MP.
      destruct (IH lp' W1 nd1 D1 W' nd' IN1 (src_wle _ _ _ _ WL SR)) as (D' & ts & new & IN' & TE & PE & TK); [|exact E|].
      { revert F'. apply Forall2_imp. intros x [pr' p'] _ _ (A & B & C). split; [exact A|]. split; [exact B|]. cbn [fst snd] in *.
        destruct C as (C1 & C2 & C3 & C4). unfold port_is. destruct WL as (_ & _ & _ & WP). rewrite WP by (apply (rp_pbelow _ _ _ (proj1 SR)); exact A). auto. }
      exists D', (ts1 ++ ts), (fun pr' => (if Bool.eqb pr pr' then [q] else []) ++ new pr'). split; [exact IN'|]. split; [rewrite TE, T1; symmetry; apply app_assoc|].
      split; [intros pr'; rewrite PE, PO; symmetry; apply app_assoc|]. intros pr' names SUP SUB. unfold of_dir. cbn [filter fst].
      assert (forall nm, In nm (port_names D) -> In nm (port_names D1)) as MORE.
      { intros nm I. unfold port_names in *. rewrite map_app, in_app_iff in *. subst D1. destruct pr; cbn; rewrite ?map_app, ?in_app_iff; tauto. }
      destruct (Bool.eqb pr pr') eqn:B.
      * apply Bool.eqb_prop in B. subst pr'. cbn [map snd app]. apply tk_new.
        -- intros I. apply NI. apply SUB. exact I.
        -- eapply moved_port_types; [exact TE|]. subst D1. destruct pr; exact MP.
        -- apply TK.
           ++ intros nm I. rewrite PO, Bool.eqb_reflx, map_app, in_app_iff in I. destruct I as [I|[<- |[]]]; [right; apply SUP; exact I|left; symmetry; exact NQ].
           ++ intros nm [<- |I]; [|apply MORE; apply SUB; exact I]. rewrite <- NQ. unfold port_names. apply in_map. subst D1. destruct pr; cbn; rewrite !in_app_iff; cbn; auto.
      * cbn [app]. apply TK; [|intros nm I; apply MORE; apply SUB; exact I]. intros nm I. rewrite PO, B, app_nil_r in I. apply SUP. exact I.
Qed.
Lemma of_dir_app pr a b : of_dir pr (a ++ b) = of_dir pr a ++ of_dir pr b.
Proof. unfold of_dir. rewrite filter_app. apply map_app. Qed.
Lemma of_dir_map pr pr' l : of_dir pr (map (pair pr') l) = if Bool.eqb pr' pr then l else [].
Proof.
  unfold of_dir. induction l as [|x l IH]; cbn; [destruct (Bool.eqb pr' pr); reflexivity|]. destruct (Bool.eqb pr' pr); [cbn; rewrite IH; reflexivity|exact IH].
Qed.
Lemma extend_ordered fuel W nd D other D2 W' nd' : inv W nd D -> src W other D2 -> extend fuel W nd other = Ok (W', nd') ->
  exists D' (new : bool -> list pdef), represents W' nd' D' /\ (forall pr, ports pr D' = ports pr D ++ new pr) /\
    forall pr, taken D2 D' (port_names D) (ports pr D2) (new pr).
Proof.
  intros IN SR E. unfold extend in E. pose proof SR as (R2 & _).
  destruct (add_ports_from_order fuel other D2 (n_require other ++ n_provide other) (map (pair false) (df_require D2) ++ map (pair true) (df_provide D2)) W nd D W' nd' IN SR) as (D' & ts & new & IN' & _ & PE & TK); [|exact E|].
  - apply Forall2_app.
    + apply paired; [exact (rp_require _ _ _ R2)|auto|intros; apply in_or_app; auto].
    + apply paired; [exact (rp_provide _ _ _ R2)|auto|intros; apply in_or_app; auto].
  - exists D', new. split; [apply IN'|]. split; [exact PE|]. intros pr. specialize (TK pr (port_names D)).
    rewrite of_dir_app, !of_dir_map in TK. replace ((if Bool.eqb false pr then df_require D2 else []) ++ (if Bool.eqb true pr then df_provide D2 else [])) with (ports pr D2) in TK by (destruct pr; cbn; rewrite ?app_nil_r; reflexivity).
    apply TK; [|auto]. intros nm I. unfold port_names. rewrite map_app, in_app_iff. destruct pr; auto.
Qed.
