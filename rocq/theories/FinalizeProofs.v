(** Lemmas about sorting and finalizing nodes. *)
From Coq Require Import ZifyBool ZifyNat Lia Permutation Sorted.
From Verif Require Import Py PyLemmas TypesModel TextModel SigModel AttrModel NodeModel ParserModel.
From Verif Require Import SigSpec NodeSpec ParserSpec TextProofs SigProofs NodeProofs ElemTextProofs MirrorProofs.
Ltac Zify.zify_post_hook ::= Z.div_mod_to_equations.

(** ** The order of texts *)

Lemma str_le_refl a : str_le a a.
Proof. induction a; [constructor|apply sle_same; assumption]. Qed.
Lemma str_le_trans a b : str_le a b -> forall c, str_le b c -> str_le a c.
Proof.
  induction 1 as [b|x y a b L|x a b H IH]; intros c C; [constructor|..]; inversion C; subst; try solve [apply sle_less; lia].
  - apply sle_same. auto.
Qed.
Lemma str_le_antisym a b : str_le a b -> str_le b a -> a = b.
Proof.
  induction 1 as [b|x y a b L|x a b H IH]; intros C; inversion C; subst; try lia; [reflexivity|]. f_equal. auto.
Qed.
Lemma str_ltb_true a : forall b, str_ltb a b = true -> str_le a b /\ a <> b.
Proof.
  induction a as [|x a IH]; intros [|y b] E; try discriminate; cbn [str_ltb] in E.
  - split; [constructor|discriminate].
  - destruct (x <? y) eqn:X; [split; [apply sle_less; lia|intros Y; injection Y; intros; lia]|].
    cbn [orb] in E. destruct (x =? y) eqn:Y; [|discriminate]. apply Z.eqb_eq in Y. subst y. cbn [andb] in E.
    destruct (IH b E) as [A B]. split; [apply sle_same, A|congruence].
Qed.
Lemma str_ltb_false a : forall b, str_ltb a b = false -> str_le b a.
Proof.
  induction a as [|x a IH]; intros [|y b] E; try apply sle_nil; cbn [str_ltb] in E; [discriminate|].
  destruct (x <? y) eqn:X; [discriminate|]. cbn [orb] in E. destruct (x =? y) eqn:Y.
  - apply Z.eqb_eq in Y. subst y. apply sle_same. apply IH. exact E.
  - apply sle_less. lia.
Qed.

(** ** Sorting *)

Section Sorting.
  Context {A : Type} (key : A -> str).
  Fixpoint insert (x : A) (l : list A) : list A :=
    match l with [] => [x] | y :: r => if str_ltb (key x) (key y) then x :: l else y :: insert x r end.
  Definition isort (l : list A) : list A := fold_left (fun acc x => insert x acc) l [].

  Lemma insert_perm x l : Permutation (x :: l) (insert x l).
  Proof.
    induction l as [|y l IH]; cbn [insert]; [reflexivity|]. destruct (str_ltb _ _); [reflexivity|].
    rewrite perm_swap. apply perm_skip. exact IH.
  Qed.
  Let le x y := str_le (key x) (key y).
  Lemma insert_sorted x l : StronglySorted le l -> StronglySorted le (insert x l).
  Proof.
    induction 1 as [|y l S IH F]; cbn [insert]; [repeat constructor|]. destruct (str_ltb (key x) (key y)) eqn:E.
    - apply str_ltb_true in E as [E _]. constructor; [constructor; assumption|]. constructor; [exact E|].
      eapply Forall_impl; [|exact F]. intros z Z. eapply str_le_trans; eauto.
    - apply str_ltb_false in E. constructor; [exact IH|]. rewrite <- (insert_perm x l). constructor; assumption.
  Qed.
  Let has s x := str_eqb (key x) s.
  Lemma filter_none s l : Forall (fun x => key x <> s) l -> filter (has s) l = [].
  Proof.
    induction 1 as [|x l X F IH]; [reflexivity|]. cbn [filter]. unfold has at 1. destruct (str_eqb (key x) s) eqn:E; [|exact IH].
    apply str_eqb_eq in E. contradiction.
  Qed.
  Lemma insert_filter s x l : StronglySorted le l -> filter (has s) (insert x l) = filter (has s) l ++ (if str_eqb (key x) s then [x] else []).
  Proof.
    induction 1 as [|y l S IH F]; cbn [insert filter]; [unfold has; destruct (str_eqb _ _); reflexivity|].
    destruct (str_ltb (key x) (key y)) eqn:E.
    - cbn [filter]. unfold has at 1. destruct (str_eqb (key x) s) eqn:X; [|rewrite app_nil_r; reflexivity].
      apply str_eqb_eq in X. subst s. apply str_ltb_true in E as [E N].
      change (x :: filter (has (key x)) (y :: l) = filter (has (key x)) (y :: l) ++ [x]). rewrite filter_none; [reflexivity|].
      constructor; [congruence|]. eapply Forall_impl; [|exact F]. intros z Z Q. apply N. apply str_le_antisym; [exact E|].
      unfold le in Z. rewrite Q in Z. exact Z.
    - cbn [filter]. rewrite IH. destruct (has s y); reflexivity.
  Qed.
  Lemma isort_spec l : Permutation l (isort l) /\ StronglySorted le (isort l) /\ forall s, filter (has s) (isort l) = filter (has s) l.
  Proof.
    unfold isort. induction l as [|x l IH] using rev_ind; [repeat split; constructor|]. rewrite fold_left_app. cbn [fold_left].
    destruct IH as (P & S & F). split; [|split].
    - rewrite <- insert_perm. rewrite <- P. symmetry. apply Permutation_cons_append.
    - apply insert_sorted. exact S.
    - intros s. rewrite insert_filter by exact S. rewrite F, filter_app. cbn [filter]. unfold has at 3. destruct (str_eqb _ _); reflexivity.
  Qed.

  Lemma sorted_unique : forall l m, StronglySorted le l -> StronglySorted le m -> (forall s, filter (has s) l = filter (has s) m) -> l = m.
  Proof.
    assert (forall x l, filter (has (key x)) (x :: l) = x :: filter (has (key x)) l) as HD.
    { intros x l. cbn [filter]. unfold has at 1. rewrite str_eqb_refl. reflexivity. }
    induction l as [|x l IH]; intros [|y m] S1 S2 F.
    - reflexivity.
    - specialize (F (key y)). rewrite HD in F. discriminate.
    - specialize (F (key x)). rewrite HD in F. discriminate.
    - inversion S1 as [|? ? S1' F1]; inversion S2 as [|? ? S2' F2]; subst.
      assert (forall a b k c, StronglySorted le (a :: k) -> filter (has (key b)) (a :: k) = b :: c -> str_le (key a) (key b)) as MIN.
      { intros a b k c S E. assert (In b (a :: k)) as I. { apply (proj1 (filter_In (has (key b)) b (a :: k))). rewrite E. left. reflexivity. }
        inversion S as [|? ? _ FA]; subst. destruct I as [<- |I]; [apply str_le_refl|]. rewrite Forall_forall in FA. apply FA. exact I. }
      assert (key x = key y) as K.
      { apply str_le_antisym.
        - apply (MIN x y l (filter (has (key y)) m) S1). rewrite F. apply HD.
        - apply (MIN y x m (filter (has (key x)) l) S2). rewrite <- F. apply HD. }
      assert (x = y) as ->. { pose proof (F (key x)) as X. rewrite HD in X. rewrite K, HD in X. congruence. }
      f_equal. apply IH; auto. intros s. specialize (F s). cbn [filter] in F. destruct (has s y); congruence.
  Qed.
End Sorting.

Lemma sort_by_isort key l : sort_by key l = isort key l.
Proof.
  unfold sort_by, isort. assert (forall acc x, insert_by key x acc = insert key x acc) as E.
  { intros acc x. induction acc as [|y r IH]; cbn [insert_by insert]; [reflexivity|]. rewrite IH. reflexivity. }
  assert (forall l acc, fold_left (fun acc x => insert_by key x acc) l acc = fold_left (fun acc x => insert key x acc) l acc) as G.
  { induction l0 as [|x m IH]; intros acc; cbn [fold_left]; [reflexivity|]. rewrite E. apply IH. }
  apply G.
Qed.
Lemma isort_related {A B} (R : A -> B -> Prop) (ka : A -> str) (kb : B -> str) l m : Forall2 R l m ->
  (forall x y, In x l -> In y m -> R x y -> ka x = kb y) -> Forall2 R (isort ka l) (isort kb m).
Proof.
  intros F. unfold isort.
  assert (forall x y acc acc', ka x = kb y -> R x y -> Forall2 (fun x y => R x y /\ ka x = kb y) acc acc' -> Forall2 (fun x y => R x y /\ ka x = kb y) (insert ka x acc) (insert kb y acc')) as INS.
  { intros x y acc acc' E X G. induction G as [|a b acc acc' (Y & Q) G IH]; cbn [insert]; [repeat constructor; auto|].
    rewrite E, Q. destruct (str_ltb (kb y) (kb b)); repeat (constructor; auto). }
  intros K. assert (forall l m, Forall2 (fun x y => R x y /\ ka x = kb y) l m -> forall acc acc', Forall2 (fun x y => R x y /\ ka x = kb y) acc acc' ->
    Forall2 (fun x y => R x y /\ ka x = kb y) (fold_left (fun acc x => insert ka x acc) l acc) (fold_left (fun acc x => insert kb x acc) m acc')) as G.
  { induction 1 as [|x y l' m' (X & Q) _ IH]; intros acc acc' AC; cbn [fold_left]; [exact AC|]. apply IH. apply INS; auto. }
  eapply Forall2_imp; [|apply G with (l := l) (m := m)]; [intros x y _ _ [X _]; exact X| |constructor].
  eapply Forall2_imp; [|exact F]. intros x y I J X. auto.
Qed.

Lemma isort_stable {A} (name : A -> option str) l : stably_sorted name l (isort (fun x => opt_text (name x)) l).
Proof. apply isort_spec. Qed.
Lemma stable_unique {A} (name : A -> option str) l m m' : stably_sorted name l m -> stably_sorted name l m' -> m = m'.
Proof.
  intros (_ & S1 & F1) (_ & S2 & F2). apply (sorted_unique (fun x => opt_text (name x))); auto.
  intros s. rewrite F1, F2. reflexivity.
Qed.

(** ** Numbering *)

Lemma number_types_spec f l : forall W i, NoDup l ->
  let W' := number_types f W i l in
  w_ntypes W' = w_ntypes W /\ w_nports W' = w_nports W /\ w_ports W' = w_ports W /\
  (forall o, ~ In o l -> w_types W' o = w_types W o) /\
  (forall k o, nth_error l k = Some o -> w_types W' o = f (w_types W o) (i + Z.of_nat k)).
Proof.
  induction l as [|x l IH]; intros W i N; cbn [number_types].
  - cbv zeta. repeat split; auto. intros [|k] o E; discriminate.
  - inversion N as [|? ? NI N']; subst. destruct (IH (set_type W x (f (w_types W x) i)) (i + 1) N') as (A & B & C & D & E).
    cbv zeta. split; [exact A|]. split; [exact B|]. split; [exact C|]. cbn [set_type w_types] in *. split.
    + intros o O. rewrite D by (intros X; apply O; right; exact X). apply upd_other. intros ->. apply O. left. reflexivity.
    + intros [|k] o K; cbn in K.
      * injection K as <-. rewrite D by exact NI. rewrite upd_same. f_equal. lia.
      * rewrite (E k o K). rewrite upd_other; [f_equal; lia|]. intros ->. apply NI. eapply nth_error_In; eauto.
Qed.

(** ** Resolved ports stay as they are *)

Definition resolved (W : world) (p : port) : Prop := forall n r, pt_elem p = DRef n r -> exists o d, r = RObj o /\ resolve_data_element (w_types W) (pt_elem p) = Ok d.
Lemma resolve_port_id W types p : resolved W p -> resolve_port W types p = Ok p.
Proof.
  intros R. unfold resolve_port. destruct (is_reference (pt_elem p)) eqn:E; [|reflexivity].
  destruct p as [pr nm e at_ id]. cbn [pt_elem] in *. destruct e as [| |n r]; try discriminate.
  destruct (R n r eq_refl) as (o & d & -> & RD). cbn [pt_elem] in RD. unfold resolve_sig. cbn [resolve_type bind]. rewrite RD. reflexivity.
Qed.
Lemma resolve_ports_same types l : forall W, (forall o, In o l -> resolved W (w_ports W o)) ->
  exists W', resolve_ports W types l = Ok W' /\ w_types W' = w_types W /\ (forall o, w_ports W' o = w_ports W o) /\
    w_ntypes W' = w_ntypes W /\ w_nports W' = w_nports W.
Proof.
  induction l as [|o l IH]; intros W R; cbn [resolve_ports]; [exists W; auto|].
  rewrite resolve_port_id by (apply R; left; reflexivity). cbn [bind].
  assert (forall x, w_ports (set_port W o (w_ports W o)) x = w_ports W x) as E.
  { intros x. cbn [set_port w_ports]. destruct (Nat.eq_dec x o) as [-> |N]; [apply upd_same|apply upd_other; exact N]. }
  destruct (IH (set_port W o (w_ports W o))) as (W' & A & B & C & D1 & D2).
  - intros x X. rewrite E. apply R. right. exact X.
  - exists W'. split; [exact A|]. split; [exact B|]. split; [intros x; rewrite C; apply E|]. auto.
Qed.
Lemma rep_resolved W nd D o : represents W nd D -> linked D -> In o (n_require nd ++ n_provide nd) -> resolved W (w_ports W o).
Proof.
  intros R L O n r E.
  assert (exists pr p, port_is W (n_types nd) pr o p /\ In p (df_provide D ++ df_require D)) as (pr & p & PI & IP).
  { apply in_app_or in O as [O|O]; apply In_nth_error in O as [i O].
    - destruct (Forall2_nth _ _ _ _ _ (rp_require _ _ _ R) O) as (p & Pn & PI). exists false, p. split; [exact PI|].
      apply in_or_app. right. eapply nth_error_In; eauto.
    - destruct (Forall2_nth _ _ _ _ _ (rp_provide _ _ _ R) O) as (p & Pn & PI). exists true, p. split; [exact PI|].
      apply in_or_app. left. eapply nth_error_In; eauto. }
  destruct PI as (_ & _ & _ & PS). rewrite E in PS. inversion PS as [n' r' a ST|e NR]; [|exfalso; apply NR; exact I]. subst.
  destruct (ln_ports _ L p IP) as (G1 & _). destruct G1 as [_ RC]; [apply (stands_ref _ _ _ ST); exact I|].
  destruct (proj2 (follow _ _ _ (rp_types _ _ _ R) 10 _ _ ST) RC) as (d & RD). rewrite E. inversion ST; subst.
  eexists. exists d. split; [reflexivity|]. exact RD.
Qed.

Scheme moved_mind := Induction for moved Sort Prop with moveds_mind := Induction for moveds Sort Prop.

(** ** Finalizing *)

Lemma stands_moved types types' names names' (name : nat -> option str) :
  Forall2 (fun o nm => name o = nm) types names -> Forall2 (fun o nm => name o = nm) types' names' -> (forall o, In o types -> In o types') ->
  forall e a, stands types e a -> exists a', stands types' e a' /\ moved names names' a a'.
Proof.
  intros F F' I.
  apply (stands_mind types (fun e a _ => exists a', stands types' e a' /\ moved names names' a a')
    (fun es l _ => exists l', stands_all types' es l' /\ moveds names names' l l')).
  - intros. eexists. split; constructor.
  - intros n o i E. assert (In o types') as O by (apply I; eapply nth_error_In; eauto). apply In_nth_error in O as (j & J).
    destruct (Forall2_nth _ _ _ _ _ F E) as (nm & NM & X). destruct (Forall2_nth _ _ _ _ _ F' J) as (nm' & NM' & X').
    exists (DRef n (RInt (Z.of_nat j))). split; [constructor; exact J|]. econstructor; [exact NM|]. congruence.
  - intros n es l _ (l' & A & B). exists (DRec n l'). split; constructor; assumption.
  - exists []. split; constructor.
  - intros e a es l _ (a' & A & B) _ (l' & C & E). exists (a' :: l'). split; constructor; assumption.
Qed.

Lemma Forall2_choice {A B C} (R : A -> B -> Prop) (P : A -> C -> Prop) (Q : B -> C -> Prop) l m : Forall2 R l m ->
  (forall x y, In x l -> In y m -> R x y -> exists z, P x z /\ Q y z) -> exists k, Forall2 P l k /\ Forall2 Q m k.
Proof.
  induction 1 as [|x y l m X F IH]; intros H; [exists []; split; constructor|].
  destruct IH as (k & K1 & K2); [intros; apply H; try right; assumption|].
  destruct (H x y) as (z & Z1 & Z2); [left; reflexivity|left; reflexivity|exact X|]. exists (z :: k). split; constructor; assumption.
Qed.

Lemma sorted_by_ok name l l' : sorted_by name l = Ok l' -> l' = isort (fun o => opt_text (name o)) l.
Proof. unfold sorted_by. destruct (_ && _); [discriminate|]. intros E. injection E as <-. apply sort_by_isort. Qed.
Lemma sorted_by_named name l : (forall o, In o l -> name o <> None) -> sorted_by name l = Ok (isort (fun o => opt_text (name o)) l).
Proof.
  intros N. unfold sorted_by. rewrite sort_by_isort.
  assert (existsb (fun o => match name o with None => true | Some _ => false end) l = false) as ->; [|rewrite andb_false_r; reflexivity].
  destruct (existsb _ l) eqn:E; [|reflexivity]. apply existsb_exists in E as (o & O & X). specialize (N o O). destruct (name o); [discriminate|contradiction].
Qed.

Definition names_given (D : ndef) : Prop :=
  (forall t, In t (df_types D) -> td_name t <> None) /\ (forall p, In p (df_provide D ++ df_require D) -> pd_name p <> None).

Lemma isort_in {A} (key : A -> str) l x : In x (isort key l) <-> In x l.
Proof.
  destruct (isort_spec key l) as (P & _). split; intros I; eapply Permutation_in; try exact I; [symmetry|]; exact P.
Qed.

Lemma sort_rep sort W nd D nd' : represents W nd D -> sort_elements W nd sort = Ok nd' ->
  exists D', sorted_def sort D D' /\ represents W nd' D' /\ n_final nd' = n_final nd /\
    (forall o, In o (n_types nd') <-> In o (n_types nd)) /\
    (forall o, In o (n_require nd' ++ n_provide nd') <-> In o (n_require nd ++ n_provide nd)).
Proof.
  intros R E. unfold sort_elements in E. inv_bind E. apply sorted_by_ok in Ha. rename a into types'.
  set (ts := isort (fun t => opt_text (td_name t)) (df_types D)).
  assert (Forall2 (type_is (w_types W) (n_types nd)) types' ts) as FT.
  { subst types' ts. apply isort_related; [apply R|]. intros o t _ _ (N & _). rewrite N. reflexivity. }
  assert (forall o, In o types' <-> In o (n_types nd)) as IT by (intros o; subst types'; apply isort_in).
  assert (Forall2 (fun o nm => dt_name (w_types W o) = nm) types' (map td_name ts)) as FN.
  { clear -FT. induction FT as [|o t l m X F IH]; [constructor|]. cbn [map]. constructor; [apply X|exact IH]. }
  pose proof (stands_moved _ _ _ _ _ (rep_names _ _ _ R) FN (fun o => proj2 (IT o))) as SM.
  destruct (Forall2_choice _ (type_is (w_types W) types')
    (fun t t' => td_name t' = td_name t /\ td_attr t' = td_attr t /\ moved (type_names D) (map td_name ts) (td_elem t) (td_elem t')) _ _ FT) as (ts' & T1 & T2).
  { intros o t _ _ (N & A & ST). destruct (SM _ _ ST) as (a' & S1 & S2). exists (mk_tdef (td_name t) a' (td_attr t)). split; repeat split; auto. }
  assert (map td_name ts' = map td_name ts) as NM.
  { clear -T2. induction T2 as [|t t' l m X F IH]; [reflexivity|]. cbn [map]. rewrite IH. f_equal. apply X. }
  set (mvp := fun p p' : pdef => pd_name p' = pd_name p /\ pd_attr p' = pd_attr p /\
    (is_ref (pd_elem p) -> moved (type_names D) (map td_name ts) (pd_elem p) (pd_elem p')) /\ (~ is_ref (pd_elem p) -> pd_elem p' = pd_elem p)).
  assert (forall pr os ps, Forall2 (port_is W (n_types nd) pr) os ps -> exists ps', Forall2 (port_is W types' pr) os ps' /\ Forall2 mvp ps ps') as PM.
  { intros pr os ps F. apply (Forall2_choice _ _ _ _ _ F). intros o p _ _ (P1 & P2 & P3 & P4).
    assert (exists e', port_stands types' (pt_elem (w_ports W o)) e' /\ (is_ref (pd_elem p) -> moved (type_names D) (map td_name ts) (pd_elem p) e') /\ (~ is_ref (pd_elem p) -> e' = pd_elem p)) as (e' & X1 & X2 & X3).
    { inversion P4 as [n r a ST E1 E2|e NR E1 E2].
      - destruct (SM _ _ ST) as (a' & S1 & S2). exists a'. split; [constructor; exact S1|]. split; [auto|]. intros NR. exfalso. apply NR. apply (stands_ref _ _ _ ST). exact I.
      - exists (pt_elem (w_ports W o)). split; [constructor; exact NR|]. split; [contradiction|]. reflexivity. }
    exists (mk_pdef (pd_name p) e' (pd_attr p)). split; repeat split; auto. }
  assert (Permutation (n_types nd) types') as PT by (subst types'; apply isort_spec).
  assert (forall ps rs ps' rs' (po ro : list nat), Permutation (n_provide nd) po -> Permutation (n_require nd) ro ->
    (if sort then stably_sorted pd_name (df_provide D) ps else ps = df_provide D) ->
    (if sort then stably_sorted pd_name (df_require D) rs else rs = df_require D) ->
    Forall2 mvp ps ps' -> Forall2 mvp rs rs' -> Forall2 (port_is W types' true) po ps' -> Forall2 (port_is W types' false) ro rs' ->
    sorted_def sort D (mk_ndef (df_name D) ts' ps' rs') /\
    represents W (mk_node (n_name nd) (n_final nd) types' ro po (n_map nd)) (mk_ndef (df_name D) ts' ps' rs')) as FIN.
  { intros ps rs ps' rs' po ro PO RO S1 S2 M1 M2 F1 F2. split.
    - constructor; cbn [df_name df_types df_provide df_require]; [reflexivity|..].
      + exists ts. split; [apply isort_stable|]. unfold type_names. cbn [df_types]. rewrite NM. exact T2.
      + exists ps. split; [exact S1|]. unfold moved_port, type_names. cbn [df_types]. rewrite NM. exact M1.
      + exists rs. split; [exact S2|]. unfold moved_port, type_names. cbn [df_types]. rewrite NM. exact M2.
    - constructor; cbn [n_name n_types n_provide n_require n_map df_name df_types df_provide df_require]; auto.
      + apply R.
      + intros nm o. rewrite (rp_map _ _ _ R). unfold type_names at 2. cbn [df_types]. rewrite NM. split; intros (i & I1 & I2).
        * assert (In o types') as O by (apply IT; eapply nth_error_In; eauto). apply In_nth_error in O as (j & J). exists j. split; [exact J|].
          destruct (Forall2_nth _ _ _ _ _ FN J) as (x & X & Y). destruct (Forall2_nth _ _ _ _ _ (rep_names _ _ _ R) I1) as (y & Y1 & Y2). congruence.
        * assert (In o (n_types nd)) as O by (apply IT; eapply nth_error_In; eauto). apply In_nth_error in O as (j & J). exists j. split; [exact J|].
          destruct (Forall2_nth _ _ _ _ _ FN I1) as (x & X & Y). destruct (Forall2_nth _ _ _ _ _ (rep_names _ _ _ R) J) as (y & Y1 & Y2). congruence.
      + eapply Permutation_NoDup; [exact PT|apply (rp_tdup _ _ _ R)].
      + eapply Permutation_NoDup; [|apply (rp_pdup _ _ _ R)]. apply Permutation_app; assumption.
      + intros o O. apply (rp_tbelow _ _ _ R). apply IT. exact O.
      + intros o O. apply (rp_pbelow _ _ _ R). eapply Permutation_in; [|exact O]. symmetry. apply Permutation_app; assumption. }
  destruct sort.
  - inv_bind E. inv_bind E. injection E as <-. apply sorted_by_ok in Ha0, Ha1. rename a into ro. rename a0 into po.
    set (ps := isort (fun p => opt_text (pd_name p)) (df_provide D)). set (rs := isort (fun p => opt_text (pd_name p)) (df_require D)).
    destruct (PM true po ps) as (ps' & P1 & P2).
    { subst po ps. apply isort_related; [apply R|]. intros o p _ _ (_ & N & _). rewrite N. reflexivity. }
    destruct (PM false ro rs) as (rs' & R1 & R2).
    { subst ro rs. apply isort_related; [apply R|]. intros o p _ _ (_ & N & _). rewrite N. reflexivity. }
    assert (Permutation (n_provide nd) po) as PO by (subst po; apply isort_spec).
    assert (Permutation (n_require nd) ro) as RO by (subst ro; apply isort_spec).
    destruct (FIN ps rs ps' rs' po ro PO RO (isort_stable _ _) (isort_stable _ _) P2 R2 P1 R1) as [X Y].
    eexists. split; [exact X|]. split; [exact Y|]. split; [reflexivity|]. split; [exact IT|].
    intros o. cbn [n_require n_provide]. split; intros O; eapply Permutation_in; try exact O; [symmetry|]; apply Permutation_app; assumption.
  - injection E as <-. destruct (PM true _ _ (rp_provide _ _ _ R)) as (ps' & P1 & P2). destruct (PM false _ _ (rp_require _ _ _ R)) as (rs' & R1 & R2).
    destruct (FIN (df_provide D) (df_require D) ps' rs' (n_provide nd) (n_require nd)) as [X Y]; auto.
    eexists. split; [exact X|]. split; [exact Y|]. split; [reflexivity|]. split; [exact IT|]. reflexivity.
Qed.

Lemma number_rep f W nd D : represents W nd D -> (forall d i, dt_name (f d i) = dt_name d /\ dt_attr (f d i) = dt_attr d /\ dt_elem (f d i) = dt_elem d) ->
  represents (number_types f W 0 (n_types nd)) nd D.
Proof.
  intros R F. destruct (number_types_spec f (n_types nd) W 0 (rp_tdup _ _ _ R)) as (A & B & C & E & G).
  assert (forall o, In o (n_types nd) -> exists i, w_types (number_types f W 0 (n_types nd)) o = f (w_types W o) i) as T.
  { intros o O. apply In_nth_error in O as (k & K). rewrite (G k o K). eauto. }
  destruct R as [R1 R2 R3 R4 R5 R6 R7 R8 R9]. constructor; auto.
  - eapply Forall2_imp; [|exact R2]. intros o t O _ X. unfold type_is in *. destruct (T o O) as (i & ->).
    destruct (F (w_types W o) i) as (-> & -> & ->). exact X.
  - eapply Forall2_imp; [|exact R3]. intros o p O _ X. unfold port_is in *. rewrite C. exact X.
  - eapply Forall2_imp; [|exact R4]. intros o p O _ X. unfold port_is in *. rewrite C. exact X.
  - intros o O. rewrite A. auto.
  - intros o O. rewrite B. auto.
Qed.

Lemma finalize_rep sort W nd D W' nd' : represents W nd D -> linked D -> n_final nd = false -> finalize sort false W nd = Ok (W', nd') ->
  exists D', sorted_def sort D D' /\ represents W' nd' D' /\ n_final nd' = true /\
    (forall i o, nth_error (n_types nd') i = Some o -> dt_id (w_types W' o) = Some (Z.of_nat i) /\ dt_short (w_types W' o) = dt_short (w_types W o)) /\
    (forall o, w_ports W' o = w_ports W o) /\ (forall o, In o (n_types nd') <-> In o (n_types nd)).
Proof.
  intros R L NF E. unfold finalize in E. rewrite NF in E. inv_bind E. rename a into nd1. rename Ha into SE.
  destruct (sort_rep _ _ _ _ _ R SE) as (D' & SD & R1 & _ & IT & IP).
  destruct (resolve_ports_same (n_types nd1) (n_require nd1 ++ n_provide nd1) W) as (W1 & RE & T1 & P1 & NT1 & NP1).
  { intros o O. apply (rep_resolved W nd D o R L). apply IP. exact O. }
  unfold resolve_types in E. rewrite RE in E. cbn [bind] in E. unfold set_type_ids in E. invc E.
  assert (represents W1 nd1 D') as R2. { eapply rep_frame; [exact R1|intros; rewrite T1; reflexivity|intros; apply P1|lia|lia]. }
  exists D'. split; [exact SD|]. cbn [n_types n_final].
  pose proof (number_rep (fun d i => with_tid d (Some i)) _ _ _ R2 ltac:(intros; repeat split)) as R3.
  destruct (number_types_spec (fun d i => with_tid d (Some i)) (n_types nd1) W1 0 (rp_tdup _ _ _ R2)) as (A & B & C & F & G).
  split; [|split; [reflexivity|]].
  - destruct R3 as [Q1 Q2 Q3 Q4 Q5 Q6 Q7 Q8 Q9]. constructor; auto.
  - split; [|split].
    + intros i o O. rewrite (G i o O). cbn [with_tid dt_id dt_short]. rewrite T1. auto.
    + intros o. rewrite C. apply P1.
    + exact IT.
Qed.
Lemma finalize_ok sort compact W nd D : represents W nd D -> linked D -> n_final nd = false -> names_given D ->
  exists W' nd', finalize sort compact W nd = Ok (W', nd').
Proof.
  intros R L NF (NT & NP). unfold finalize. rewrite NF.
  assert (exists nd1, sort_elements W nd sort = Ok nd1) as (nd1 & SE).
  { unfold sort_elements. rewrite sorted_by_named.
    - cbn [bind]. destruct sort; [|eauto]. rewrite sorted_by_named; cbn [bind].
      + rewrite sorted_by_named; cbn [bind]; [eauto|].
        intros o O. apply In_nth_error in O as (i & O). destruct (Forall2_nth _ _ _ _ _ (rp_provide _ _ _ R) O) as (p & P & _ & N & _).
        rewrite N. apply NP. apply in_or_app. left. eapply nth_error_In; eauto.
      + intros o O. apply In_nth_error in O as (i & O). destruct (Forall2_nth _ _ _ _ _ (rp_require _ _ _ R) O) as (p & P & _ & N & _).
        rewrite N. apply NP. apply in_or_app. right. eapply nth_error_In; eauto.
    - intros o O. apply In_nth_error in O as (i & O). destruct (Forall2_nth _ _ _ _ _ (rp_types _ _ _ R) O) as (t & T & N & _).
      rewrite N. apply NT. eapply nth_error_In; eauto. }
  rewrite SE. cbn [bind]. destruct (sort_rep _ _ _ _ _ R SE) as (D' & _ & _ & _ & _ & IP).
  destruct (resolve_ports_same (n_types nd1) (n_require nd1 ++ n_provide nd1) W) as (W1 & RE & _).
  { intros o O. apply (rep_resolved W nd D o R L). apply IP. exact O. }
  unfold resolve_types. rewrite RE. cbn [bind]. eauto.
Qed.

(** ** Equal definitions have equal texts *)

Definition same_types (H H' : theap) (types types' : list nat) : Prop :=
  Forall2 (fun o o' => dt_name (H o) = dt_name (H' o') /\ dt_id (H o) = dt_id (H' o')) types types'.
Lemma stands_same_text by_name H H' types types' : same_types H H' types types' -> forall e a, stands types e a ->
  forall e', stands types' e' a -> elem_string by_name H e = elem_string by_name H' e'.
Proof.
  intros ST.
  apply (stands_mind types (fun e a _ => forall e', stands types' e' a -> elem_string by_name H e = elem_string by_name H' e')
    (fun es l _ => forall es', stands_all types' es' l -> members_string by_name H es = members_string by_name H' es')).
  - intros n c lo hi k e' S. inversion S. reflexivity.
  - intros n o i E e' S. inversion S as [|n' o' j E'|]; subst.
    match goal with X : Z.of_nat _ = Z.of_nat _ |- _ => apply Nat2Z.inj in X; subst end.
    destruct (Forall2_nth _ _ _ _ _ ST E) as (o2 & O2 & N & ID). assert (o2 = o') by congruence. subst o2. cbn [elem_string]. rewrite N, ID. reflexivity.
  - intros n es l _ IH e' S. inversion S; subst. rewrite !elem_string_rec. match goal with X : stands_all _ _ _ |- _ => rewrite (IH _ X) end. reflexivity.
  - intros es' S. inversion S. reflexivity.
  - intros e a es l S1 IH1 _ IH2 es' S. inversion S as [|e2 a2 es2 l2 Q1 Q2]; subst. cbn [members_string].
    rewrite (IH1 _ Q1), (IH2 _ Q2), (stands_name _ _ _ S1), <- (stands_name _ _ _ Q1). reflexivity.
Qed.

Lemma parsed_text by_name H H' : forall e, as_parsed e -> elem_string by_name H e = elem_string by_name H' e.
Proof.
  induction e as [n c lo hi a|n es IH|n r] using delem_ind2; intros A; [reflexivity| |destruct r; [reflexivity..|contradiction]].
  rewrite !elem_string_rec. assert (members_string by_name H es = members_string by_name H' es) as ->; [|reflexivity].
  cbn [as_parsed] in A. induction IH as [|x es X F IHl]; [reflexivity|]. destruct A as (_ & A1 & A2). cbn [members_string].
  rewrite (X A1), (IHl A2). reflexivity.
Qed.

Lemma map_res_same {A A' B} (f : A -> res B) (f' : A' -> res B) l l' : Forall2 (fun x x' => f x = f' x') l l' -> map_res f l = map_res f' l'.
Proof. induction 1 as [|x x' l l' E F IH]; [reflexivity|]. cbn [map_res]. rewrite E, IH. reflexivity. Qed.
Lemma Forall2_join {A B C} (R : A -> B -> Prop) (Q : C -> B -> Prop) (P : A -> C -> Prop) l m k : Forall2 R l m -> Forall2 Q k m ->
  (forall x y z, In y m -> R x y -> Q z y -> P x z) -> Forall2 P l k.
Proof.
  intros F. revert k. induction F as [|x y l m X F IH]; intros k K H; inversion K as [|z y' k' m' Z K']; subst; constructor.
  - eapply H; eauto. left. reflexivity.
  - apply IH; [exact K'|]. intros. eapply H; eauto. right. assumption.
Qed.

Definition linked_ports (D : ndef) : Prop := forall p, In p (df_provide D ++ df_require D) -> ~ is_ref (pd_elem p) -> as_parsed (pd_elem p).
(** The same tags: both without, or both with ids. *)
Definition same_tags (W : world) (nd : node) (W' : world) (nd' : node) : Prop :=
  (untagged W nd /\ untagged W' nd') \/ (tagged W nd /\ tagged W' nd').
Lemma lines_same normalized W nd W' nd' D : represents W nd D -> represents W' nd' D -> linked_ports D -> same_tags W nd W' nd' ->
  lines normalized W nd = lines normalized W' nd'.
Proof.
  intros R R' L TG.
  assert (Forall2 (fun o o' => dt_id (w_types W o) = dt_id (w_types W' o') /\ dt_short (w_types W o) = dt_short (w_types W' o')) (n_types nd) (n_types nd')) as TT.
  { apply nth_forall2.
    - pose proof (Forall2_len _ _ _ (rp_types _ _ _ R)). pose proof (Forall2_len _ _ _ (rp_types _ _ _ R')). congruence.
    - intros i o o' O O'. destruct TG as [[U U']|[U U']].
      + destruct (U o) as [-> ->]; [eapply nth_error_In; eauto|]. destruct (U' o') as [-> ->]; [eapply nth_error_In; eauto|]. auto.
      + destruct (U i o O) as [-> ->]. destruct (U' i o' O') as [-> ->]. auto. }
  assert (same_types (w_types W) (w_types W') (n_types nd) (n_types nd')) as ST.
  { unfold same_types. apply nth_forall2; [apply (Forall2_len _ _ _ TT)|]. intros i o o' O O'.
    destruct (Forall2_nth _ _ _ _ _ (rep_names _ _ _ R) O) as (x & X & Y). destruct (Forall2_nth _ _ _ _ _ (rep_names _ _ _ R') O') as (x' & X' & Y').
    destruct (Forall2_nth _ _ _ _ _ TT O) as (y & Z & ID & _). assert (y = o') by congruence. subst y. split; congruence. }
  unfold lines. rewrite (rp_name _ _ _ R), <- (rp_name _ _ _ R').
  assert (forall pr os os' ps, Forall2 (port_is W (n_types nd) pr) os ps -> Forall2 (port_is W' (n_types nd') pr) os' ps ->
    (forall p, In p ps -> In p (df_provide D ++ df_require D)) ->
    map_res (fun o => port_string normalized (w_types W) (w_ports W o)) os = map_res (fun o => port_string normalized (w_types W') (w_ports W' o)) os') as PP.
  { intros pr os os' ps F F' IP. apply map_res_same. eapply Forall2_join; [exact F|exact F'|].
    intros o p o' P (P1 & P2 & P3 & P4) (Q1 & Q2 & Q3 & Q4). unfold port_string. rewrite P1, P2, P3, Q1, Q2, Q3.
    assert (elem_string normalized (w_types W) (pt_elem (w_ports W o)) = elem_string normalized (w_types W') (pt_elem (w_ports W' o'))) as ->; [|reflexivity].
    inversion P4 as [n r a S1 E1 E2|e NR E1 E2]; inversion Q4 as [n' r' a' S2 G1 G2|e' NR' G1 G2].
    - eapply stands_same_text; eauto.
    - exfalso. apply NR'. rewrite G2. apply (stands_ref _ _ _ S1). exact I.
    - exfalso. apply NR. rewrite E2. apply (stands_ref _ _ _ S2). exact I.
    - rewrite E2, G2. apply parsed_text. apply (L p (IP p P)). rewrite <- E2. exact NR. }
  rewrite (PP true _ _ _ (rp_provide _ _ _ R) (rp_provide _ _ _ R')) by (intros; apply in_or_app; auto).
  rewrite (PP false _ _ _ (rp_require _ _ _ R) (rp_require _ _ _ R')) by (intros; apply in_or_app; auto).
  assert (map_res (fun o => type_string false (w_types W) (w_types W o)) (n_types nd) = map_res (fun o => type_string false (w_types W') (w_types W' o)) (n_types nd')) as ->; [|reflexivity].
  apply map_res_same. apply nth_forall2; [apply (Forall2_len _ _ _ TT)|]. intros i o o' O O'.
  destruct (Forall2_nth _ _ _ _ _ (rp_types _ _ _ R) O) as (t & T & N & A & S1). destruct (Forall2_nth _ _ _ _ _ (rp_types _ _ _ R') O') as (t' & T' & N' & A' & S2).
  assert (t' = t) by congruence. subst t'. destruct (Forall2_nth _ _ _ _ _ TT O) as (y & Z & _ & SH). assert (y = o') by congruence. subst y.
  unfold type_string. rewrite N, A, N', A', SH, (stands_same_text false _ _ _ _ ST _ _ S1 _ S2). reflexivity.
Qed.

Lemma moved_fun names names' : NoDup names' -> forall a b, moved names names' a b -> forall c, moved names names' a c -> b = c.
Proof.
  intros N. apply (moved_mind names names' (fun a b _ => forall c, moved names names' a c -> b = c) (fun l m _ => forall k, moveds names names' l k -> m = k)).
  - intros. inversion H. reflexivity.
  - intros n i j nm A B c C. inversion C as [|n' i' j' nm' A' B'|]; subst.
    match goal with X : Z.of_nat _ = Z.of_nat _ |- _ => apply Nat2Z.inj in X; subst end.
    do 3 f_equal. rewrite NoDup_nth_error in N. apply N; [apply nth_error_Some; congruence|congruence].
  - intros n l l' _ IH c C. inversion C; subst. f_equal. auto.
  - intros k K. inversion K. reflexivity.
  - intros a a' l l' _ IH1 _ IH2 k K. inversion K; subst. f_equal; auto.
Qed.
Lemma Forall2_fun {A B} (R : A -> B -> Prop) l : forall m m', Forall2 R l m -> Forall2 R l m' -> (forall x y z, In x l -> R x y -> R x z -> y = z) -> m = m'.
Proof.
  induction l as [|x l IH]; intros m m' F F' H; inversion F as [|? y ? k X F1]; inversion F' as [|? y' ? k' X' F1']; subst; [reflexivity|].
  f_equal; [eapply H; eauto; left; reflexivity|]. apply IH; auto. intros. eapply H; eauto. right. assumption.
Qed.
Lemma sorted_names D D' sort : sorted_def sort D D' -> exists ts, stably_sorted td_name (df_types D) ts /\ type_names D' = map td_name ts.
Proof.
  intros [_ (ts & S & F) _ _]. exists ts. split; [exact S|]. unfold type_names at 1. clear S.
  induction F as [|t t' l m X F IH]; [reflexivity|]. cbn [map]. rewrite IH. f_equal. apply X.
Qed.
Lemma sorted_def_unique sort D D1 D2 : NoDup (type_names D) -> sorted_def sort D D1 -> sorted_def sort D D2 -> D1 = D2.
Proof.
  intros N S1 S2. destruct (sorted_names _ _ _ S1) as (t1 & T1 & N1). destruct (sorted_names _ _ _ S2) as (t2 & T2 & N2).
  pose proof (stable_unique _ _ _ _ T1 T2) as E. subst t2. assert (type_names D2 = type_names D1) as NE by congruence.
  assert (NoDup (type_names D1)) as ND.
  { rewrite N1. eapply Permutation_NoDup; [|exact N]. apply Permutation_map. apply T1. }
  destruct S1 as [A1 (u1 & U1 & F1) (p1 & P1 & G1) (r1 & Q1 & H1)]. destruct S2 as [A2 (u2 & U2 & F2) (p2 & P2 & G2) (r2 & Q2 & H2)].
  rewrite NE in F2. pose proof (stable_unique _ _ _ _ U1 U2) as E. subst u2.
  assert (p1 = p2) by (destruct sort; [eapply stable_unique; eauto|congruence]). assert (r1 = r2) by (destruct sort; [eapply stable_unique; eauto|congruence]). subst p2 r2.
  assert (forall l m m', Forall2 (moved_port D D1) l m -> Forall2 (moved_port D D2) l m' -> m = m') as PF.
  { intros l m m' X Y. eapply Forall2_fun; [exact X|eapply Forall2_imp; [|exact Y]; intros p p' _ _ Z|].
    - unfold moved_port in *. rewrite NE in Z. exact Z.
    - intros p [n1 e1 b1] [n2 e2 b2] _ (X1 & X2 & X3 & X4) (Y1 & Y2 & Y3 & Y4). cbn in *.
      destruct (is_reference (pd_elem p)) eqn:IR.
      + apply is_ref_bool in IR. rewrite (moved_fun _ _ ND _ _ (X3 IR) _ (Y3 IR)). congruence.
      + apply is_ref_false in IR. rewrite X4, Y4 by exact IR. congruence. }
  destruct D1 as [n1 ty1 pr1 re1], D2 as [n2 ty2 pr2 re2]. cbn [df_name df_types df_provide df_require] in *.
  f_equal; [congruence| |eapply PF; eauto..].
  eapply Forall2_fun; [exact F1|exact F2|]. intros t [x1 e1 b1] [x2 e2 b2] _ (X1 & X2 & X3) (Y1 & Y2 & Y3). cbn in *.
  rewrite (moved_fun _ _ ND _ _ X3 _ Y3). congruence.
Qed.

(** ** What sorting keeps *)

Lemma moved_ref names names' a b : moved names names' a b -> is_ref a <-> is_ref b.
Proof. intros [ ]; cbn; tauto. Qed.
Lemma moved_name names names' a b : moved names names' a b -> de_name b = de_name a.
Proof. intros [ ]; reflexivity. Qed.
Lemma moved_nameless names names' a b : moved names names' a b -> nameless a = a -> nameless b = b.
Proof. intros [ ]; cbn; congruence. Qed.
Lemma moved_below names names' a b : moved names names' a b -> below (length names') b.
Proof.
  revert a b. apply (moved_mind names names' (fun a b _ => below (length names') b) (fun l m _ => belows (length names') m)); intros; constructor; auto.
  apply nth_error_Some. congruence.
Qed.
Lemma moved_tidy names names' a b : moved names names' a b -> tidy false a -> tidy false b.
Proof.
  revert a b. apply (moved_mind names names' (fun a b _ => tidy false a -> tidy false b) (fun l m _ => tidies false l -> tidies false m)).
  - auto.
  - intros. reflexivity.
  - intros n l l' _ IH. rewrite !tidy_rec. exact IH.
  - auto.
  - intros a a' l l' M IH1 _ IH2 ((s & S1 & S2) & T1 & T2). split; [|auto]. exists s. rewrite (moved_name _ _ _ _ M). auto.
Qed.
Lemma nodup_nth {A} (l : list A) i j x : NoDup l -> nth_error l i = Some x -> nth_error l j = Some x -> i = j.
Proof. intros N A1 B. rewrite NoDup_nth_error in N. apply N; [apply nth_error_Some; congruence|congruence]. Qed.

Section Moving.
  Variables (D D' : ndef) (sort : bool).
  Hypothesis L : linked D.
  Hypothesis S : sorted_def sort D D'.

  Lemma sorted_nodup : NoDup (type_names D').
  Proof.
    destruct (sorted_names _ _ _ S) as (ts & T & ->). eapply Permutation_NoDup; [|apply (ln_names _ L)]. apply Permutation_map. apply T.
  Qed.
  Lemma sorted_type t' : In t' (df_types D') -> exists t, In t (df_types D) /\ td_name t' = td_name t /\ td_attr t' = td_attr t /\
    moved (type_names D) (type_names D') (td_elem t) (td_elem t').
  Proof.
    intros I. destruct (sd_types _ _ _ S) as (ts & (P & _) & F). apply In_nth_error in I as (i & I).
    destruct (Forall2_nth_r _ _ _ _ _ F I) as (t & T & X). exists t. split; [|exact X].
    eapply Permutation_in; [symmetry; exact P|]. eapply nth_error_In; eauto.
  Qed.
  Lemma sorted_port p' : In p' (df_provide D' ++ df_require D') -> exists p, In p (df_provide D ++ df_require D) /\ moved_port D D' p p'.
  Proof.
    assert (forall l l' m, (if sort then stably_sorted pd_name l m else m = l) -> Forall2 (moved_port D D') m l' -> In p' l' ->
      exists p, In p l /\ moved_port D D' p p') as X.
    { intros l l' m ST F I. apply In_nth_error in I as (i & I). destruct (Forall2_nth_r _ _ _ _ _ F I) as (p & P & Q). exists p. split; [|exact Q].
      apply nth_error_In in P. destruct sort; [|subst m; exact P]. eapply Permutation_in; [symmetry; apply ST|exact P]. }
    intros I. apply in_app_or in I as [I|I].
    - destruct (sd_provide _ _ _ S) as (m & ST & F). destruct (X _ _ _ ST F I) as (p & P & Q). exists p. split; [apply in_or_app; auto|exact Q].
    - destruct (sd_require _ _ _ S) as (m & ST & F). destruct (X _ _ _ ST F I) as (p & P & Q). exists p. split; [apply in_or_app; auto|exact Q].
  Qed.
  (* the type of a name, on both sides *)
  Lemma sorted_target i j nm t : nth_error (type_names D) i = Some nm -> nth_error (type_names D') j = Some nm -> nth_error (df_types D) i = Some t ->
    exists t', nth_error (df_types D') j = Some t' /\ moved (type_names D) (type_names D') (td_elem t) (td_elem t').
  Proof.
    intros N N' T. unfold type_names in N'. rewrite nth_error_map in N'. destruct (nth_error (df_types D') j) as [t'|] eqn:T'; [|discriminate].
    exists t'. split; [reflexivity|]. destruct (sorted_type t' (nth_error_In _ _ T')) as (t0 & I & E & _ & M).
    apply In_nth_error in I as (k & K). assert (nth_error (type_names D) k = Some (td_name t0)) as X by (apply map_nth_error; exact K).
    cbn in N'. injection N' as N'. rewrite <- E, N' in X. pose proof (nodup_nth _ _ _ _ (ln_names _ L) X N). subst k. congruence.
  Qed.
  Lemma moved_reaches n a : reaches (df_types D) n a -> forall a', moved (type_names D) (type_names D') a a' -> reaches (df_types D') n a'.
  Proof.
    induction 1 as [n a NR|n nm i t T R IH]; intros a' M.
    - apply rc_here. intros IR. apply NR. apply (moved_ref _ _ _ _ M). exact IR.
    - inversion M as [|n' i' j nm' A B|]; subst. match goal with X : Z.of_nat _ = Z.of_nat _ |- _ => apply Nat2Z.inj in X; subst end.
      destruct (sorted_target _ _ _ _ A B T) as (t' & T' & MT). eapply rc_step; [exact T'|]. apply IH. exact MT.
  Qed.
  Lemma linked_sorted : (forall i t, nth_error (df_types D') i = Some t -> below i (td_elem t)) -> linked D'.
  Proof.
    intros B. constructor.
    - exact sorted_nodup.
    - exact B.
    - intros t' I. destruct (sorted_type t' I) as (t & T & _ & _ & M). eapply moved_reaches; [|exact M]. apply (ln_ends _ L). exact T.
    - intros t' I. destruct (sorted_type t' I) as (t & T & _ & _ & M). eapply moved_nameless; [exact M|]. apply (ln_plain _ L). exact T.
    - intros t' a I A. destruct (sorted_type t' I) as (t & T & _ & E & _). apply (ln_tattr _ L t a T). congruence.
    - intros p' I. destruct (sorted_port p' I) as (p & P & (N & A & M1 & M2)). destruct (ln_ports _ L p P) as (G1 & G2 & G3 & G4).
      destruct (is_reference (pd_elem p)) eqn:IR.
      + apply is_ref_bool in IR. specialize (M1 IR). assert (is_ref (pd_elem p')) as IR' by (apply (moved_ref _ _ _ _ M1); exact IR).
        split; [|split; [contradiction|split; [eapply moved_nameless; eauto|intros a X; apply G4; congruence]]].
        intros _. split; [|eapply moved_reaches; [apply G1; exact IR|exact M1]].
        pose proof (moved_below _ _ _ _ M1) as X. unfold type_names in X. rewrite map_length in X. exact X.
      + apply is_ref_false in IR. unfold good_port. rewrite (M2 IR). split; [contradiction|]. split; [auto|]. split; [auto|]. intros a X. apply G4. congruence.
  Qed.
  Lemma sorted_linked_ports : linked_ports D'.
  Proof.
    intros p' I NR. destruct (sorted_port p' I) as (p & P & (N & A & M1 & M2)). destruct (is_reference (pd_elem p)) eqn:IR.
    - apply is_ref_bool in IR. exfalso. apply NR. apply (moved_ref _ _ _ _ (M1 IR)). exact IR.
    - apply is_ref_false in IR. rewrite (M2 IR). apply (ln_ports _ L p P). exact IR.
  Qed.
  Lemma writable_sorted : writable_def D -> writable_def D'.
  Proof.
    intros [W1 W2 W3]. constructor.
    - rewrite (sd_name _ _ _ S). exact W1.
    - intros t' I. destruct (sorted_type t' I) as (t & T & N & A & M). destruct (W2 t T) as (X & Y & Z). rewrite N, A.
      split; [exact X|]. split; [eapply moved_tidy; eauto|exact Z].
    - intros p' I. destruct (sorted_port p' I) as (p & P & (N & A & M1 & M2)). destruct (W3 p P) as (X & Y & Z1 & Z2). rewrite N, A.
      split; [exact X|]. split; [exact Y|]. destruct (is_reference (pd_elem p)) eqn:IR.
      + apply is_ref_bool in IR. specialize (M1 IR). split; [intros _; eapply moved_tidy; eauto|]. intros NR. exfalso. apply NR. apply (moved_ref _ _ _ _ M1). exact IR.
      + apply is_ref_false in IR. rewrite (M2 IR). split; auto.
  Qed.
End Moving.

(** ** Two nodes with the same definition *)

Lemma sorted_by_same (na nb : nat -> option str) l m l' : Forall2 (fun x y => na x = nb y) l m -> sorted_by na l = Ok l' -> exists m', sorted_by nb m = Ok m'.
Proof.
  intros F E. unfold sorted_by in *.
  assert (existsb (fun o => match na o with None => true | Some _ => false end) l = existsb (fun o => match nb o with None => true | Some _ => false end) m) as X.
  { clear E. induction F as [|x y l m Q F IH]; [reflexivity|]. cbn [existsb]. rewrite Q, IH. reflexivity. }
  unfold len in *. rewrite <- X, <- (Forall2_len _ _ _ F). destruct (_ && _); [discriminate|]. eauto.
Qed.
Lemma finalize_same sort W nd W' nd' D Wa na : represents W nd D -> represents W' nd' D -> linked D -> n_final nd = false -> n_final nd' = false ->
  untagged W nd -> untagged W' nd' -> finalize sort false W nd = Ok (Wa, na) ->
  exists Wb nb, finalize sort false W' nd' = Ok (Wb, nb) /\ forall normalized, lines normalized Wb nb = lines normalized Wa na.
Proof.
  intros R R' L NF NF' U U' E. pose proof E as E0. unfold finalize in E. rewrite NF in E. inv_bind E.
  assert (exists nd1, sort_elements W' nd' sort = Ok nd1) as (nd1 & SE).
  { unfold sort_elements in Ha |- *. inv_bind Ha.
    assert (forall (f g : nat -> option str) l m (names : list (option str)), Forall2 (fun o n => f o = n) l names -> Forall2 (fun o n => g o = n) m names -> Forall2 (fun x y => f x = g y) l m) as J.
    { intros. eapply Forall2_join; [eassumption..|]. cbn. intros. congruence. }
    assert (forall V n pr os ps, Forall2 (port_is V (n_types n) pr) os ps -> Forall2 (fun o nm => pt_name (w_ports V o) = nm) os (map pd_name ps)) as PN.
    { intros V n pr os ps F. induction F as [|o p os ps X F IH]; [constructor|]. cbn [map]. constructor; [apply X|exact IH]. }
    destruct (sorted_by_same _ (fun o => dt_name (w_types W' o)) _ (n_types nd') _ (J _ _ _ _ _ (rep_names _ _ _ R) (rep_names _ _ _ R')) Ha0) as (ts & ->).
    cbn [bind]. destruct sort; [|eauto]. inv_bind Ha. inv_bind Ha.
    destruct (sorted_by_same _ (fun o => pt_name (w_ports W' o)) _ (n_require nd') _ (J _ _ _ _ _ (PN _ _ _ _ _ (rp_require _ _ _ R)) (PN _ _ _ _ _ (rp_require _ _ _ R'))) Ha1) as (rs & ->).
    cbn [bind].
    destruct (sorted_by_same _ (fun o => pt_name (w_ports W' o)) _ (n_provide nd') _ (J _ _ _ _ _ (PN _ _ _ _ _ (rp_provide _ _ _ R)) (PN _ _ _ _ _ (rp_provide _ _ _ R'))) Ha2) as (ps & ->).
    cbn [bind]. eauto. }
  assert (exists Wb nb, finalize sort false W' nd' = Ok (Wb, nb)) as (Wb & nb & E').
  { unfold finalize. rewrite NF', SE. cbn [bind]. destruct (sort_rep _ _ _ _ _ R' SE) as (D' & _ & _ & _ & _ & IP).
    destruct (resolve_ports_same (n_types nd1) (n_require nd1 ++ n_provide nd1) W') as (W1 & RE & _).
    { intros o O. apply (rep_resolved W' nd' D o R' L). apply IP. exact O. }
    unfold resolve_types. rewrite RE. cbn [bind]. eauto. }
  exists Wb, nb. split; [exact E'|]. intros normalized.
  destruct (finalize_rep _ _ _ _ _ _ R L NF E0) as (D1 & S1 & R1 & _ & T1 & _ & I1). destruct (finalize_rep _ _ _ _ _ _ R' L NF' E') as (D2 & S2 & R2 & _ & T2 & _ & I2).
  pose proof (sorted_def_unique _ _ _ _ (ln_names _ L) S1 S2) as X. subst D2.
  apply (lines_same _ _ _ _ _ _ R2 R1).
  - eapply sorted_linked_ports; eauto.
  - right. split; intros i o O.
    + destruct (T2 i o O) as [-> ->]. split; [reflexivity|]. apply U'. apply I2. eapply nth_error_In; eauto.
    + destruct (T1 i o O) as [-> ->]. split; [reflexivity|]. apply U. apply I1. eapply nth_error_In; eauto.
Qed.
