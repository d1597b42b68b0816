(** Properties: splitting a definition and joining the parts (C86). *)
From Coq Require Import ZifyBool ZifyNat Lia.
From Coq Require Import String Permutation Sorted.
From Verif Require Import Py PyLemmas TypesModel TextModel SigModel AttrModel NodeModel ParserModel FilesModel ToolsModel.
From Verif Require Import SigSpec NodeSpec ParserSpec MergeSpec FilesSpec ToolsSpec MergeOkSpec MergeOrderSpec SplitJoinSpec.
From Verif Require Import NodeProofs FinalizeProofs ExtendProofs FilesProofs FilesProofs2 MergeOkProofs MergeOrderProofs ToolsProofs ToolsProofs2 ToolsProofs3.
From Verif Require Import ParserProps NodeProps MergeOkProps MergeOrderProps ToolsProps.
Ltac Zify.zify_post_hook ::= Z.div_mod_to_equations.

Lemma points_moved N N' : forall a b, moved N N' a b -> forall j, points b j -> exists i nm, points a i /\ nth_error N i = Some nm /\ nth_error N' j = Some nm.
Proof.
  apply (moved_mind N N' (fun a b _ => forall j, points b j -> exists i nm, points a i /\ nth_error N i = Some nm /\ nth_error N' j = Some nm)
    (fun l m _ => forall e j, In e m -> points e j -> exists a i nm, In a l /\ points a i /\ nth_error N i = Some nm /\ nth_error N' j = Some nm)).
  - intros n c lo hi k j X. inversion X.
  - intros n i j nm A B j' X. inversion X; subst. assert (j' = j) as -> by lia. exists i, nm. split; [constructor|auto].
  - intros n l l' M IH j X. inversion X as [|? ? e ? IE PE]; subst. destruct (IH e j IE PE) as (a & i & nm & IA & PA & R). exists i, nm. split; [econstructor; eauto|exact R].
  - intros e j [].
  - intros a a' l l' M IH Ms IHs e j [<- |I] P.
    + destruct (IH j P) as (i & nm & PA & R). exists a, i, nm. split; [left; reflexivity|auto].
    + destruct (IHs e j I P) as (b & i & nm & IB & R). exists b, i, nm. split; [right; exact IB|exact R].
Qed.
Lemma below_points N N' i : forall a b, moved N N' a b -> (forall j, points b j -> (j < i)%nat) -> below i b.
Proof.
  apply (moved_mind N N' (fun a b _ => (forall j, points b j -> (j < i)%nat) -> below i b) (fun l m _ => (forall e j, In e m -> points e j -> (j < i)%nat) -> belows i m)).
  - intros. constructor.
  - intros n k j nm A B P. constructor. apply P. constructor.
  - intros n l l' M IH P. constructor. apply IH. intros e j I X. apply P. econstructor; eauto.
  - constructor.
  - intros a a' l l' M IH Ms IHs P. constructor; [apply IH; intros j X; apply (P a' j); [left; reflexivity|exact X]|]. apply IHs. intros e j I X. apply (P e j); [right; exact I|exact X].
Qed.
Lemma points_below i : forall a, below i a -> forall j, points a j -> (j < i)%nat.
Proof.
  apply (below_mind i (fun a _ => forall j, points a j -> (j < i)%nat) (fun l _ => forall e j, In e l -> points e j -> (j < i)%nat)).
  - intros n c lo hi k j X. inversion X.
  - intros n k L j X. inversion X; subst. lia.
  - intros n l B IH j X. inversion X; subst. eauto.
  - intros e j [].
  - intros a l B IH Bs IHs e j [<- |I] P; eauto.
Qed.

Lemma named_part D X : named_in_order D -> (forall t, In t (df_types X) -> exists t2, In t2 (df_types D) /\ same_type D X t2 t) -> named_in_order X.
Proof.
  intros ND F t k u IT P U. destruct (F t IT) as (t0 & I0 & (N0 & _ & M0)). destruct (points_moved _ _ _ _ M0 k P) as (i & nm & P0 & A & B).
  unfold type_names in A, B. rewrite nth_error_map in A, B. rewrite U in B. cbn [option_map] in B. destruct (nth_error (df_types D) i) as [u0|] eqn:U0; [|discriminate]. cbn [option_map] in A.
  pose proof (ND t0 i u0 I0 P0 U0) as LE. rewrite N0. replace (td_name u) with (td_name u0) by congruence. exact LE.
Qed.
Lemma strongly_nth {A} (R : A -> A -> Prop) l : StronglySorted R l -> forall i j x y, (i < j)%nat -> nth_error l i = Some x -> nth_error l j = Some y -> R x y.
Proof.
  induction 1 as [|a l S IH F]; intros i j x y L X Y; [destruct i; discriminate|]. destruct j as [|j]; [lia|]. cbn [nth_error] in Y. destruct i as [|i].
  - injection X as <-. rewrite Forall_forall in F. apply F. eapply nth_error_In; eauto.
  - cbn [nth_error] in X. eapply (IH i j); eauto. lia.
Qed.
Lemma forall2_nth {A B} (R : A -> B -> Prop) l m : Forall2 R l m -> forall i y, nth_error m i = Some y -> exists x, nth_error l i = Some x /\ R x y.
Proof.
  induction 1 as [|a b l m X F IH]; intros i y E; [destruct i; discriminate|]. destruct i as [|i]; [injection E as <-; exists a; auto|]. exact (IH i y E).
Qed.
Lemma forall2_left {A B} (R : A -> B -> Prop) l m : Forall2 R l m -> forall x, In x l -> exists y, In y m /\ R x y.
Proof. induction 1 as [|a b l m X F IH]; intros x I; [destruct I|]. destruct I as [<- |I]; [exists b; cbn; auto|]. destruct (IH x I) as (y & J & Y). exists y. cbn. auto. Qed.
Lemma forall2_right {A B} (R : A -> B -> Prop) l m : Forall2 R l m -> forall y, In y m -> exists x, In x l /\ R x y.
Proof. induction 1 as [|a b l m X F IH]; intros y I; [destruct I|]. destruct I as [<- |I]; [exists a; cbn; auto|]. destruct (IH y I) as (x & J & Y). exists x. cbn. auto. Qed.
Lemma named_ordered s X Y : named_in_order X -> linked X -> names_given X -> sorted_def s X Y -> ordered Y.
Proof.
  intros NX L (NG & _) SD. destruct (sd_types _ _ _ SD) as (ts & (P & SS & _) & F). intros i t' T'. destruct (forall2_nth _ _ _ F i t' T') as (t & T & (NT & _ & M)).
  eapply below_points; [exact M|]. intros j PJ. destruct (points_moved _ _ _ _ M j PJ) as (k & nm & PK & A & B).
  unfold type_names in A, B. rewrite nth_error_map in A, B. destruct (nth_error (df_types X) k) as [u|] eqn:U; [|discriminate]. cbn [option_map] in A. injection A as <-.
  destruct (nth_error (df_types Y) j) as [u'|] eqn:U'; [|discriminate]. cbn [option_map] in B. assert (td_name u' = td_name u) as NU by congruence. clear B.
  destruct (forall2_nth _ _ _ F j u' U') as (v & V & (NV & _)).
  assert (In t (df_types X)) as IT by (apply (Permutation_in _ (Permutation_sym P)); eapply nth_error_In; eauto).
  assert (In v (df_types X)) as IV by (apply (Permutation_in _ (Permutation_sym P)); eapply nth_error_In; eauto).
  assert (In u (df_types X)) as IU by (eapply nth_error_In; eauto).
  assert (v = u) as -> by (apply (names_nodup td_name (df_types X)); [apply (ln_names _ L)|exact IV|exact IU|congruence]).
  pose proof (NX t k u IT PK U) as LE.
  assert (u <> t) as NE.
  { intros ->. apply In_nth_error in IT as (m & TM). pose proof (points_below _ _ (ln_below _ L m t TM) k PK) as LT.
    assert (m = k); [|lia]. pose proof (ln_names _ L) as ND. rewrite NoDup_nth_error in ND. apply ND.
    - unfold type_names. rewrite map_length. apply nth_error_Some. congruence.
    - unfold type_names. rewrite !nth_error_map, TM, U. reflexivity. }
  assert (td_name u <> td_name t) as NN by (intros X0; apply NE; apply (names_nodup td_name (df_types X)); [apply (ln_names _ L)|exact IU|exact IT|exact X0]).
  destruct (Nat.lt_trichotomy j i) as [LT|[EQ|GT]]; [exact LT|exfalso; subst j; congruence|exfalso].
  pose proof (strongly_nth _ _ SS i j t u GT T V) as GE. cbn beta in GE. pose proof (str_le_antisym _ _ LE GE) as EQ. apply NN.
  destruct (td_name u) as [a|] eqn:NA; [|destruct (NG u IU NA)]. destruct (td_name t) as [b|] eqn:NB; [|destruct (NG t IT NB)]. cbn [opt_text] in EQ. congruence.
Qed.

Lemma sorted_in s X Y pr : sorted_def s X Y -> exists ps, Permutation (ports pr X) ps /\ Forall2 (moved_port X Y) ps (ports pr Y).
Proof.
  intros SD. destruct pr; [destruct (sd_provide _ _ _ SD) as (ps & S & F)|destruct (sd_require _ _ _ SD) as (ps & S & F)]; exists ps; (split; [|exact F]); destruct s; try (apply S); subst; apply Permutation_refl.
Qed.
Lemma sorted_gathers s X Y : linked X -> linked Y -> sorted_def s X Y -> gathers [X] Y.
Proof.
  intros L L' SD. constructor; auto.
  - intros D [<- |[]]. exact L.
  - intros D pr p [<- |[]] I. destruct (sorted_in s X Y pr SD) as (ps & P & F). apply (Permutation_in _ P) in I. exact (forall2_left _ _ _ F p I).
  - intros pr q I. destruct (sorted_in s X Y pr SD) as (ps & P & F). destruct (forall2_right _ _ _ F q I) as (p & IP & M). exists X, p. split; [left; reflexivity|]. split; [|exact M].
    exact (Permutation_in _ (Permutation_sym P) IP).
  - intros t I. destruct (sd_types _ _ _ SD) as (ts & (P & _) & F). destruct (forall2_right _ _ _ F t I) as (u & IU & M). exists X, u. split; [left; reflexivity|]. split; [|exact M].
    exact (Permutation_in _ (Permutation_sym P) IU).
Qed.
Lemma sorted_names_once s X Y : sorted_def s X Y -> NoDup (port_names X) -> NoDup (port_names Y).
Proof.
  intros SD ND. assert (forall pr, Permutation (map pd_name (ports pr X)) (map pd_name (ports pr Y))) as P.
  { intros pr. destruct (sorted_in s X Y pr SD) as (ps & P & F). rewrite (Permutation_map pd_name P). clear P. induction F as [|p q ps l (N & _) F IH]; cbn [map]; [constructor|]. rewrite N. constructor. exact IH. }
  unfold port_names in *. rewrite map_app in *. apply (Permutation_NoDup (l := map pd_name (df_provide X) ++ map pd_name (df_require X))); [|exact ND]. apply Permutation_app; [apply (P true)|apply (P false)].
Qed.
Lemma join_gathers Ds J : join_of Ds J -> linked J -> Forall linked Ds -> gathers Ds J.
Proof.
  intros JO L FL. rewrite Forall_forall in FL. constructor; auto.
  - intros D pr p I IP. exact (jn_all _ _ JO D pr p I IP).
  - exact (jn_from _ _ JO).
  - intros t I. destruct (jn_types _ _ JO t I) as (Di & _ & _ & i & t2 & ID & _ & _ & N & S). exists Di, t2. split; [exact ID|]. split; [eapply nth_error_In; exact N|exact S].
Qed.

(** Two parts that have all ports between them. *)
Lemma parts_gather D pick pick' X Y J : linked D -> linked X -> linked Y -> part_of D pick X -> part_of D pick' Y ->
  (forall pr p, In p (pick pr) -> In p (ports pr D)) -> (forall pr p, In p (pick' pr) -> In p (ports pr D)) ->
  (forall pr p, In p (ports pr D) -> In p (pick pr) \/ In p (pick' pr)) -> gathers [X; Y] J -> gathers [D] J.
Proof.
  intros LD LX LY PX PY IX IY ALL G.
  assert (forall Z pk pr p, part_of D pk Z -> In p (pk pr) -> exists q, In q (ports pr Z) /\ moved_port D Z p q) as FW.
  { intros Z pk pr p PZ I. exact (forall2_left _ _ _ (pf_ports _ _ _ PZ pr) p I). }
  assert (forall Z pk pr q, part_of D pk Z -> In q (ports pr Z) -> exists p, In p (pk pr) /\ moved_port D Z p q) as BW.
  { intros Z pk pr q PZ I. exact (forall2_right _ _ _ (pf_ports _ _ _ PZ pr) q I). }
  constructor.
  - apply G.
  - intros E [<- |[]]. exact LD.
  - intros E pr p [<- |[]] I. destruct (ALL pr p I) as [K|K].
    + destruct (FW X pick pr p PX K) as (q & IQ & M). destruct (ga_has _ _ G X pr q (or_introl eq_refl) IQ) as (r & IR & M'). exists r. split; [exact IR|].
      eapply moved_port_trans; [apply (ln_names _ LX)|exact M|exact M'].
    + destruct (FW Y pick' pr p PY K) as (q & IQ & M). destruct (ga_has _ _ G Y pr q (or_intror (or_introl eq_refl)) IQ) as (r & IR & M'). exists r. split; [exact IR|].
      eapply moved_port_trans; [apply (ln_names _ LY)|exact M|exact M'].
  - intros pr q I. destruct (ga_port _ _ G pr q I) as (E & p & [<- |[<- |[]]] & IP & M).
    + destruct (BW X pick pr p PX IP) as (r & IR & M'). exists D, r. split; [left; reflexivity|]. split; [apply IX; exact IR|]. eapply moved_port_trans; [apply (ln_names _ LX)|exact M'|exact M].
    + destruct (BW Y pick' pr p PY IP) as (r & IR & M'). exists D, r. split; [left; reflexivity|]. split; [apply IY; exact IR|]. eapply moved_port_trans; [apply (ln_names _ LY)|exact M'|exact M].
  - intros t I. destruct (ga_type _ _ G t I) as (E & u & [<- |[<- |[]]] & IU & M).
    + destruct (part_type _ _ _ _ PX IU) as (v & IV & M'). exists D, v. split; [left; reflexivity|]. split; [exact IV|]. eapply same_type_trans; [apply (ln_names _ LX)|exact M'|exact M].
    + destruct (part_type _ _ _ _ PY IU) as (v & IV & M'). exists D, v. split; [left; reflexivity|]. split; [exact IV|]. eapply same_type_trans; [apply (ln_names _ LY)|exact M'|exact M].
Qed.
Lemma gathers_both X X' Y Y' J : gathers [X] X' -> gathers [Y] Y' -> gathers [X'; Y'] J -> gathers [X; Y] J.
Proof.
  intros GX GY G. eapply (gathers_trans [X; Y] [X'; Y'] X' Y'); [auto|exact G|exact GX|exact GY|left; reflexivity|right; left; reflexivity|]. intros E. cbn. tauto.
Qed.
Lemma firsts_has l : forall seen n, In n l -> ~ In n seen -> In n (firsts seen l).
Proof.
  induction l as [|x l IH]; intros seen n I NS; [destruct I|]. cbn [firsts]. destruct I as [<- |I].
  - destruct (existsb (opt_eqb x) seen) eqn:E; [|left; reflexivity]. apply existsb_name in E. contradiction.
  - destruct (existsb (opt_eqb x) seen) eqn:E; [auto|]. assert (x = n \/ x <> n) as [-> |NE].
    { destruct (opt_eqb x n) eqn:Q; [left; apply opt_eqb_eq; exact Q|right; intros ->; assert (opt_eqb n n = true) by (apply opt_eqb_eq; reflexivity); congruence]. }
    + left. reflexivity.
    + right. apply IH; [exact I|]. intros [X|X]; contradiction.
Qed.
Lemma asked_or_other D names pick : NoDup (port_names D) -> (forall pr, asked D names pr (pick pr)) ->
  forall pr p, In p (ports pr D) -> In p (pick pr) \/ In p (others D names pr).
Proof.
  intros ND AS pr p I. destruct (existsb (opt_eqb (pd_name p)) (map Some names)) eqn:E.
  - left. destruct (AS pr) as (INC & EQ). apply existsb_name in E. assert (In (pd_name p) (map pd_name (pick pr))) as IN.
    { rewrite EQ. apply filter_In. split; [apply firsts_has; [exact E|intros []]|]. apply existsb_name. unfold names_of. apply in_map. exact I. }
    apply in_map_iff in IN as (q & NQ & IQ). assert (q = p) as <-; [|exact IQ].
    apply (names_nodup pd_name (df_provide D ++ df_require D)); [exact ND|apply (MergeOrderProofs.in_ports pr); apply INC; exact IQ|apply (MergeOrderProofs.in_ports pr); exact I|exact NQ].
  - right. apply filter_In. split; [exact I|]. rewrite E. reflexivity.
Qed.

Lemma split_join_parts fuel a d D names nh nt h t d1 text fuel' name sort normalize d2 out :
  read_as d (s_input a) D -> writable_def D -> NoDup (port_names D) -> named_in_order D -> wanted a d names ->
  s_head a = Some h -> s_tail a = Some t -> h <> t -> s_mirror a = false ->
  named_by h nh -> plain_name nh -> ~ In 13 nh -> named_by t nt -> plain_name nt -> ~ In 13 nt -> plain_name name -> ~ In 13 name ->
  apx_split fuel a d = (d1, Printed text) -> apx_join fuel' [h; t] name sort normalize d1 = (d2, Printed out) ->
  exists J J' s, gathers [D] J /\ linked J /\ NoDup (port_names J) /\ names_given J /\ named_in_order J /\ df_name J = Some name /\ sorted_def sort J J' /\ ordered J' /\ linked J' /\
    text_for normalize J' s /\ text_as s J' /\ d2 = put_file d1 (name ++ lit ".apx") s.
Proof.
  intros RA WD ND NO WA SH ST HT SM NH PH CH NT PT CT PN CN ES EJ.
  destruct (read_as_sound _ _ _ empty_world RA) as (_ & _ & _ & (_ & LD & _) & _).
  destruct (split_done fuel a d D names nh nt d1 text RA WD ND WA) as (_ & (pick & Dh & Dh' & AS & PO & DNh & (SDh & Lh) & RH) & TL);
    [rewrite SH; exact NH|exact PH|exact CH|intros p P; rewrite ST in P; injection P as <-; auto|exact ES|].
  unfold head_def in *. rewrite SM in *. destruct (TL t ST) as (Dt & POt & (DNt & Lt & (Dt' & SDt)) & RT). clear TL.
  assert (forall pr p, In p (pick pr) -> In p (ports pr D)) as PK by (intros pr p I; apply (AS pr); exact I).
  assert (forall pr p, In p (others D names pr) -> In p (ports pr D)) as PKt by (intros pr p I; apply filter_In in I; apply I).
  pose proof (part_writable _ _ _ _ PO PK DNh PH WD) as WDh. pose proof (part_writable _ _ _ _ POt PKt DNt PT WD) as WDt.
  pose proof (named_ordered _ _ _ (named_part _ _ NO (fun t => part_type _ _ _ t PO)) Lh (writable_names _ WDh) SDh) as ODh.
  pose proof (named_ordered _ _ _ (named_part _ _ NO (fun t => part_type _ _ _ t POt)) Lt (writable_names _ WDt) SDt) as ODt.
  destruct (RH ODh) as (th & _ & TAh & HX). rewrite SH in HX. destruct HX as (_ & HX). specialize (HX ltac:(rewrite ST; congruence)).
  destruct (RT Dt' SDt ODt) as (tt' & _ & TAt & TX).
  assert (forall p s E, text_as s E -> d1 p = Some s -> read_as d1 p E) as PR.
  { intros p s E TA X. apply (read_as_ext (put_file d1 p s)); [rewrite put_same; auto|apply put_read_as; exact TA]. }
  pose proof (linked_sorted _ _ _ Lh SDh ODh) as Lh'. pose proof (linked_sorted _ _ _ Lt SDt ODt) as Lt'.
  destruct (join_done fuel' [h; t] name sort normalize d1 [Dh'; Dt'] d2 out) as (_ & _ & J & J' & JO & DNJ & (SDJ & LJ) & RJ);
    [constructor; [eapply PR; eauto|constructor; [eapply PR; eauto|constructor]]|
     constructor; [apply (writable_sorted _ _ _ SDh WDh)|constructor; [apply (writable_sorted _ _ _ SDt WDt)|constructor]]|exact PN|exact CN|exact EJ|].
  pose proof (sorted_gathers _ _ _ Lh Lh' SDh) as Gh. pose proof (sorted_gathers _ _ _ Lt Lt' SDt) as Gt.
  assert (gathers [Dh'; Dt'] J) as G0 by (apply join_gathers; [exact JO|exact LJ|constructor; [exact Lh'|constructor; [exact Lt'|constructor]]]).
  assert (gathers [D] J) as GJ.
  { eapply (parts_gather D pick (others D names) Dh Dt); eauto; [eapply asked_or_other; eauto|]. eapply gathers_both; [exact Gh|exact Gt|exact G0]. }
  assert (named_in_order J) as NJ.
  { eapply named_part; [exact NO|]. intros u I. destruct (ga_type _ _ GJ u I) as (E & v & [<- |[]] & IV & M). eauto. }
  assert (names_given J) as NGJ.
  { destruct (writable_names _ WD) as (GT & GP). split.
    - intros u I. destruct (ga_type _ _ GJ u I) as (E & v & [<- |[]] & IV & (-> & _)). auto.
    - intros q I. assert (exists pr, In q (ports pr J)) as (pr & IQ) by (apply in_app_or in I as [I|I]; [exists true|exists false]; exact I).
      destruct (ga_port _ _ GJ pr q IQ) as (E & v & [<- |[]] & IV & (-> & _)). apply GP. apply (MergeOrderProofs.in_ports pr). exact IV. }
  pose proof (named_ordered _ _ _ NJ LJ NGJ SDJ) as ODJ. pose proof (linked_sorted _ _ _ LJ SDJ ODJ) as LJ'.
  destruct (RJ ODJ) as (tj & TFj & TAj & E2). exists J, J', tj. repeat (split; [assumption|]). split; [apply (jn_once _ _ JO)|]. repeat (split; [assumption|]). exact E2.
Qed.
(** apx_split into two files and apx_join of the two give back the definition: the same
    ports with the same data, and types of the same name are the same. *)
Theorem split_then_join fuel a d D names nh nt h t d1 text fuel' name sort normalize d2 out :
  read_as d (s_input a) D -> writable_def D -> NoDup (port_names D) -> named_in_order D -> wanted a d names ->
  s_head a = Some h -> s_tail a = Some t -> h <> t -> s_mirror a = false ->
  named_by h nh -> plain_name nh -> ~ In 13 nh -> named_by t nt -> plain_name nt -> ~ In 13 nt -> plain_name name -> ~ In 13 name ->
  apx_split fuel a d = (d1, Printed text) -> apx_join fuel' [h; t] name sort normalize d1 = (d2, Printed out) ->
  exists J, read_as d2 (name ++ lit ".apx") J /\ df_name J = Some name /\
    types_agree D J /\ ports_in (same_data D J) D J /\ ports_in (same_data J D) J D /\
    forall pr, Permutation (map pd_name (ports pr D)) (map pd_name (ports pr J)).
Proof.
  intros RA WD ND NO WA SH ST HT SM NH PH CH NT PT CT PN CN ES EJ.
  destruct (read_as_sound _ _ _ empty_world RA) as (_ & _ & _ & (_ & LD & _) & _).
  destruct (split_join_parts fuel a d D names nh nt h t d1 text fuel' name sort normalize d2 out RA WD ND NO WA SH ST HT SM NH PH CH NT PT CT PN CN ES EJ)
    as (J & J' & tj & GJ & LJ & NJ & _ & _ & DNJ & SDJ & ODJ & LJ' & _ & TAj & ->).
  assert (gathers [D] J') as GJ'.
  { pose proof (sorted_gathers _ _ _ LJ LJ' SDJ) as GS. eapply (gathers_trans [D] [J] J J); [intros q [<- |[]]; left; reflexivity|exact GS|exact GJ|exact GJ|left; reflexivity|left; reflexivity|]. intros E. tauto. }
  destruct (gathers_alike _ _ _ (gathers_one D LD) GJ') as (A & B & C). destruct C as (C1 & C2 & C3); [intros X Y [<- |[]] [<- |[]]; left; reflexivity|].
  exists J'. split; [apply put_read_as; exact TAj|]. split; [rewrite (sd_name _ _ _ SDJ); exact DNJ|]. split; [exact C1|]. split; [exact C2|]. split; [exact C3|].
  intros pr. apply ports_names; [exact ND| |exact A|exact B]. eapply sorted_names_once; [exact SDJ|]. exact NJ.
Qed.
Print Assumptions split_then_join.

Local Open Scope string_scope.
Local Open Scope list_scope.
Definition ex_sj_args (names : list String.string) : split_args :=
  mk_split_args (lit "in.apx") (map lit names) (Some (lit "h.apx")) (Some (lit "t.apx")) (lit "Head") (lit "Tail") None false false.
Definition split_join (names : list String.string) (text : list String.string) : option str * outcome :=
  match apx_split 20 (ex_sj_args names) (one_file "in.apx" text) with
  | (d1, Printed []) => let '(d2, o) := apx_join 20 [lit "h.apx"; lit "t.apx"] (lit "n") true true d1 in (d2 (lit "n.apx"), o)
  | (_, o) => (None, o)
  end.
Definition ex_sj_text : list String.string :=
  ["APX/1.2"; "N""n"""; "T""A_T""C"; "T""B_T""{""x""T[0]""y""S}"; "T""C_T""L"; "P""a""T[""B_T""]"; "P""b""C:=1"; "R""c""T[""A_T""]"; "R""d""T[""C_T""]"].
Example ex_split_join :
  split_join ["c"; "b"] ex_sj_text = (Some (text_of (ex_sj_text ++ [""; ""])), Printed []) /\
  split_join ["d"] ex_sj_text = (Some (text_of (ex_sj_text ++ [""; ""])), Printed []).
Proof. vm_compute. auto. Qed.
(** A type that refers to one with a later name: apx_split writes a file with the types
    in the wrong order, which apx_join does not read. *)
Theorem split_then_join_refuted : exists d1 e,
  apx_split 20 (ex_sj_args ["p"]) (one_file "in.apx" ["APX/1.2"; "N""n"""; "T""b""C"; "T""a""{""x""T[""b""]}"; "P""p""T[""a""]"; "R""q""C"]) = (d1, Printed []) /\
  apx_join 20 [lit "h.apx"; lit "t.apx"] (lit "n") true true d1 = (d1, Failed e).
Proof. do 2 eexists. split; [vm_compute; reflexivity|]. vm_compute. reflexivity. Qed.
Print Assumptions split_then_join_refuted.
(** With the option to mirror the head, joining does not give the definition back. *)
Example ex_split_mirrored :
  let '(d1, _) := apx_split 20 (mk_split_args (lit "in.apx") [lit "p"] (Some (lit "h.apx")) (Some (lit "t.apx")) [] [] None false true) (one_file "in.apx" ["APX/1.2"; "N""n"""; "P""p""C"; "R""q""C"]) in
  let '(d2, _) := apx_join 20 [lit "h.apx"; lit "t.apx"] (lit "n") true true d1 in
  d2 (lit "n.apx") = Some (text_of ["APX/1.2"; "N""n"""; "R""p""C"; "R""q""C"; ""; ""]).
Proof. vm_compute. reflexivity. Qed.
