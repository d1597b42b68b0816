(** Lemmas about building the data of a node from its definition. *)
From Coq Require Import ZifyBool ZifyNat Lia.
From Verif Require Import Py PyLemmas TypesModel CompilerModel VmModel TypesSpec TypesProofs CompilerProofs CompilerProps VmProps
  TextModel SigModel AttrModel NodeModel ParserModel FilesModel SigSpec NodeSpec ParserSpec MergeSpec FilesSpec TextProofs SigProofs
  NodeProofs ElemTextProofs ParserProofs RoundTripProofs FinalizeProofs ExtendProofs FilesProofs
  RmfModel FileModel FileProofs VmProofs VmPackProofs VmUnpackProofs NodeDataModel NodeDataSpec NodeDataProofs NodeInitProofs ReadySpec.
Ltac Zify.zify_post_hook ::= Z.div_mod_to_equations.

(** ** Types *)

Scheme typed_mind := Induction for typed Sort Prop with typeds_mind := Induction for typeds Sort Prop.

Lemma accepts_more H : (forall n e t, accepts H n e t -> forall m, (n <= m)%nat -> accepts H m e t) /\
  (forall n es ms, acc_members H n es ms -> forall m, (n <= m)%nat -> acc_members H m es ms).
Proof.
  apply accepts_members_ind; intros; try match goal with L : (S _ <= ?q)%nat |- _ => destruct q as [|?]; [lia|] end; try (econstructor; eauto; fail).
  constructor. match goal with I : forall m, _ -> acc_members _ _ _ _ |- _ => apply I; lia end.
Qed.
Lemma denotes_more H : (forall n e t, denotes H n e t -> forall m, (n <= m)%nat -> denotes H m e t) /\
  (forall n es ms, members H n es ms -> forall m, (n <= m)%nat -> members H m es ms).
Proof.
  apply denotes_members_ind; intros; try match goal with L : (S _ <= ?q)%nat |- _ => destruct q as [|?]; [lia|] end; try (econstructor; eauto; fail);
    constructor; match goal with I : forall m, (_ <= m)%nat -> _ |- _ => apply I; lia end.
Qed.

Lemma typed_accepts H types ts : Forall2 (type_is H types) types ts -> forall a t, typed ts a t ->
  forall e, stands types e a -> exists n, accepts H n e t.
Proof.
  intros F. apply (typed_mind ts (fun a t _ => forall e, stands types e a -> exists n, accepts H n e t)
    (fun l ms _ => forall es, stands_all types es l -> exists n, acc_members H n es ms)).
  - intros nm c lo hi k K S1 e ST. inversion ST; subst. exists 1%nat. constructor; auto.
  - intros nm c lo hi k n K S1 e ST. inversion ST; subst. exists 1%nat. constructor; auto.
  - intros nm lo hi n e ST. inversion ST; subst. exists 1%nat. constructor.
  - intros nm l ms _ IH e ST. inversion ST as [| |? es ? SS]; subst. destruct (IH _ SS) as (n & A). exists (S n). constructor. exact A.
  - intros nm i d t N TG _ IH e ST. inversion ST as [|? o j O|]; subst.
    match goal with X : Z.of_nat _ = Z.of_nat _ |- _ => apply Nat2Z.inj in X; subst j end. destruct (Forall2_nth _ _ _ _ _ F O) as (d' & D' & (_ & _ & S2)). rewrite N in D'. injection D' as <-.
    destruct (IH _ S2) as (n & A). exists n. constructor; [|exact A]. inversion S2 as [? ? ? ? ? X1 X2|? ? ? ? X1 X2|? ? ? ? X1 X2]; rewrite <- X2 in TG; auto.
  - intros es ST. inversion ST; subst. exists O. constructor.
  - intros a l nm t ms NM B _ IH _ IHs es ST. inversion ST as [|e a' es' l' S1 S2]; subst.
    destruct (IH _ S1) as (n & A). destruct (IHs _ S2) as (m & M). exists (Nat.max n m). econstructor.
    + rewrite (stands_name _ _ _ S1). exact NM.
    + exact B.
    + eapply (proj1 (accepts_more H)); [exact A|lia].
    + eapply (proj2 (accepts_more H)); [exact M|lia].
Qed.

Lemma leads_end ts a b : leads ts a b -> ~ is_ref b.
Proof. induction 1; auto. Qed.
Lemma follow_leads H types ts : Forall2 (type_is H types) types ts -> forall a b, leads ts a b -> forall e, stands types e a ->
  forall k d, resolve_loop k H e = Ok d -> stands types d b.
Proof.
  intros F a b L. induction L as [a N|nm i t b N L IH]; intros e ST k d E.
  - assert (~ is_ref e) as NE by (rewrite (stands_ref _ _ _ ST); exact N).
    destruct k; cbn [resolve_loop] in E; destruct e; try (cbn in NE; tauto); cbn in E; injection E as <-; exact ST.
  - inversion ST as [|? o j O|]; subst. match goal with X : Z.of_nat _ = Z.of_nat _ |- _ => apply Nat2Z.inj in X; subst j end.
    destruct (Forall2_nth _ _ _ _ _ F O) as (t' & T' & (_ & _ & S2)). rewrite N in T'. injection T' as <-.
    destruct k; cbn [resolve_loop is_reference] in E; [discriminate|]. eapply IH; eauto.
Qed.
Lemma resolved_means H e d t : resolve_data_element H e = Ok d -> means H d t -> means H e t.
Proof.
  unfold resolve_data_element. generalize MAX_RECURSE_DEPTH. intros k. revert e. induction k as [|k IH]; intros e R M; cbn [resolve_loop] in R.
  - destruct (is_reference e); [discriminate|]. injection R as <-. exact M.
  - destruct e as [nm c lo hi a|nm es|nm [i|s|o]]; try discriminate; try (injection R as <-; exact M).
    destruct (IH _ R M) as (n & D). exists (S n). constructor. exact D.
Qed.

(** ** One port *)

(** Building works for port [o], which then has type [t]. *)
Definition ready (W : world) (types : list nat) (K : nat) (o : nat) (t : ty) : Prop :=
  exists e tg b, resolve_sig (w_types W) types (pt_elem (w_ports W o)) = Ok (e, tg) /\
    denotes (w_types W) K e t /\ accepts (w_types W) K tg t /\
    (forall fuel, (K <= fuel)%nat -> turn_init fuel (w_types W) tg (init_of (w_ports W o)) (tlen t) = Ok b) /\
    len b = tlen t /\ wf_ty t.

Lemma ready_more W types K K' o t : ready W types K o t -> (K <= K')%nat -> ready W types K' o t.
Proof.
  intros (e & tg & b & R & D & A & I & L & WF) LE. exists e, tg, b. split; [exact R|].
  split; [eapply (proj1 (denotes_more _)); eauto|]. split; [eapply (proj1 (accepts_more _)); eauto|].
  split; [|auto]. intros f LF. apply I. lia.
Qed.

Lemma typed_ready W types ts o e tg a t : Forall2 (type_is (w_types W) types) types ts ->
  resolve_sig (w_types W) types (pt_elem (w_ports W o)) = Ok (e, tg) -> stands types tg a -> typed ts a t ->
  wf_ty t -> first_bytes t (init_of (w_ports W o)) <> None -> exists K, ready W types K o t.
Proof.
  intros F R ST T WF FB. destruct (typed_accepts _ _ _ F _ _ T _ ST) as (n & A).
  assert (means (w_types W) tg t) as M by (apply (proj1 (accepts_denotes _)) in A; exact A).
  assert (means (w_types W) e t) as (m & ME).
  { unfold resolve_sig in R. inv_bind R. inv_bind R. injection R as <- <-. eapply resolved_means; eauto. }
  assert (exists q b, (forall fuel, (q <= fuel)%nat -> turn_init fuel (w_types W) tg (init_of (w_ports W o)) (tlen t) = Ok b) /\ len b = tlen t) as (q & b & I & L).
  { pose proof (tlen_nonneg t WF) as TL. unfold turn_init, first_bytes in *. destruct (init_of (w_ports W o)) as [|z|s|l] eqn:E.
    - exists O, (zeros (tlen t)). split; [|unfold zeros, len; rewrite repeat_length; lia].
      intros _ _. unfold mk_zeros. replace (tlen t <? 0) with false by lia. reflexivity.
    - destruct (init_bytes t (IVInt z)) as [b|] eqn:B; [|contradiction]. destruct (means_init _ _ _ _ _ M WF B) as (q & I). exists q, b. split; [exact I|eapply init_bytes_len; eauto].
    - destruct (init_bytes t (IVStr s)) as [b|] eqn:B; [|contradiction]. destruct (means_init _ _ _ _ _ M WF B) as (q & I). exists q, b. split; [exact I|eapply init_bytes_len; eauto].
    - destruct (init_bytes t (IVList l)) as [b|] eqn:B; [|contradiction]. destruct (means_init _ _ _ _ _ M WF B) as (q & I). exists q, b. split; [exact I|eapply init_bytes_len; eauto]. }
  exists (Nat.max n (Nat.max m q)), e, tg, b. split; [exact R|]. split; [eapply (proj1 (denotes_more _)); [exact ME|lia]|].
  split; [eapply (proj1 (accepts_more _)); [exact A|lia]|]. split; [|auto]. intros f LF. apply I. lia.
Qed.

Lemma ready_turn fuel d types W s o t K : ready W types K o t -> (K <= fuel)%nat -> pt_id (w_ports W o) = Some (len (s_progs s)) ->
  exists e s', add_to_side fuel d types W s o = Ok (set_port W o (with_pelem (w_ports W o) e), s') /\
    denotes (w_types W) K e t /\ len (s_progs s') = len (s_progs s) + 1 /\ s_offset s' = s_offset s + tlen t /\
    len (s_init s') = len (s_init s) + tlen t.
Proof.
  intros (e & tg & b & R & D & A & I & L & WF) LE ID. exists e. unfold add_to_side. rewrite ID.
  replace (match d with Unpack => Ok tt | Pack => Ok tt end) with (@Ok unit tt) by (destruct d; reflexivity).
  assert (forall (X : res unit), match d with Unpack => Ok tt | Pack => Ok tt end = X -> X = Ok tt) as DD by (intros X <-; destruct d; reflexivity).
  rewrite R. cbn [bind set_port w_types].
  rewrite (packLen_denotes (w_types W) K e t fuel D LE). cbn [bind].
  assert (compileProg fuel d (w_types W) tg = Ok (head d (tlen t) ++ body d t)) as ->.
  { apply compileProg_iff. exists t. split; [|reflexivity]. eapply (proj1 (accepts_more _)); eauto. }
  cbn [bind check_sync]. rewrite Z.eqb_refl. cbn [bind].
  specialize (I fuel LE). unfold turn_init in I. 
  replace (match init_of (w_ports W o) with IVNone => mk_zeros (tlen t) | v => createInitData fuel (w_types W) tg v end) with (@Ok bytes b)
    by (destruct (init_of (w_ports W o)); symmetry; exact I).
  cbn [bind]. destruct d; (eexists; split; [reflexivity|]; cbn [s_progs s_offset s_init]; split; [exact D|]; rewrite !len_app, ?L; change (len [_]) with 1; auto).
Qed.

(** ** All ports *)

Lemma ready_frame W W' types K o t : w_types W' = w_types W -> w_ports W' o = w_ports W o -> ready W types K o t -> ready W' types K o t.
Proof. intros E1 E2. unfold ready. rewrite E1, E2. auto. Qed.

Lemma ready_all fuel d types K : (K <= fuel)%nat -> forall l ts W s, Forall2 (ready W types K) l ts -> NoDup l ->
  (forall i o, nth_error l i = Some o -> pt_id (w_ports W o) = Some (len (s_progs s) + Z.of_nat i)) ->
  exists W' s', add_all fuel d types W s l = Ok (W', s') /\ w_types W' = w_types W /\ (forall o, ~ In o l -> w_ports W' o = w_ports W o) /\
    Forall2 (port_means W') l ts /\ s_offset s' = s_offset s + total ts /\ len (s_init s') = len (s_init s) + total ts.
Proof.
  intros LE. induction l as [|o l IH]; intros ts W s F N ID; inversion F as [|? t ? ts' R F']; subst.
  - exists W, s. repeat split; auto; cbn [total]; lia.
  - inversion N as [|? ? NI N']; subst. destruct (ready_turn fuel d types W s o t K R LE) as (e & s1 & E & D & P & O & I).
    { rewrite (ID 0%nat o eq_refl). f_equal. lia. }
    set (W1 := set_port W o (with_pelem (w_ports W o) e)) in *.
    assert (forall x, x <> o -> w_ports W1 x = w_ports W x) as OT by (intros x X; unfold W1; cbn [set_port w_ports]; apply upd_other; exact X).
    destruct (IH ts' W1 s1) as (W2 & s2 & E2 & T2 & O2 & M2 & Q2 & I2).
    + eapply Forall2_imp; [|exact F']. intros x y X _ R'. eapply ready_frame; [| |exact R']; [reflexivity|]. apply OT. intros ->. exact (NI X).
    + exact N'.
    + intros i x X. rewrite OT; [|intros ->; apply NI; eapply nth_error_In; eauto]. rewrite (ID (S i) x X), P. f_equal. lia.
    + exists W2, s2. cbn [add_all]. rewrite E. cbn [bind]. split; [exact E2|]. split; [rewrite T2; reflexivity|]. split; [|split; [|cbn [total]; lia]].
      * intros x X. rewrite O2 by (intros Z; apply X; right; exact Z). apply OT. intros ->. apply X. left. reflexivity.
      * constructor; [|exact M2]. unfold port_means. rewrite T2, (O2 o NI). unfold W1. cbn [set_port w_ports w_types]. rewrite upd_same. exists K. exact D.
Qed.

Lemma ready_side fuel d W nd K l ts name : (K <= fuel)%nat -> Forall2 (ready W (n_types nd) K) l ts -> Forall regular ts -> NoDup l ->
  (forall i o, nth_error l i = Some o -> pt_id (w_ports W o) = Some (Z.of_nat i)) -> n_name nd = Some name ->
  exists W' s' fo, create_side fuel d W nd l = Ok (W', s', fo) /\ w_types W' = w_types W /\ (forall o, ~ In o l -> w_ports W' o = w_ports W o) /\
    Forall2 (port_means W') l ts.
Proof.
  intros LE F RG N ID NM. destruct (ready_all fuel d (n_types nd) K LE l ts W empty_side F N) as (W' & s' & E & T & O & M & Q & I).
  { intros i o X. rewrite (ID i o X). f_equal. }
  pose proof (total_nonneg _ RG) as TN. cbn [empty_side s_offset s_init] in Q, I. change (len []) with 0 in I.
  destruct l as [|o l]; [inversion F; subst; exists W, empty_side, None; repeat split; auto|].
  unfold create_side. rewrite E. cbn [bind]. rewrite Q, I. replace (negb (0 + total ts =? 0 + total ts)) with false by lia.
  destruct (0 <? 0 + total ts) eqn:P.
  - rewrite NM. unfold new_file, mk_zeros. replace (0 + total ts <? 0) with false by lia. cbn [bind]. rewrite I. replace (negb (0 + total ts =? 0 + total ts)) with false by lia.
    cbn [bind]. eexists W', s', _. split; [reflexivity|]. auto.
  - exists W', s', None. auto.
Qed.

(** ** The text *)

Lemma ascii_app a b : ascii (a ++ b) <-> ascii a /\ ascii b.
Proof. apply Forall_app. Qed.
Lemma ascii_lit s : forallb (fun c => (0 <=? c) && (c <? 128)) s = true -> ascii s.
Proof. intros E. apply Forall_forall. intros c C. rewrite forallb_forall in E. specialize (E c C). lia. Qed.
Lemma ascii_dec z : ascii (dec_str z).
Proof.
  pose proof (dec_str_none (fun c => negb ((0 <=? c) && (c <? 128))) z) as N. 
  assert (none (fun c => negb ((0 <=? c) && (c <? 128))) (dec_str z)) as X by (apply N; intros c; unfold is_numch, is_digit; lia).
  eapply Forall_impl; [|exact X]. cbn. intros c C. lia.
Qed.
Ltac asc := repeat (first [apply ascii_dec | apply ascii_lit; reflexivity | apply ascii_app; split]).

Lemma elem_text_ascii by_name H : forall e s, elem_string by_name H e = Ok s -> Forall ascii (elem_words e) ->
  (forall o, mentions e o -> ascii (opt_text (dt_name (H o)))) -> ascii s.
Proof.
  induction e as [n c lo hi k|n es IH|n r] using delem_ind2; intros s E NW NM.
  - cbn [elem_string] in E. injection E as <-. change (ascii ([code_char c] ++ match lo, hi with
           | Some l, Some h => [40] ++ dec_str l ++ [COMMA] ++ dec_str h ++ [41]
           | _, _ => []
           end ++ match k with Some n => [91] ++ dec_str n ++ [93] | None => [] end)).
    apply ascii_app. split; [destruct c; asc|]. apply ascii_app. split; [destruct lo, hi; asc|destruct k; asc].
  - rewrite elem_string_rec in E. inv_bind E. injection E as <-. rewrite elem_words_rec in NW.
    assert (ascii a) as NA; [|change (ascii ([123] ++ a ++ [125])); apply ascii_app; split; [asc|]; apply ascii_app; split; [exact NA|asc]].
    assert (forall e o, In e es -> mentions e o -> ascii (opt_text (dt_name (H o)))) as NMs by (intros e o I M; apply NM; econstructor; eauto).
    clear NM. revert a Ha. induction es as [|x es IHes]; intros a E; cbn in E; [injection E as <-; constructor|].
    apply bind_ok in E as (t & E1 & E). apply bind_ok in E as (b & E2 & E). injection E as <-. cbn [members_words] in NW. inversion NW as [|? ? NW1 NW']; subst. apply Forall_app in NW' as [NW2 NW3].
    pose proof (Forall_inv IH) as IHx. apply Forall_inv_tail in IH.
    change (ascii ([QUOTE] ++ opt_text (de_name x) ++ [QUOTE] ++ t ++ b)).
    apply ascii_app; split; [asc|]. apply ascii_app; split; [exact NW1|]. apply ascii_app; split; [asc|]. apply ascii_app; split.
    + eapply IHx; [exact E1|exact NW2|]. intros o M. eapply NMs; [left; reflexivity|exact M].
    + apply IHes; auto. intros e o I M. eapply NMs; [right; exact I|exact M].
  - cbn [elem_string] in E. destruct r as [i|m|o]; [discriminate| |].
    + injection E as <-. cbn [elem_words] in NW. inversion NW; subst.
      change (ascii (lit "T[""" ++ m ++ lit """]")). apply ascii_app; split; [asc|]. apply ascii_app; split; [assumption|asc].
    + assert (ascii (opt_text (dt_name (H o)))) as NO by (apply NM; constructor).
      destruct (if by_name then None else dt_id (H o)); injection E as <-.
      * change (ascii (lit "T[" ++ dec_str z ++ lit "]")). asc.
      * change (ascii (lit "T[""" ++ opt_text (dt_name (H o)) ++ lit """]")). apply ascii_app; split; [asc|]. apply ascii_app; split; [exact NO|asc].
Qed.

Lemma stands_text types by_name H : forall e a, stands types e a -> exists s, elem_string by_name H e = Ok s.
Proof.
  apply (stands_mind types (fun e a _ => exists s, elem_string by_name H e = Ok s) (fun es l _ => exists s, members_string by_name H es = Ok s)).
  - intros. eexists. reflexivity.
  - intros n o i E. cbn [elem_string]. destruct (if by_name then None else dt_id (H o)); eexists; reflexivity.
  - intros n es l _ (s & E). rewrite elem_string_rec, E. eexists. reflexivity.
  - eexists. reflexivity.
  - intros e a es l _ (s & E) _ (r & R). cbn [members_string]. rewrite E, R. eexists. reflexivity.
Qed.
Lemma named_text by_name H : forall e, by_names e -> exists s, elem_string by_name H e = Ok s.
Proof.
  induction e as [n c lo hi k|n es IH|n r] using delem_ind2; intros B; inversion B as [|? s|? ? FB]; subst.
  - eexists. reflexivity.
  - rewrite elem_string_rec. assert (exists s, members_string by_name H es = Ok s) as (s & ->); [|eexists; reflexivity].
    clear B. induction IH as [|x es X F IHes]; [eexists; reflexivity|]. inversion FB as [|? ? B1 B2]; subst. destruct (X B1) as (s & E). destruct (IHes B2) as (r & R).
    cbn [members_string]. rewrite E, R. eexists. reflexivity.
  - eexists. reflexivity.
Qed.
Lemma map_res_all {A B} (f : A -> res B) l : (forall x, In x l -> exists y, f x = Ok y) -> exists ys, map_res f l = Ok ys.
Proof.
  induction l as [|x l IH]; intros F; [exists []; reflexivity|]. destruct (F x (or_introl eq_refl)) as (y & E). destruct IH as (ys & R); [intros z Z; apply F; right; exact Z|].
  cbn [map_res]. rewrite E, R. eexists. reflexivity.
Qed.
Lemma named_mentions : forall e, by_names e -> forall o, ~ mentions e o.
Proof.
  induction e as [n c lo hi k|n es IH|n r] using delem_ind2; intros B o M; inversion M; subst.
  - inversion B as [| |? ? FB]; subst. rewrite Forall_forall in IH, FB. eapply IH; eauto.
  - inversion B.
Qed.
Lemma decl_ascii letter name sig attr : 0 <= letter < 128 -> ascii (opt_text name) -> ascii sig -> (forall a, attr = Some a -> ascii a) -> ascii (decl_string letter name sig attr).
Proof.
  intros L N S1 A. unfold decl_string. apply ascii_app. split; [repeat constructor; unfold QUOTE; lia|]. apply ascii_app. split; [exact N|]. apply ascii_app. split; [asc|].
  apply ascii_app. split; [exact S1|]. destruct attr as [a|]; [|constructor]. apply ascii_app. split; [asc|]. apply A. reflexivity.
Qed.

Lemma lines_ready W nd D : represents W nd D -> (forall p, In p (df_provide D ++ df_require D) -> exists t, port_typed D p t) -> unshort W nd ->
  (forall w, In w (def_words D) -> ascii w) -> exists ls, lines false W nd = Ok ls /\ Forall ascii ls.
Proof.
  intros R PT US AW.
  assert (ascii (opt_text (df_name D))) as C1 by (apply AW; left; reflexivity).
  assert (forall t, In t (df_types D) -> Forall ascii (type_words t)) as C2.
  { intros t T. apply Forall_forall. intros w I. apply AW. right. apply in_or_app. left. apply in_flat_map. eauto. }
  assert (forall p, In p (df_provide D ++ df_require D) -> Forall ascii (port_words p)) as C3.
  { intros t T. apply Forall_forall. intros w I. apply AW. right. apply in_or_app. right. apply in_flat_map. eauto. }
  assert (forall o, In o (n_types nd) -> ascii (opt_text (dt_name (w_types W o)))) as TN.
  { intros o O. apply In_nth_error in O as (i & O). destruct (Forall2_nth _ _ _ _ _ (rp_types _ _ _ R) O) as (t & T & -> & _). apply nth_error_In in T.
    specialize (C2 t T). inversion C2; assumption. }
  assert (forall e a s, stands (n_types nd) e a -> Forall ascii (elem_words a) -> elem_string false (w_types W) e = Ok s -> ascii s) as EN.
  { intros e x s ST NW ES. eapply elem_text_ascii; [exact ES|rewrite (stands_words _ _ _ ST); exact NW|]. intros o M. apply TN. eapply stands_mentions_in; eauto. }
  assert (forall o, In o (n_types nd) -> exists s, type_string false (w_types W) (w_types W o) = Ok s /\ ascii s) as TT.
  { intros o O. pose proof (US o O) as SH. apply In_nth_error in O as (i & O).
    destruct (Forall2_nth _ _ _ _ _ (rp_types _ _ _ R) O) as (t & T & TN' & TA & ST). apply nth_error_In in T. specialize (C2 t T).
    inversion C2 as [|? ? A1 C2']; subst. inversion C2' as [|? ? A2 A3]; subst. destruct (stands_text _ false (w_types W) _ _ ST) as (s & E).
    unfold type_string. rewrite E, SH. cbn [bind]. eexists. split; [reflexivity|]. rewrite TN', TA. apply decl_ascii; [lia|exact A1|eapply EN; eauto|].
    intros x X. rewrite X in A2. exact A2. }
  assert (forall pr os ps, Forall2 (port_is W (n_types nd) pr) os ps -> (forall p, In p ps -> In p (df_provide D ++ df_require D)) ->
    forall o, In o os -> exists s, port_string false (w_types W) (w_ports W o) = Ok s /\ ascii s) as PN.
  { intros pr os ps F IP o O. apply In_nth_error in O as (i & O). destruct (Forall2_nth _ _ _ _ _ F O) as (p & P & PP & PN & PA & PE). apply nth_error_In, IP in P.
    specialize (C3 p P). inversion C3 as [|? ? A1 C3']; subst. inversion C3' as [|? ? A2 A3]; subst.
    assert (exists s, elem_string false (w_types W) (pt_elem (w_ports W o)) = Ok s /\ ascii s) as (s & E & AS).
    { inversion PE as [m r x ST E1 E2|e NR E1 E2]; subst.
      - destruct (stands_text _ false (w_types W) _ _ ST) as (s & E). exists s. split; [exact E|]. eapply EN; [exact ST|exact A3|exact E].
      - destruct (PT p P) as (t & [b IR _ _|a _ B _ _]); [rewrite E2 in NR; contradiction|]. destruct (named_text false (w_types W) _ B) as (s & E). exists s.
        rewrite E2. split; [exact E|]. eapply elem_text_ascii; [exact E|exact A3|]. intros x M. contradiction (named_mentions _ B _ M). }
    unfold port_string. rewrite E. cbn [bind]. eexists. split; [reflexivity|]. rewrite PN, PA. apply decl_ascii; [destruct (pt_provide _); lia|exact A1|exact AS|].
    intros x X. destruct (pd_attr p); [injection X as <-; exact A2|discriminate]. }
  assert (forall (f : nat -> res str) l, (forall o, In o l -> exists s, f o = Ok s /\ ascii s) -> exists ys, map_res f l = Ok ys /\ Forall ascii ys) as MR.
  { intros f l FF. destruct (map_res_all f l) as (ys & E); [intros x X; destruct (FF x X) as (y & Y & _); eauto|]. exists ys. split; [exact E|].
    apply Forall_forall. intros y Y. destruct (map_res_in _ _ _ E y Y) as (x & X & FX). destruct (FF x X) as (y' & Y1 & Y2). rewrite FX in Y1. injection Y1 as ->. exact Y2. }
  destruct (MR (fun o => type_string false (w_types W) (w_types W o)) (n_types nd) TT) as (a & Ea & Aa).
  destruct (MR (fun o => port_string false (w_types W) (w_ports W o)) (n_provide nd)) as (b & Eb & Ab).
  { eapply PN; [exact (rp_provide _ _ _ R)|]. intros p P. apply in_or_app. auto. }
  destruct (MR (fun o => port_string false (w_types W) (w_ports W o)) (n_require nd)) as (c & Ec & Ac).
  { eapply PN; [exact (rp_require _ _ _ R)|]. intros p P. apply in_or_app. auto. }
  unfold lines. rewrite Ea, Eb, Ec. cbn [bind]. eexists. split; [reflexivity|]. constructor; [|rewrite !Forall_app; auto].
  rewrite (rp_name _ _ _ R). apply ascii_app. split; [asc|]. apply ascii_app. split; [exact C1|asc].
Qed.
Lemma join_ascii sep l : ascii sep -> Forall ascii l -> ascii (join sep l).
Proof.
  intros S1 F. induction F as [|x l X F IH]; [constructor|]. destruct l as [|y l]; [exact X|]. change (ascii (x ++ sep ++ join sep (y :: l))).
  rewrite !ascii_app. auto.
Qed.
Lemma text_ready W nd D : represents W nd D -> (forall p, In p (df_provide D ++ df_require D) -> exists t, port_typed D p t) -> unshort W nd ->
  (forall w, In w (def_words D) -> ascii w) -> exists text, context_dumps false W [nd] = Ok text /\ encode_ascii text = Ok text.
Proof.
  intros R PT US AW. destruct (lines_ready W nd D R PT US AW) as (ls & E & A). unfold context_dumps. cbn [map_res]. rewrite E. cbn [bind concat]. eexists. split; [reflexivity|].
  set (t := join [NEWLINE] (lit "APX/1.2" :: ls ++ []) ++ [NEWLINE]). assert (ascii t) as AT.
  { unfold t. apply ascii_app. split; [|asc]. apply join_ascii; [asc|]. constructor; [asc|]. rewrite app_nil_r. exact A. }
  unfold encode_ascii. replace (forallb (fun c => (0 <=? c) && (c <? 128)) t) with true; [reflexivity|]. symmetry. apply forallb_forall.
  intros c C. unfold ascii in AT. rewrite Forall_forall in AT. specialize (AT c C). cbn in AT. lia.
Qed.

(** ** The whole node *)

Lemma port_ready W nd D pr o p t : represents W nd D -> linked D -> port_is W (n_types nd) pr o p -> In p (df_provide D ++ df_require D) ->
  port_typed D p t -> wf_ty t -> first_bytes t (initial p) <> None -> exists K, ready W (n_types nd) K o t.
Proof.
  intros R L (_ & _ & PA & PE) IP PT WF FB.
  assert (init_of (w_ports W o) = initial p) as IE by (unfold init_of, initial; rewrite PA; reflexivity). rewrite <- IE in FB.
  pose proof (rp_types _ _ _ R) as F. destruct (ln_ports _ L p IP) as (G & _).
  destruct PT as [b IR LD TD|a NR BN RF TD].
  - destruct (G IR) as (_ & RC). inversion PE as [m r x ST E1 E2|e NR E1 E2]; subst; [|rewrite E2 in NR; contradiction].
    destruct (proj2 (follow _ _ _ F 10 _ _ ST) RC) as (d & E).
    eapply (typed_ready W (n_types nd) (df_types D) o (pt_elem (w_ports W o)) d b t F); auto.
    + unfold resolve_sig. rewrite <- E1. inversion ST; subst. cbn [resolve_type bind]. unfold resolve_data_element, MAX_RECURSE_DEPTH. rewrite E. reflexivity.
    + eapply follow_leads; eauto.
  - inversion PE as [m r x ST E1 E2|e NR' E1 E2]; [exfalso; apply NR; apply (stands_ref _ _ _ ST); exact I|].
    assert (Forall2 (fun o nm => dt_name (w_types W o) = nm) (n_types nd) (type_names D)) as FN.
    { unfold type_names. clear - F. revert F. generalize (n_types nd) at 1 as tt. intros tt F. induction F as [|x y l m (X & _) F IH]; constructor; auto. }
    destruct (linkable _ _ _ FN (ln_names _ L) _ _ RF) as (e' & RT & ST).
    eapply (typed_ready W (n_types nd) (df_types D) o e' e' a t F); auto.
    unfold resolve_sig. rewrite E2, RT. cbn [bind].
    assert (~ is_ref e') as NE by (rewrite (stands_ref _ _ _ ST), <- (refers_ref _ _ _ RF); exact NR).
    destruct e'; try (exfalso; apply NE; exact I); reflexivity.
Qed.
Lemma ports_ready W nd D pr : represents W nd D -> linked D -> forall l ps ts, Forall2 (port_is W (n_types nd) pr) l ps ->
  (forall p, In p ps -> In p (df_provide D ++ df_require D)) -> Forall2 (port_typed D) ps ts -> Forall regular ts ->
  Forall2 (fun p t => first_bytes t (initial p) <> None) ps ts -> exists K, Forall2 (ready W (n_types nd) K) l ts.
Proof.
  intros R L l ps ts F. revert ts. induction F as [|o p l ps PI F IH]; intros ts IP T RG FB; inversion T as [|? t ? ts' T1 T2]; subst; [exists O; constructor|].
  inversion RG as [|? ? RG1 RG2]; subst. inversion FB as [|? ? ? ? FB1 FB2]; subst.
  destruct (port_ready W nd D pr o p t R L PI (IP p (or_introl eq_refl)) T1 (proj1 RG1) FB1) as (K1 & R1).
  destruct (IH ts') as (K2 & R2); auto; [intros q Q; apply IP; right; exact Q|].
  exists (Nat.max K1 K2). constructor; [eapply ready_more; [exact R1|lia]|].
  eapply Forall2_imp; [|exact R2]. intros x y _ _ X. eapply ready_more; [exact X|lia].
Qed.

Lemma NoDup_parts {A} (a b : list A) : NoDup (a ++ b) -> NoDup a /\ NoDup b /\ forall x, In x a -> In x b -> False.
Proof.
  induction a as [|y a IH]; intros N; [repeat split; [constructor|exact N|intros x []]|]. cbn [app] in N. inversion N as [|? ? NI N']; subst.
  destruct (IH N') as (A1 & A2 & A3). split; [constructor; [intros X; apply NI; apply in_or_app; auto|exact A1]|]. split; [exact A2|].
  intros x [<- |X] Y; [apply NI; apply in_or_app; auto|eauto].
Qed.
Lemma node_ready W nd D ins outs : represents W nd D -> linked D -> NodeSpec.numbered W nd -> unshort W nd -> supported D ins outs ->
  exists text K, context_dumps false W [nd] = Ok text /\ forall fuel F k, (K <= fuel)%nat ->
    exists W' F' k' Dt, node_data fuel W nd F k = Ok (W', F', k', Dt) /\
      Forall2 (port_means W') (n_require nd) ins /\ Forall2 (port_means W') (n_provide nd) outs.
Proof.
  intros R L (NP & NR) US [SN SW SI SO RI RO II IO].
  destruct (text_ready W nd D R) as (text & TX & EN); auto.
  { intros p P. apply in_app_or in P as [P|P]; apply In_nth_error in P as (i & P).
    - destruct (Forall2_nth _ _ _ _ _ SO P) as (t & _ & T). eauto.
    - destruct (Forall2_nth _ _ _ _ _ SI P) as (t & _ & T). eauto. }
  destruct (ports_ready W nd D false R L _ _ ins (rp_require _ _ _ R)) as (K1 & R1); auto; [intros p P; apply in_or_app; auto|].
  destruct (ports_ready W nd D true R L _ _ outs (rp_provide _ _ _ R)) as (K2 & R2); auto; [intros p P; apply in_or_app; auto|].
  destruct (df_name D) as [name|] eqn:NM; [|contradiction]. pose proof (rp_name _ _ _ R) as NN. rewrite NM in NN.
  pose proof (rp_pdup _ _ _ R) as ND. apply NoDup_parts in ND as (ND1 & ND2 & DJ).
  exists text, (Nat.max K1 K2). split; [exact TX|]. intros fuel F k LE.
  destruct (ready_side fuel Unpack W nd K1 (n_require nd) ins name ltac:(lia) R1 RI ND2 NR NN) as (W1 & s1 & f1 & E1 & T1 & O1 & M1).
  assert (forall o, In o (n_provide nd) -> w_ports W1 o = w_ports W o) as OP by (intros o O; apply O1; intros X; eapply DJ; eauto).
  destruct (ready_side fuel Pack W1 nd K2 (n_provide nd) outs name ltac:(lia)) as (W2 & s2 & f2 & E2 & T2 & O2 & M2); auto.
  { eapply Forall2_imp; [|exact R2]. intros x y X _ Q. eapply ready_frame; [exact T1|apply OP; exact X|exact Q]. }
  { intros i o O. rewrite OP by (eapply nth_error_In; eauto). apply NP. exact O. }
  unfold node_data. rewrite TX. cbn [bind]. rewrite E1. cbn [bind]. rewrite E2. cbn [bind]. unfold create_definition. rewrite NN.
  unfold new_file, mk_zeros. pose proof (len_nonneg text). replace (len text <? 0) with false by lia. cbn [bind]. rewrite EN. cbn [bind write2 f_kind].
  match goal with |- context [output_write ?a ?b ?c] => destruct (output_write a b c) as [[fd r] ev] end. cbn [bind].
  destruct (new_file_id F k _) as [[Fa ka] ia]. destruct (new_file_id Fa ka f2) as [[Fb kb] ib].
  eexists W2, _, _, _. split; [reflexivity|]. split; [|exact M2].
  eapply Forall2_imp; [|exact M1]. intros x y X _ Q. unfold port_means in *. rewrite T2, (O2 x) by (intros Z; eapply DJ; eauto). exact Q.
Qed.

(** ** What was built had types *)

Lemma accepts_typed H types ts : Forall2 (type_is H types) types ts ->
  (forall n e t, accepts H n e t -> forall a, stands types e a -> typed ts a t) /\
  (forall n es ms, acc_members H n es ms -> forall l, stands_all types es l -> typeds ts l ms).
Proof.
  intros F. apply accepts_members_ind.
  - intros n nm c lo hi k K S1 a ST. inversion ST; subst. constructor; auto.
  - intros n nm c lo hi k m K S1 a ST. inversion ST; subst. constructor; auto.
  - intros n nm lo hi m a ST. inversion ST; subst. constructor.
  - intros n nm es ms _ IH a ST. inversion ST; subst. constructor. auto.
  - intros n nm o t TG _ IH a ST. inversion ST as [|? ? i O|]; subst. destruct (Forall2_nth _ _ _ _ _ F O) as (d & N & (_ & _ & S2)).
    econstructor; [exact N| |apply IH; exact S2]. inversion S2 as [? ? ? ? ? X1 X2|? ? ? ? X1 X2|? ? ? ? X1 X2]; rewrite <- X1 in TG; auto.
  - intros n l ST. inversion ST; subst. constructor.
  - intros n e es nm t ms NM B _ IH _ IHs l ST. inversion ST as [|? a ? l' S1 S2]; subst. econstructor; eauto. rewrite <- (stands_name _ _ _ S1). exact NM.
Qed.
Lemma resolved_leads H types ts : Forall2 (type_is H types) types ts -> forall k e a d, stands types e a -> resolve_loop k H e = Ok d ->
  exists b, leads ts a b /\ stands types d b.
Proof.
  intros F. assert (forall e a d, stands types e a -> ~ is_ref e -> e = d -> exists b, leads ts a b /\ stands types d b) as NR.
  { intros e a d ST N <-. exists a. split; [|exact ST]. constructor. rewrite <- (stands_ref _ _ _ ST). exact N. }
  induction k as [|k IH]; intros e a d ST E; cbn [resolve_loop] in E.
  - destruct (is_reference e) eqn:R; [discriminate|]. injection E as E. eapply NR; eauto. destruct e; [exact (fun x => x)|exact (fun x => x)|discriminate].
  - destruct e as [nm c lo hi n|nm es|nm [i|s|o]]; try discriminate E; try (injection E as E; eapply NR; eauto; exact (fun x => x)).
    inversion ST as [|? ? i O|]; subst. destruct (Forall2_nth _ _ _ _ _ F O) as (t & N & (_ & _ & S2)). destruct (IH _ _ _ S2 E) as (b & B & S3).
    exists b. split; [|exact S3]. econstructor; eauto.
Qed.
Lemma printed_names by_name H : forall e, as_parsed e -> forall s, elem_string by_name H e = Ok s -> by_names e.
Proof.
  induction e as [n c lo hi k|n es IH|n r] using delem_ind2; intros A s E.
  - constructor.
  - constructor. rewrite as_parsed_rec in A. rewrite elem_string_rec in E. inv_bind E. clear E s. revert a Ha. induction IH as [|x es X F IHes]; intros a E; constructor.
    + cbn [members_string] in E. inv_bind E. destruct A as (_ & A1 & A2). eapply X; eauto.
    + cbn [members_string] in E. inv_bind E. inv_bind E. destruct A as (_ & A1 & A2). eapply IHes; eauto.
  - cbn [elem_string] in E. destruct r as [i|m|o]; [discriminate|constructor|contradiction].
Qed.

Lemma add_all_each fuel d types : forall l W s W' s', NoDup l -> add_all fuel d types W s l = Ok (W', s') ->
  forall o, In o l -> exists e tg prog, resolve_sig (w_types W) types (pt_elem (w_ports W o)) = Ok (e, tg) /\ compileProg fuel d (w_types W) tg = Ok prog.
Proof.
  induction l as [|x l IH]; intros W s W' s' N E o O; [destruct O|]. cbn [add_all] in E. inv_bind E. destruct a as [W1 s1]. inversion N as [|? ? NI N']; subst.
  unfold add_to_side in Ha. inv_bind Ha. inv_bind Ha. destruct a0 as [e tg]. inv_bind Ha. inv_bind Ha. inv_bind Ha. inv_bind Ha. injection Ha as EW ES.
  destruct O as [<- |O]; [exists e, tg; eauto|].
  destruct (IH _ _ _ _ N' E o O) as (e' & tg' & prog & A & B). exists e', tg', prog. rewrite <- EW in A, B. cbn [set_port w_types w_ports] in A, B.
  rewrite upd_other in A by (intros ->; contradiction). auto.
Qed.
Lemma create_each fuel d W nd l W' s fo : NoDup l -> create_side fuel d W nd l = Ok (W', s, fo) ->
  forall o, In o l -> exists e tg prog, resolve_sig (w_types W) (n_types nd) (pt_elem (w_ports W o)) = Ok (e, tg) /\ compileProg fuel d (w_types W) tg = Ok prog.
Proof.
  intros N E o O. destruct l as [|x l]; [destruct O|]. unfold create_side in E. inv_bind E. destruct a as [W1 s1]. eapply add_all_each; eauto.
Qed.
Lemma map_res_each {A B} (f : A -> res B) l : forall ys, map_res f l = Ok ys -> forall x, In x l -> exists y, f x = Ok y.
Proof.
  induction l as [|x l IH]; intros ys E z Z; [destruct Z|]. cbn [map_res] in E. inv_bind E. inv_bind E. destruct Z as [<- |Z]; eauto.
Qed.

Lemma built_port W nd D pr o p fuel d e tg prog : represents W nd D -> linked D -> port_is W (n_types nd) pr o p -> In p (df_provide D ++ df_require D) ->
  (exists s, port_string false (w_types W) (w_ports W o) = Ok s) ->
  resolve_sig (w_types W) (n_types nd) (pt_elem (w_ports W o)) = Ok (e, tg) -> compileProg fuel d (w_types W) tg = Ok prog -> exists t, port_typed D p t.
Proof.
  intros R L (_ & _ & _ & PE) IP (s & PS) RS C. apply compileProg_iff in C as (t & A & _). exists t.
  pose proof (rp_types _ _ _ R) as F. destruct (ln_ports _ L p IP) as (_ & G & _). unfold resolve_sig in RS. inv_bind RS. inv_bind RS. injection RS as <- <-.
  inversion PE as [m r x ST E1 E2|e NR E1 E2]; subst.
  - rewrite <- E1 in Ha. inversion ST; subst. cbn [resolve_type] in Ha. injection Ha as <-.
    destruct (resolved_leads _ _ _ F _ _ _ _ ST Ha0) as (b & LD & S2). eapply py_ref; [|exact LD|eapply (proj1 (accepts_typed _ _ _ F)); eauto].
    match goal with X : DRef _ _ = pd_elem p |- _ => rewrite <- X end. exact I.
  - rewrite E2 in *. pose proof (G NR) as AP.
    assert (Forall2 (fun o nm => dt_name (w_types W o) = nm) (n_types nd) (type_names D)) as FN.
    { unfold type_names. clear - F. revert F. generalize (n_types nd) at 1 as tt. intros tt F. induction F as [|x y l m (X & _) F IH]; constructor; auto. }
    destruct (links _ _ _ FN _ AP _ Ha) as (b & RF & ST).
    assert (~ is_ref a) as NA by (rewrite (stands_ref _ _ _ ST), <- (refers_ref _ _ _ RF); exact NR).
    assert (a0 = a) as -> by (destruct a; [| |exfalso; apply NA; exact I]; injection Ha0 as <-; reflexivity).
    eapply py_own; [exact NR| |exact RF|eapply (proj1 (accepts_typed _ _ _ F)); eauto].
    unfold port_string in PS. inv_bind PS. rewrite E2 in *. eapply printed_names; eauto.
Qed.
Lemma node_built W nd D fuel F k r : represents W nd D -> linked D -> node_data fuel W nd F k = Ok r ->
  df_name D <> None /\ forall p, In p (df_provide D ++ df_require D) -> exists t, port_typed D p t.
Proof.
  intros R L E. unfold node_data in E. apply bind_ok in E as (text & Et & E). apply bind_ok in E as ([[W1 ins] fin] & E1 & E). apply bind_ok in E as ([[W2 outs] fout] & E2 & E).
  apply bind_ok in E as (fdef & Ed & _). split.
  { rewrite <- (rp_name _ _ _ R). intros X. unfold create_definition in Ed. rewrite X in Ed. discriminate. }
  unfold context_dumps in Et. apply bind_ok in Et as (ls & Et & _). cbn [map_res] in Et. inv_bind Et. clear Et. unfold lines in Ha. inv_bind Ha. inv_bind Ha. inv_bind Ha. clear Ha.
  pose proof (rp_pdup _ _ _ R) as ND. apply NoDup_parts in ND as (ND1 & ND2 & DJ). pose proof (create_side_inv _ _ _ _ _ _ _ _ E1) as (SM & _).
  intros p P. apply in_app_or in P as [P|P]; pose proof P as PI; apply In_nth_error in P as (i & P).
  - destruct (Forall2_nth_r _ _ _ _ _ (rp_provide _ _ _ R) P) as (o & O & IS). apply nth_error_In in O.
    destruct (create_each _ _ _ _ _ _ _ _ ND1 E2 o O) as (e & tg & prog & A & B). destruct SM as (SM1 & _ & _ & _ & SM2). rewrite SM1 in A, B. rewrite SM2 in A by (intros X; eapply DJ; eauto).
    eapply built_port; eauto; [apply in_or_app; auto|]. exact (map_res_each _ _ _ Ha1 o O).
  - destruct (Forall2_nth_r _ _ _ _ _ (rp_require _ _ _ R) P) as (o & O & IS). apply nth_error_In in O.
    destruct (create_each _ _ _ _ _ _ _ _ ND2 E1 o O) as (e & tg & prog & A & B).
    eapply built_port; eauto; [apply in_or_app; auto|]. exact (map_res_each _ _ _ Ha2 o O).
Qed.
