(** Lemmas about the tool that prints the sizes of definitions. *)
From Coq Require Import ZifyBool ZifyNat Lia.
From Verif Require Import Py PyLemmas TypesModel TextModel SigModel AttrModel NodeModel ParserModel CompilerModel VmModel NodeDataModel FilesModel ToolsModel.
From Verif Require Import TypesSpec SigSpec NodeSpec ParserSpec MergeSpec FilesSpec ToolsSpec TypesProofs CompilerProps NodeProofs NodeDataProofs NodeInitProofs NodeDataProps.
Ltac Zify.zify_post_hook ::= Z.div_mod_to_equations.

Lemma width_size c : width c = typeSize c.
Proof. destruct c; reflexivity. Qed.
Lemma tref_scheme : forall ts (P : nat -> delem -> Z -> Prop) (Q : nat -> list delem -> list Z -> Prop),
  (forall k nm c lo hi, P (S k) (DPrim nm c lo hi None) (width c)) ->
  (forall k nm c lo hi a, P (S k) (DPrim nm c lo hi (Some a)) (width c * a)) ->
  (forall k nm i t n, nth_error ts i = Some t -> takes ts k (td_elem t) n -> P k (td_elem t) n -> P (S k) (DRef nm (RInt (Z.of_nat i))) n) ->
  (forall k nm es ns, takes_all ts k es ns -> Q k es ns -> P (S k) (DRec nm es) (total ns)) ->
  (forall k, Q k [] []) ->
  (forall k e es n ns, takes ts k e n -> P k e n -> takes_all ts k es ns -> Q k es ns -> Q k (e :: es) (n :: ns)) ->
  (forall k e n, takes ts k e n -> P k e n) /\ (forall k es ns, takes_all ts k es ns -> Q k es ns).
Proof.
  intros ts P Q H1 H2 H3 H4 H5 H6.
  assert (A : forall k e n, takes ts k e n -> P k e n).
  { fix IH 4. intros k e n T. destruct T as [| |k nm i t n N T|k nm es ns T]; [apply H1|apply H2|eapply H3; eauto|].
    apply H4; [exact T|]. revert k es ns T. fix IH2 4. intros k es ns T. destruct T as [|k e es n ns T1 T2]; [apply H5|]. apply H6; auto. }
  split; [exact A|]. fix IH2 4. intros k es ns T. destruct T as [|k e es n ns T1 T2]; [apply H5|]. apply H6; auto.
Qed.

(** The sum that [calcElemSize] takes over the members of a record. *)
Lemma fold_err {A} (f : A -> res Z) x : forall l, fold_left (fun acc c => do a <- acc; do s <- f c; Ok (a + s)) l (Err x) = Err x.
Proof. induction l; cbn; auto. Qed.
Lemma fold_sum {A} (f : A -> res Z) : forall l z m,
  fold_left (fun acc c => do a <- acc; do s <- f c; Ok (a + s)) l (Ok z) = Ok m <->
  exists ns, Forall2 (fun x n => f x = Ok n) l ns /\ m = z + total ns.
Proof.
  induction l as [|x l IH]; intros z m; cbn [fold_left].
  - split; [intros E; injection E as <-; exists []; split; [constructor|cbn; lia]|].
    intros (ns & F & ->). inversion F. cbn. f_equal. lia.
  - cbn [bind]. destruct (f x) as [n|e] eqn:E; cbn [bind].
    + rewrite IH. split; intros (ns & F & ->).
      * exists (n :: ns). split; [constructor; auto|]. cbn. fold (total ns). lia.
      * inversion F as [|? n' ? ns' E' F']; subst. assert (n' = n) as -> by congruence. exists ns'. split; [auto|]. cbn. fold (total ns'). lia.
    + rewrite fold_err. split; [discriminate|]. intros (ns & F & _). inversion F. congruence.
Qed.

Definition sized (H : theap) (k : nat) (e : delem) (n : Z) : Prop := calcElemSize k H e = Ok n.
Lemma sized_more H k k' l ns : (k <= k')%nat -> Forall2 (sized H k) l ns -> Forall2 (sized H k') l ns.
Proof. intros L F. induction F; constructor; auto. eapply calcElemSize_more; eauto. Qed.

Definition totals (l : list (list Z)) : Z := fold_right (fun ns r => total ns + r) 0 l.
Lemma packLen_sum H fuel : forall turns i stack acc ns nss,
  Forall2 (sized H fuel) i ns -> Forall2 (Forall2 (sized H fuel)) stack nss ->
  (turns_for i stack <= turns)%nat ->
  packLen_loop turns fuel H i stack acc = Ok (acc + total ns + totals nss).
Proof.
  induction turns as [|k IH]; intros i stack acc ns nss Fi Fs L.
  - unfold turns_for in L. lia.
  - cbn [packLen_loop]. inversion Fi as [|e n i' ns' De Fi']; subst.
    + inversion Fs as [|i' ns' st' nss' Fi' Fs']; subst; [cbn; f_equal; lia|].
      rewrite (IH i' st' acc ns' nss') by (auto; unfold turns_for in *; cbn [sizes fold_right] in *; fold (sizes i') in *; lia).
      cbn [totals fold_right]. change (total []) with 0. f_equal. fold (totals nss'). lia.
    + assert (P := delem_size_pos e). unfold sized in De.
      assert (R : (turns_for i' stack <= k)%nat) by (unfold turns_for in *; cbn [sizes fold_right] in *; fold (sizes i') in *; lia).
      destruct e as [nm c lo hi a|nm es|nm r]; cbn [total fold_right]; fold (total ns').
      1, 3: rewrite De; cbn [bind]; rewrite (IH i' stack (acc + n) ns' nss) by auto; f_equal; lia.
      destruct fuel as [|f]; [discriminate|]. cbn [calcElemSize] in De. apply fold_sum in De as (ms & Fm & ->).
      rewrite (IH es (i' :: stack) acc ms (ns' :: nss)).
      * cbn [totals fold_right]. fold (totals nss). f_equal. lia.
      * apply (sized_more H f); [lia|exact Fm].
      * constructor; auto.
      * unfold turns_for in *. cbn [sizes fold_right] in *. rewrite delem_size_rec in L. fold (sizes i') in *. lia.
Qed.
Lemma packLen_sized H fuel e n : sized H fuel e n -> packLen fuel H e = Ok n.
Proof.
  intros S. unfold packLen. rewrite (packLen_sum H fuel _ [e] [] 0 [n] []); [cbn; f_equal; lia|repeat constructor; exact S|constructor|].
  unfold turns_for. cbn [sizes fold_right]. lia.
Qed.
(** and conversely, with room for the records *)
Lemma loop_sized H fuel : forall turns i stack acc m, packLen_loop turns fuel H i stack acc = Ok m ->
  exists ns nss, Forall2 (sized H (fuel + turns)) i ns /\ Forall2 (Forall2 (sized H (fuel + turns))) stack nss /\ m = acc + total ns + totals nss.
Proof.
  induction turns as [|k IH]; intros i stack acc m E; [discriminate|]. cbn [packLen_loop] in E.
  assert (M : forall l ns, Forall2 (sized H (fuel + k)) l ns -> Forall2 (sized H (fuel + S k)) l ns) by (intros; eapply sized_more; [|eauto]; lia).
  assert (MM : forall l nss, Forall2 (Forall2 (sized H (fuel + k))) l nss -> Forall2 (Forall2 (sized H (fuel + S k))) l nss)
    by (intros l nss F; induction F; constructor; auto).
  destruct i as [|e i].
  - destruct stack as [|i st]; [injection E as <-; exists [], []; repeat split; [constructor|constructor|cbn; lia]|].
    apply IH in E as (ns & nss & F & G & ->). exists [], (ns :: nss). split; [constructor|]. split; [constructor; auto|]. cbn. fold (totals nss). lia.
  - assert (C : forall s, calcElemSize fuel H e = Ok s -> packLen_loop k fuel H i stack (acc + s) = Ok m ->
      exists ns nss, Forall2 (sized H (fuel + S k)) (e :: i) ns /\ Forall2 (Forall2 (sized H (fuel + S k))) stack nss /\ m = acc + total ns + totals nss).
    { intros s S1 E1. apply IH in E1 as (ns & nss & F & G & ->). exists (s :: ns), nss. split; [|split; [auto|cbn; fold (total ns); lia]].
      constructor; [|auto]. eapply calcElemSize_more; [exact S1|lia]. }
    destruct e as [nm c lo hi a|nm es|nm r]; [apply bind_ok in E as (s & S1 & E); eauto| |apply bind_ok in E as (s & S1 & E); eauto].
    apply IH in E as (ms & nss & F & G & ->). inversion G as [|? ns ? nss' G1 G2]; subst.
    exists (total ms :: ns), nss'. split; [|split; [auto|cbn; fold (total ns) (totals nss'); lia]].
    constructor; [|auto]. unfold sized. replace (fuel + S k)%nat with (S (fuel + k)) by lia. cbn [calcElemSize].
    apply fold_sum. exists ms. split; [exact F|lia].
Qed.
Lemma sized_packLen H fuel e n : packLen fuel H e = Ok n -> exists k, sized H k e n.
Proof.
  unfold packLen. intros E. apply loop_sized in E as (ns & nss & F & G & ->). inversion G; subst. inversion F as [|? m ? ns' S F']; subst. inversion F'; subst.
  eexists. cbn [total totals fold_right]. replace (0 + (m + 0) + 0) with m by lia. exact S.
Qed.
Lemma sized_fun H k k' e n n' : sized H k e n -> sized H k' e n' -> n = n'.
Proof.
  unfold sized. intros A B. apply (calcElemSize_more H _ _ _) with (fuel' := Nat.max k k') in A; [|lia].
  apply (calcElemSize_more H _ _ _) with (fuel' := Nat.max k k') in B; [|lia]. congruence.
Qed.
Lemma packLen_fun H k k' e n n' : packLen k H e = Ok n -> packLen k' H e = Ok n' -> n = n'.
Proof. intros A B. apply sized_packLen in A as (j & A), B as (j' & B). eapply sized_fun; eauto. Qed.

(** ** Objects and declarations take the same number of bytes *)
Lemma takes_sized H types ts : Forall2 (type_is H types) types ts ->
  (forall k a n, takes ts k a n -> forall e, stands types e a -> sized H k e n) /\
  (forall k l ns, takes_all ts k l ns -> forall es, stands_all types es l -> Forall2 (sized H k) es ns).
Proof.
  intros TI. apply (tref_scheme ts (fun k a n => forall e, stands types e a -> sized H k e n) (fun k l ns => forall es, stands_all types es l -> Forall2 (sized H k) es ns)).
  - intros k nm c lo hi e S. inversion S; subst. unfold sized. cbn [calcElemSize]. do 2 f_equal; symmetry; apply width_size.
  - intros k nm c lo hi a e S. inversion S; subst. unfold sized. cbn [calcElemSize]. do 2 f_equal; symmetry; apply width_size.
  - intros k nm i t n N _ IH e S. inversion S as [|? o j O E1 E2|]; subst. assert (j = i) as -> by lia.
    destruct (Forall2_nth_r _ _ _ _ _ TI N) as (o' & O' & (_ & _ & ST)). assert (o' = o) as -> by congruence.
    unfold sized. cbn [calcElemSize]. apply IH. exact ST.
  - intros k nm l ns _ IH e S. inversion S as [| |? es ? SA]; subst. unfold sized. cbn [calcElemSize]. apply fold_sum. exists ns. split; [apply IH; exact SA|lia].
  - intros k es S. inversion S. constructor.
  - intros k a l n ns _ IH1 _ IH2 es S. inversion S; subst. constructor; auto.
Qed.
Lemma own_sized H :
  (forall k a n, takes [] k a n -> sized H k a n) /\ (forall k l ns, takes_all [] k l ns -> Forall2 (sized H k) l ns).
Proof.
  apply tref_scheme.
  - intros. unfold sized. cbn [calcElemSize]. do 2 f_equal; symmetry; apply width_size.
  - intros. unfold sized. cbn [calcElemSize]. do 2 f_equal; symmetry; apply width_size.
  - intros k nm i t n N. destruct i; discriminate.
  - intros k nm l ns _ IH. unfold sized. cbn [calcElemSize]. apply fold_sum. exists ns. split; [exact IH|lia].
  - constructor.
  - intros. constructor; auto.
Qed.

Lemma takes_of_sized H types ts : Forall2 (type_is H types) types ts ->
  forall k e n a, sized H k e n -> stands types e a -> takes ts k a n.
Proof.
  intros TI. induction k as [|k IH]; intros e n a Z S; [discriminate|]. unfold sized in Z. cbn [calcElemSize] in Z.
  inversion S as [nm c lo hi x|nm o i O|nm es l SA]; subst.
  - injection Z as <-. destruct x; rewrite <- (width_size c); constructor.
  - destruct (Forall2_nth _ _ _ _ _ TI O) as (t & T & (_ & _ & ST)). econstructor; [exact T|]. eapply IH; eauto.
  - apply fold_sum in Z as (ns & F & ->). rewrite Z.add_0_l. constructor. clear S. revert es SA F. revert l. induction ns as [|m ns IHn]; intros l es SA F; inversion F; subst; inversion SA; subst; constructor; [eapply IH; eauto|eapply IHn; eauto].
Qed.
Lemma own_of_sized H : forall k e n, sized H k e n -> as_parsed e -> takes [] k e n.
Proof.
  induction k as [|k IH]; intros e n Z P; [discriminate|]. unfold sized in Z. cbn [calcElemSize] in Z. destruct e as [nm c lo hi x|nm es|nm [i|s|o]]; try discriminate.
  - injection Z as <-. destruct x; rewrite <- (width_size c); constructor.
  - apply fold_sum in Z as (ns & F & ->). rewrite Z.add_0_l. constructor. cbn [as_parsed] in P. revert es F P. induction ns as [|m ns IHn]; intros es F P; inversion F; subst; constructor.
    + apply IH; [assumption|]. apply P.
    + apply IHn; [assumption|]. apply P.
  - destruct P.
Qed.

Lemma port_sized W nd D pr o p k n : represents W nd D -> port_is W (n_types nd) pr o p -> port_takes D k p n ->
  sized (w_types W) k (pt_elem (w_ports W o)) n.
Proof.
  intros R (_ & _ & _ & PS) [(I & T)|(I & T)].
  - inversion PS as [nm r a ST E1 E2|e NI E1 E2]; subst.
    + eapply (proj1 (takes_sized _ _ _ (rp_types _ _ _ R))); eauto.
    + rewrite E2 in NI. contradiction.
  - inversion PS as [nm r a ST E1 E2|e NI E1 E2]; subst.
    + exfalso. apply I. inversion ST; subst; exact Logic.I.
    + rewrite E2. apply (proj1 (own_sized _)). exact T.
Qed.
Lemma port_of_sized W nd D pr o p k n : represents W nd D -> linked D -> In p (ports pr D) -> port_is W (n_types nd) pr o p ->
  sized (w_types W) k (pt_elem (w_ports W o)) n -> port_takes D k p n.
Proof.
  intros R L I (_ & _ & _ & PS) Z. inversion PS as [nm r a ST E1 E2|e NI E1 E2]; subst.
  - left. split; [inversion ST; subst; exact Logic.I|]. rewrite <- E1 in Z. eapply takes_of_sized; [apply R|exact Z|exact ST].
  - right. rewrite <- E2. split; [exact NI|]. eapply own_of_sized; [exact Z|]. rewrite E2.
    destruct (ln_ports _ L p) as (_ & AP & _); [unfold ports in I; apply in_or_app; destruct pr; auto|]. apply AP. rewrite <- E2. exact NI.
Qed.

Lemma total_sized fuel W : forall l ns, Forall2 (fun o n => sized (w_types W) fuel (pt_elem (w_ports W o)) n) l ns -> total_len fuel (w_types W) W l = Ok (total ns).
Proof.
  intros l ns F. induction F as [|o n l ns S F IH]; [reflexivity|]. cbn [total_len]. rewrite (packLen_sized _ _ _ _ S). cbn [bind]. rewrite IH. reflexivity.
Qed.
Lemma total_of_sized fuel W : forall l m, total_len fuel (w_types W) W l = Ok m ->
  exists ns, Forall2 (fun o n => packLen fuel (w_types W) (pt_elem (w_ports W o)) = Ok n) l ns /\ m = total ns.
Proof.
  induction l as [|o l IH]; intros m E; cbn [total_len] in E; [injection E as <-; exists []; split; [constructor|reflexivity]|].
  apply bind_ok in E as (n & P & E). apply bind_ok in E as (x & T & E). injection E as <-. destruct (IH _ T) as (ns & F & ->). exists (n :: ns). split; [constructor; auto|reflexivity].
Qed.
Lemma ports_total W nd D pr l ps fuel m : represents W nd D -> linked D -> (forall p, In p ps -> In p (ports pr D)) -> Forall2 (port_is W (n_types nd) pr) l ps ->
  total_len fuel (w_types W) W l = Ok m -> exists ns, Forall2 (fun p n => exists k, port_takes D k p n) ps ns /\ m = total ns.
Proof.
  intros R L I F T. apply total_of_sized in T as (ns & G & ->). exists ns. split; [|reflexivity]. revert ns G. induction F as [|o p l ps PI F IH]; intros ns G; inversion G as [|? n ? ns' P G']; subst; constructor.
  - apply sized_packLen in P as (k & Z). exists k. eapply port_of_sized; eauto. apply I. left. reflexivity.
  - apply IH; [|exact G']. intros q Q. apply I. right. exact Q.
Qed.
Lemma ports_sized W nd D pr fuel : represents W nd D -> forall l ps ns, Forall2 (port_is W (n_types nd) pr) l ps -> Forall2 (port_takes D fuel) ps ns ->
  Forall2 (fun o n => sized (w_types W) fuel (pt_elem (w_ports W o)) n) l ns.
Proof.
  intros R l ps ns F. revert ns. induction F as [|o p l ps PI F IH]; intros ns G; inversion G; subst; constructor; [eapply port_sized; eauto|apply IH; auto].
Qed.

(** ** The data of the node *)
Lemma fixed_ref H types : forall turns fuel i st r n, packLen_loop turns fuel H i st r = Ok n ->
  Forall (fun e => resolve_type H types e = Ok e) i /\ Forall (Forall (fun e => resolve_type H types e = Ok e)) st.
Proof.
  induction turns as [|k IH]; intros fuel i st r n E; [discriminate|]. cbn [packLen_loop] in E. destruct i as [|e i].
  - destruct st as [|i st]; [split; constructor|]. destruct (IH _ _ _ _ _ E). split; constructor; auto.
  - destruct e as [nm c lo hi a|nm es|nm x].
    + apply bind_ok in E as (s & _ & E). destruct (IH _ _ _ _ _ E). split; [constructor; [reflexivity|auto]|auto].
    + destruct (IH _ _ _ _ _ E) as (F & G). inversion G; subst. split; [constructor; [|auto]|auto]. cbn [resolve_type].
      match goal with |- bind ?g _ = _ => assert (g = Ok es) as ->; [|reflexivity] end.
      clear - F. induction F as [|x l X F IHF]; [reflexivity|]. rewrite X. cbn [bind]. rewrite IHF. reflexivity.
    + apply bind_ok in E as (s & C & E). destruct (IH _ _ _ _ _ E). split; [constructor; [|auto]|auto].
      destruct fuel; [discriminate|]. destruct x; try discriminate. reflexivity.
Qed.
Lemma packLen_fixed H types fuel e n : packLen fuel H e = Ok n -> resolve_type H types e = Ok e.
Proof. intros E. apply (fixed_ref H types) in E as (F & _). inversion F; auto. Qed.

Lemma add_all_total fuel fuel' d types : forall l W s W' s' m, total_len fuel (w_types W) W l = Ok m -> add_all fuel' d types W s l = Ok (W', s') ->
  (forall o, w_ports W' o = w_ports W o) /\ w_types W' = w_types W /\ s_offset s' = s_offset s + m.
Proof.
  induction l as [|o l IH]; intros W s W' s' m T E; cbn [total_len add_all] in *; [injection T as <-; injection E as <- <-; repeat split; lia|].
  apply bind_ok in T as (n & P & T). apply bind_ok in T as (m' & T & X). injection X as <-.
  apply bind_ok in E as ([W1 s1] & E1 & E). unfold add_to_side in E1.
  apply bind_ok in E1 as (u & _ & E1). apply bind_ok in E1 as ([e target] & R & E1). unfold resolve_sig in R.
  rewrite (packLen_fixed _ (Some types) _ _ _ P) in R. cbn [bind] in R. apply bind_ok in R as (tg & _ & R). injection R as <- <-.
  apply bind_ok in E1 as (n' & P' & E1). apply bind_ok in E1 as (prog & _ & E1). apply bind_ok in E1 as (u' & _ & E1). apply bind_ok in E1 as (b & _ & E1).
  injection E1 as <- <-. rewrite with_pelem_elem in *. cbn [w_types set_port] in P'. pose proof (packLen_fun _ _ _ _ _ _ P P') as <-.
  set (W1 := set_port W o (w_ports W o)) in *.
  assert (SP : forall o', w_ports W1 o' = w_ports W o') by (intros o'; unfold W1; cbn [w_ports set_port]; destruct (Nat.eq_dec o' o) as [->|N]; [apply upd_same|apply upd_other; auto]).
  assert (TT : total_len fuel (w_types W1) W1 l = Ok m').
  { rewrite <- T. change (w_types W1) with (w_types W). clear - SP. induction l as [|x l IHl]; [reflexivity|]. cbn [total_len]. rewrite SP, IHl. reflexivity. }
  destruct (IH _ _ _ _ _ TT E) as (A & B & C). cbn [s_offset] in C. split; [intros o'; rewrite A; apply SP|]. split; [exact B|lia].
Qed.
Lemma create_side_total fuel fuel' d W nd l W' s f m : total_len fuel (w_types W) W l = Ok m -> create_side fuel' d W nd l = Ok (W', s, f) ->
  (forall o, w_ports W' o = w_ports W o) /\ w_types W' = w_types W /\ s_offset s = m.
Proof.
  intros T E. unfold create_side in E. destruct l as [|o l]; [cbn in T; injection T as <-; injection E as <- <- <-; repeat split; auto|].
  apply bind_ok in E as ([W1 s1] & A & E). destruct (add_all_total _ _ _ _ _ _ _ _ _ _ T A) as (X & Y & Z).
  destruct (negb _); [discriminate|]. destruct (0 <? s_offset s1).
  - destruct (n_name nd); [|discriminate]. apply bind_ok in E as (f0 & _ & E).
    assert (W' = W1 /\ s = s1) as (-> & ->) by (repeat match type of E with (do _ <- _; _) = Ok _ => apply bind_ok in E as (? & _ & E) end; destruct d; injection E; auto). auto.
  - injection E as <- <- <-. auto.
Qed.
Lemma data_lengths fuel W nd F k W' F' k' D : separate nd -> node_data fuel W nd F k = Ok (W', F', k', D) ->
  len (in_data F' D) = s_offset (d_inside D) /\ len (out_data F' D) = s_offset (d_outside D).
Proof.
  intros Sep E. apply node_data_inv in E as (S & (m1 & p1 & i1 & L1 & E1 & Q1 & F1) & (m2 & p2 & i2 & L2 & E2 & Q2 & F2) & _); [|exact Sep].
  unfold in_data, out_data. rewrite E1, E2. cbn [s_offset]. split.
  - destruct (d_in D); [|symmetry; exact F1]. destruct F1 as (_ & (_ & B & _) & _). cbn [content]. rewrite B. exact Q1.
  - destruct (d_out D); [|symmetry; exact F2]. destruct F2 as (_ & (_ & B & _) & _). cbn [content]. rewrite B. exact Q2.
Qed.
Lemma node_data_total fuel fuel' W nd F k W' F' k' D i o : separate nd -> total_len fuel (w_types W) W (n_require nd) = Ok i -> total_len fuel (w_types W) W (n_provide nd) = Ok o ->
  node_data fuel' W nd F k = Ok (W', F', k', D) -> len (in_data F' D) = i /\ len (out_data F' D) = o.
Proof.
  intros Sep TI TO E. destruct (data_lengths _ _ _ _ _ _ _ _ _ Sep E) as (-> & ->). unfold node_data in E.
  apply bind_ok in E as (text & _ & E). apply bind_ok in E as ([[W1 ins] fin] & E1 & E). apply bind_ok in E as ([[W2 outs] fout] & E2 & E). apply bind_ok in E as (fdef & _ & E).
  destruct (create_side_total _ _ _ _ _ _ _ _ _ _ TI E1) as (A & B & C).
  assert (TO' : total_len fuel (w_types W1) W1 (n_provide nd) = Ok o).
  { rewrite <- TO, B. clear - A. induction (n_provide nd) as [|x l IHl]; [reflexivity|]. cbn [total_len]. rewrite A, IHl. reflexivity. }
  destruct (create_side_total _ _ _ _ _ _ _ _ _ _ TO' E2) as (_ & _ & C2).
  match type of E with (let (_, _) := ?t in _) = _ => destruct t as [[F1 k1] i1] end. destruct (new_file_id F1 k1 fout) as [[F2 k2] o2]. injection E as <- <- <- <-. auto.
Qed.
