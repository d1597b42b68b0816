(** Properties: joining files in another order (C87). *)
From Coq Require Import ZifyBool ZifyNat Lia.
From Coq Require Import String Permutation Sorted.
From Verif Require Import Py PyLemmas TypesModel TextModel SigModel AttrModel NodeModel ParserModel FilesModel ToolsModel.
From Verif Require Import SigSpec NodeSpec ParserSpec MergeSpec FilesSpec ToolsSpec MergeOkSpec MergeOrderSpec SplitJoinSpec.
From Verif Require Import NodeProofs FinalizeProofs ExtendProofs FilesProofs FilesProofs2 MergeOkProofs MergeOrderProofs ToolsProofs ToolsProofs2 ToolsProofs3.
From Verif Require Import ParserProps NodeProps MergeOkProps MergeOrderProps ToolsProps SplitJoinProps.
Ltac Zify.zify_post_hook ::= Z.div_mod_to_equations.

(** ** Lists *)

Lemma sorted_same {A} (R : A -> A -> Prop) : (forall x y, R x y -> R y x -> x = y) -> forall l m, Permutation l m -> StronglySorted R l -> StronglySorted R m -> l = m.
Proof.
  intros AS. induction l as [|x l IH]; intros m P SL SM; [apply Permutation_nil in P; auto|]. destruct m as [|y m]; [apply Permutation_sym in P; apply Permutation_nil in P; discriminate|].
  inversion SL as [|? ? SL' FX]; subst. inversion SM as [|? ? SM' FY]; subst. rewrite Forall_forall in FX, FY. assert (x = y) as ->.
  { assert (In y (x :: l)) as [E|I] by (apply (Permutation_in _ (Permutation_sym P)); left; reflexivity); [exact E|].
    assert (In x (y :: m)) as [E|J] by (apply (Permutation_in _ P); left; reflexivity); [auto|]. apply AS; auto. }
  f_equal. apply IH; [eapply Permutation_cons_inv; exact P|exact SL'|exact SM'].
Qed.
Lemma same_by {A B} (f : A -> B) l : forall m, map f l = map f m -> NoDup (map f m) -> incl l m -> l = m.
Proof.
  induction l as [|x l IH]; intros [|y m] E ND I; try discriminate E; [reflexivity|]. cbn [map] in *. injection E as E E'. inversion ND as [|? ? NI ND']; subst.
  assert (x = y) as -> by (destruct (I x (or_introl eq_refl)) as [X|X]; [auto|exfalso; apply NI; rewrite <- E; apply in_map; exact X]).
  f_equal. apply IH; [exact E'|exact ND'|]. intros z Z. destruct (I z (or_intror Z)) as [<- |X]; [|exact X]. exfalso. apply NI. rewrite <- E'. apply in_map. exact Z.
Qed.
Lemma moved_same N : NoDup N -> forall a b, moved N N a b -> a = b.
Proof.
  intros ND. apply (moved_mind N N (fun a b _ => a = b) (fun l m _ => l = m)); auto.
  - intros n i j nm A B. do 3 f_equal. rewrite NoDup_nth_error in ND. apply ND; [apply nth_error_Some; congruence|congruence].
  - intros n l l' _ ->. reflexivity.
  - intros a a' l l' _ -> _ ->. reflexivity.
Qed.
Definition name_le (a b : option str) : Prop := match a, b with Some x, Some y => str_le x y | _, _ => False end.
Lemma name_le_antisym a b : name_le a b -> name_le b a -> a = b.
Proof. destruct a as [x|], b as [y|]; cbn; intros A B; try contradiction. f_equal. apply str_le_antisym; assumption. Qed.
Lemma sorted_names {A} (f : A -> option str) l : (forall x, In x l -> f x <> None) -> StronglySorted (fun x y => str_le (opt_text (f x)) (opt_text (f y))) l -> StronglySorted name_le (map f l).
Proof.
  intros G S. induction S as [|x l S IH F]; [constructor|]. cbn [map]. constructor; [apply IH; intros; apply G; right; assumption|].
  rewrite Forall_forall in *. intros n I. apply in_map_iff in I as (y & <- & I). specialize (F y I). destruct (f x) eqn:X; [|destruct (G x (or_introl eq_refl) X)].
  destruct (f y) eqn:Y; [|destruct (G y (or_intror I) Y)]. exact F.
Qed.
Lemma stable_names {A} (f : A -> option str) l ts m : stably_sorted f l ts -> map f m = map f ts -> (forall x, In x l -> f x <> None) -> StronglySorted name_le (map f m) /\ Permutation (map f l) (map f m).
Proof.
  intros (P & S & _) E G. rewrite E. split; [|apply Permutation_map; exact P]. apply sorted_names; [|exact S]. intros x I. apply G. exact (Permutation_in _ (Permutation_sym P) I).
Qed.
Lemma forall2_names {A} (f : A -> option str) (R : A -> A -> Prop) l m : (forall x y, R x y -> f y = f x) -> Forall2 R l m -> map f m = map f l.
Proof. intros H. induction 1 as [|x y l m X F IH]; [reflexivity|]. cbn [map]. rewrite (H x y X), IH. reflexivity. Qed.

(** ** The types of a join are those the ports need *)

Lemma agree_gathered Ds X D : gathers Ds X -> (forall D E, In D Ds -> In E Ds -> D = E \/ types_agree D E) -> In D Ds -> types_agree D X.
Proof.
  intros G AG I t u IT IU N. destruct (ga_type _ _ G u IU) as (E & v & IE & IV & M). pose proof (ga_from _ _ G E IE) as LE.
  assert (types_agree D E) as A by (destruct (AG D E I IE) as [<- |A]; [apply agree_self; apply (ga_from _ _ G D I)|exact A]).
  eapply same_type_trans; [apply (ln_names _ LE)|apply same_type_sym; exact M|]. apply A; auto. destruct M as (<- & _). exact N.
Qed.
Lemma moved_points N N' : forall a b, moved N N' a b -> forall i, points a i -> exists nm, nth_error N i = Some nm /\ In nm N'.
Proof.
  intros a b M i P. apply moved_sym in M. destruct (points_moved _ _ _ _ M i P) as (j & nm & _ & A & B). exists nm. split; [exact B|eapply nth_error_In; exact A].
Qed.
Lemma needed_name Ds Y D pr p i t : gathers Ds Y -> (forall D E, In D Ds -> In E Ds -> D = E \/ types_agree D E) -> In D Ds -> In p (ports pr D) ->
  needs D (pd_elem p) i -> nth_error (df_types D) i = Some t -> In (td_name t) (type_names Y).
Proof.
  intros G AG ID IP NE. revert t. pose proof (agree_gathered _ _ _ G AG ID) as AY. induction NE as [n i E|i u j NE IH U P]; intros t T.
  - destruct (ga_has _ _ G D pr p ID IP) as (q & _ & (_ & _ & M & _)). rewrite E in M. specialize (M Logic.I). destruct (moved_points _ _ _ _ M i (pn_ref _ _)) as (nm & A & B).
    unfold type_names in A. rewrite nth_error_map, T in A. injection A as <-. exact B.
  - specialize (IH u U). apply in_map_iff in IH as (v & NV & IV). destruct (AY u v (nth_error_In _ _ U) IV (eq_sym NV)) as (_ & _ & M).
    apply moved_sym in M. destruct (moved_points _ _ _ _ M j P) as (nm & A & B). unfold type_names in A. rewrite nth_error_map, T in A. injection A as <-. exact B.
Qed.
Lemma join_type_names Ds Es X Y : (forall E, In E Ds <-> In E Es) -> (forall D E, In D Ds -> In E Ds -> D = E \/ types_agree D E) -> join_of Ds X -> gathers Es Y -> linked X ->
  incl (type_names X) (type_names Y).
Proof.
  intros IFF AG JX GY LX nm I. apply in_map_iff in I as (t & <- & I). destruct (jn_types _ _ JX t I) as (D & pr & p & i & u & ID & IP & NE & U & (-> & _)).
  eapply needed_name; [exact GY| |apply IFF; exact ID|exact IP|exact NE|exact U]. intros A B IA IB. apply AG; apply IFF; assumption.
Qed.

(** ** Sorted joins are the same *)

Lemma sorted_def_names s X X' : sorted_def s X X' -> names_given X -> StronglySorted name_le (type_names X') /\ Permutation (type_names X) (type_names X').
Proof.
  intros SD (NG & _). destruct (sd_types _ _ _ SD) as (ts & S & F). apply (stable_names td_name _ ts); [exact S| |exact NG].
  eapply forall2_names; [|exact F]. cbn beta. intros x y (N & _). exact N.
Qed.
Lemma sorted_port_names X X' pr : sorted_def true X X' -> names_given X -> StronglySorted name_le (map pd_name (ports pr X')) /\ Permutation (map pd_name (ports pr X)) (map pd_name (ports pr X')).
Proof.
  intros SD (_ & NG). destruct pr; [destruct (sd_provide _ _ _ SD) as (ps & S & F)|destruct (sd_require _ _ _ SD) as (ps & S & F)].
  - apply (stable_names pd_name _ ps); [exact S| |intros x I; apply NG; apply in_or_app; auto]. eapply forall2_names; [|exact F]. intros x y (N & _). exact N.
  - apply (stable_names pd_name _ ps); [exact S| |intros x I; apply NG; apply in_or_app; auto]. eapply forall2_names; [|exact F]. intros x y (N & _). exact N.
Qed.
Lemma sorted_join_same Ds X Y X' Y' : (forall D E, In D Ds -> In E Ds -> D = E \/ types_agree D E) -> gathers Ds X -> gathers Ds Y ->
  incl (type_names X) (type_names Y) -> incl (type_names Y) (type_names X) -> NoDup (port_names X) -> NoDup (port_names Y) -> names_given X -> names_given Y ->
  linked X' -> linked Y' -> sorted_def true X X' -> sorted_def true Y Y' -> df_name X = df_name Y -> X' = Y'.
Proof.
  intros AG GX GY IX IY NX NY GNX GNY LX' LY' SX SY DN. pose proof (ga_linked _ _ GX) as LX. pose proof (ga_linked _ _ GY) as LY.
  assert (forall Z Z', gathers Ds Z -> linked Z -> linked Z' -> sorted_def true Z Z' -> gathers Ds Z') as GS.
  { intros Z Z' G L L' SD. pose proof (sorted_gathers _ _ _ L L' SD) as GZ. eapply (gathers_trans Ds [Z] Z Z); [intros q [<- |[]]; left; reflexivity|exact GZ|exact G|exact G|left; reflexivity|left; reflexivity|]. intros E. tauto. }
  pose proof (GS _ _ GX LX LX' SX) as GX'. pose proof (GS _ _ GY LY LY' SY) as GY'. clear GS.
  destruct (sorted_def_names _ _ _ SX GNX) as (S1 & P1). destruct (sorted_def_names _ _ _ SY GNY) as (S2 & P2).
  assert (type_names X' = type_names Y') as TN.
  { apply (sorted_same name_le name_le_antisym); [|exact S1|exact S2]. rewrite <- P1, <- P2. apply NoDup_Permutation; [apply (ln_names _ LX)|apply (ln_names _ LY)|]. intros n. split; [apply IX|apply IY]. }
  pose proof (ln_names _ LY') as NDN. destruct (gathers_alike _ _ _ GX' GY') as (A & _ & C). destruct (C AG) as (TA & _). clear C.
  assert (df_types X' = df_types Y') as TE.
  { apply (same_by td_name); [exact TN|exact NDN|]. intros t I. assert (In (td_name t) (type_names Y')) as J by (rewrite <- TN; apply in_map; exact I).
    apply in_map_iff in J as (u & N & J). destruct (TA t u I J (eq_sym N)) as (N' & AT & M). rewrite TN in M. apply moved_same in M; [|exact NDN].
    destruct t, u. cbn in *. subst. exact J. }
  assert (forall pr, ports pr X' = ports pr Y') as PE.
  { intros pr. destruct (sorted_port_names X X' pr SX GNX) as (T1 & Q1). destruct (sorted_port_names Y Y' pr SY GNY) as (T2 & Q2).
    assert (Permutation (map pd_name (ports pr X)) (map pd_name (ports pr Y))) as PN.
    { destruct (gathers_alike _ _ _ GX GY) as (B1 & B2 & _). apply ports_names; assumption. }
    apply (same_by pd_name).
    - apply (sorted_same name_le name_le_antisym); [|exact T1|exact T2]. rewrite <- Q1, <- Q2. exact PN.
    - apply (Permutation_NoDup Q2). unfold port_names in NY. rewrite map_app in NY. apply nodup_app_both in NY. destruct pr; apply NY.
    - intros p I. destruct (A pr p I) as (q & J & (N & AT & M1 & M2)). assert (pd_elem q = pd_elem p) as E.
      { destruct (is_reference (pd_elem p)) eqn:R; [apply is_ref_bool in R|apply is_ref_false in R; apply M2; exact R]. specialize (M1 R). rewrite TN in M1. apply moved_same in M1; [|exact NDN]. auto. }
      destruct p, q. cbn in *. subst. exact J. }
  pose proof (PE true) as PT. pose proof (PE false) as PF. cbn [ports] in PT, PF. pose proof (sd_name _ _ _ SX) as N1. pose proof (sd_name _ _ _ SY) as N2.
  destruct X', Y'. cbn in *. congruence.
Qed.

Lemma text_once normalized D t t' : text_for normalized D t -> text_for normalized D t' -> text_as t D -> t = t'.
Proof.
  intros TF TF' TA. destruct (read_as_sound _ _ _ empty_world (put_read_as (fun _ => None) [] t D TA)) as (W & nd & _ & (R & L & _ & U) & _).
  set (g := fun d i => with_tid d (Some i)). apply (text_for_fun normalized D t t' (number_types g W 0 (n_types nd)) nd); [|intros i o O|exact TF|exact TF'].
  - apply number_rep; [exact R|]. intros. repeat split.
  - destruct (number_types_spec g (n_types nd) W 0 (rp_tdup _ _ _ R)) as (_ & _ & _ & _ & G). rewrite (G i o O). cbn [g with_tid dt_id dt_short]. split; [reflexivity|].
    apply U. eapply nth_error_In; eauto.
Qed.
Lemma read_as_once d p D E : read_as d p D -> read_as d p E -> D = E.
Proof.
  intros A B. destruct (read_as_sound _ _ _ empty_world A) as (W & nd & EP & (R & _) & _). destruct (read_as_sound _ _ _ empty_world B) as (W' & nd' & EP' & (R' & _) & _).
  rewrite EP in EP'. injection EP' as <- <-. eapply represents_unique; eauto.
Qed.
Lemma reordered_files d inputs Ds : Forall2 (read_as d) inputs Ds -> forall inputs', incl inputs' inputs -> exists Es, Forall2 (read_as d) inputs' Es /\ incl Es Ds.
Proof.
  intros F. induction inputs' as [|p l IH]; intros I; [exists []; split; [constructor|intros x []]|]. destruct IH as (Es & FE & IE); [intros x X; apply I; right; exact X|].
  destruct (forall2_left _ _ _ F p (I p (or_introl eq_refl))) as (D & ID & R). exists (D :: Es). split; [constructor; assumption|]. intros x [<- |X]; auto.
Qed.
Lemma joined_parts Ds J : join_of Ds J -> Forall writable_def Ds -> Forall named_in_order Ds -> linked J -> gathers Ds J -> names_given J /\ named_in_order J.
Proof.
  intros JO WD NO LJ G. rewrite Forall_forall in WD, NO. split.
  - split.
    + intros u I. destruct (ga_type _ _ G u I) as (E & v & IE & IV & (-> & _)). apply (writable_names _ (WD E IE)). exact IV.
    + intros q I. assert (exists pr, In q (ports pr J)) as (pr & IQ) by (apply in_app_or in I as [I|I]; [exists true|exists false]; exact I).
      destruct (ga_port _ _ G pr q IQ) as (E & v & IE & IV & (-> & _)). apply (writable_names _ (WD E IE)). apply (MergeOrderProofs.in_ports pr). exact IV.
  - intros t k u IT P U. destruct (ga_type _ _ G t IT) as (E & t0 & IE & I0 & (N0 & _ & M0)). destruct (points_moved _ _ _ _ M0 k P) as (i & nm & P0 & A & B).
    unfold type_names in A, B. rewrite nth_error_map in A, B. rewrite U in B. cbn [option_map] in B. destruct (nth_error (df_types E) i) as [u0|] eqn:U0; [|discriminate]. cbn [option_map] in A.
    pose proof (NO E IE t0 i u0 I0 P0 U0) as LE. rewrite N0. replace (td_name u) with (td_name u0) by congruence. exact LE.
Qed.

(** The file that apx_join --sort writes depends on the set of files only: neither on
    their order nor on how often each is given. *)
Theorem join_any_order fuel fuel' inputs inputs' name normalize d Ds d1 d2 out out' :
  Forall2 (read_as d) inputs Ds -> Forall writable_def Ds -> Forall named_in_order Ds ->
  (forall D E, In D Ds -> In E Ds -> D = E \/ types_agree D E) -> (forall p, In p inputs <-> In p inputs') -> plain_name name -> ~ In 13 name ->
  apx_join fuel inputs name true normalize d = (d1, Printed out) -> apx_join fuel' inputs' name true normalize d = (d2, Printed out') ->
  d1 = d2 /\ out = out'.
Proof.
  intros F WD NO AG IFF PN CN E1 E2. destruct (reordered_files d inputs Ds F inputs') as (Es & FE & IE); [intros p I; apply IFF; exact I|].
  assert (incl Ds Es) as IE'.
  { intros D I. destruct (forall2_right _ _ _ F D I) as (p & IP & R). apply IFF in IP. destruct (forall2_left _ _ _ FE p IP) as (E & I' & R'). rewrite (read_as_once _ _ _ _ R R'). exact I'. }
  assert (Forall writable_def Es) as WE by (rewrite Forall_forall in *; auto). assert (Forall named_in_order Es) as NE by (rewrite Forall_forall in *; auto).
  assert (forall E, In E Ds <-> In E Es) as DE by (intros E; split; auto).
  assert (forall Z, In Z Ds -> linked Z) as LZ.
  { intros Z I. destruct (forall2_right _ _ _ F Z I) as (p & _ & R). destruct (read_as_sound _ _ _ empty_world R) as (_ & _ & _ & (_ & L & _) & _). exact L. }
  destruct (join_done fuel inputs name true normalize d Ds d1 out F WD PN CN E1) as (-> & _ & X & X' & JX & DX & (SX & LX) & RX).
  destruct (join_done fuel' inputs' name true normalize d Es d2 out' FE WE PN CN E2) as (-> & _ & Y & Y' & JY & DY & (SY & LY) & RY).
  assert (gathers Ds X) as GX by (apply join_gathers; [exact JX|exact LX|apply Forall_forall; exact LZ]).
  assert (gathers Es Y) as GY by (apply join_gathers; [exact JY|exact LY|apply Forall_forall; auto]).
  destruct (joined_parts _ _ JX WD NO LX GX) as (GNX & NX). destruct (joined_parts _ _ JY WE NE LY GY) as (GNY & NY).
  pose proof (named_ordered _ _ _ NX LX GNX SX) as OX. pose proof (named_ordered _ _ _ NY LY GNY SY) as OY.
  pose proof (linked_sorted _ _ _ LX SX OX) as LX'. pose proof (linked_sorted _ _ _ LY SY OY) as LY'.
  assert (X' = Y') as EQ.
  { eapply (sorted_join_same Ds X Y); eauto.
    - apply (gathers_incl Es); [exact GY|]. intros E. symmetry. apply DE.
    - exact (join_type_names Ds Es X Y DE AG JX GY LX).
    - apply (join_type_names Es Ds Y X); [intros E; symmetry; apply DE|intros D E I J; apply AG; apply DE; assumption|exact JY|exact GX|exact LY].
    - apply (jn_once _ _ JX).
    - apply (jn_once _ _ JY).
    - congruence. }
  subst Y'. destruct (RX OX) as (t & TF & TA & ->). destruct (RY OY) as (t' & TF' & _ & ->). rewrite (text_once _ _ _ _ TF TF' TA). auto.
Qed.
Print Assumptions join_any_order.

Local Open Scope string_scope.
Local Open Scope list_scope.
Definition join_two (sort : bool) (order : list String.string) (a b : list String.string) : option str * outcome :=
  let '(d, o) := apx_join 20 (map lit order) (lit "j") sort true (two_files "a" a "b" b) in (d (lit "j.apx"), o).
Definition ex_jo_a : list String.string := ["APX/1.2"; "N""a"""; "T""V_T""C"; "T""W_T""{""x""T[""V_T""]""y""S}"; "T""X_T""L"; "P""p""T[""W_T""]"; "R""s""C"].
Definition ex_jo_b : list String.string := ["APX/1.2"; "N""b"""; "T""U_T""S"; "T""V_T""C"; "P""q""T[""V_T""]"; "P""o""T[""U_T""]"; "R""s""C"].
(** The type [X_T] no port needs is left out. *)
Example ex_join_order : forall order, In order [["a"; "b"]; ["b"; "a"]; ["b"; "a"; "b"]] ->
  join_two true order ex_jo_a ex_jo_b =
    (Some (text_of ["APX/1.2"; "N""j"""; "T""U_T""S"; "T""V_T""C"; "T""W_T""{""x""T[1]""y""S}"; "P""o""T[""U_T""]"; "P""p""T[""W_T""]"; "P""q""T[""V_T""]"; "R""s""C"; ""; ""]), Printed []).
Proof. intros order [<- |[<- |[<- |[]]]]; vm_compute; reflexivity. Qed.
(** Without --sort the ports come in the order of the files. *)
Theorem join_unsorted_refuted : exists d d1 d2 D1 D2, apx_join 20 [lit "a"; lit "b"] (lit "j") false true d = (d1, Printed []) /\
  apx_join 20 [lit "b"; lit "a"] (lit "j") false true d = (d2, Printed []) /\ d1 (lit "j.apx") = Some D1 /\ d2 (lit "j.apx") = Some D2 /\ D1 <> D2.
Proof. exists (two_files "a" ex_jo_a "b" ex_jo_b). do 4 eexists. do 4 (split; [vm_compute; reflexivity|]). vm_compute. discriminate. Qed.
Print Assumptions join_unsorted_refuted.
(** Types of the same name that differ in what they refer to: the first one is kept. *)
Theorem join_any_order_refuted : exists d d1 d2 D1 D2, apx_join 20 [lit "a"; lit "b"] (lit "j") true true d = (d1, Printed []) /\
  apx_join 20 [lit "b"; lit "a"] (lit "j") true true d = (d2, Printed []) /\ d1 (lit "j.apx") = Some D1 /\ d2 (lit "j.apx") = Some D2 /\ D1 <> D2.
Proof.
  exists (two_files "a" ["APX/1.2"; "N""a"""; "T""U_T""C"; "T""V_T""{""x""T[""U_T""]}"; "P""p""T[""V_T""]"]
                    "b" ["APX/1.2"; "N""b"""; "T""U_T""S"; "T""V_T""{""x""T[""U_T""]}"; "P""q""T[""V_T""]"]). do 4 eexists.
  do 4 (split; [vm_compute; reflexivity|]). vm_compute. discriminate.
Qed.
Print Assumptions join_any_order_refuted.
