(** Properties: which files can be joined (C88). *)
From Coq Require Import ZifyBool ZifyNat Lia.
From Coq Require Import String.
From Verif Require Import Py PyLemmas TypesModel TextModel SigModel AttrModel NodeModel ParserModel FilesModel ToolsModel.
From Verif Require Import SigSpec NodeSpec ParserSpec MergeSpec FilesSpec ToolsSpec MergeOkSpec MergeOrderSpec SplitJoinSpec JoinOkSpec.
From Verif Require Import NodeProofs FinalizeProofs ExtendProofs FilesProofs FilesProofs2 MergeOkProofs MergeOrderProofs ToolsProofs ToolsProofs2 ToolsProofs3.
From Verif Require Import ParserProps NodeProps MergeOkProps MergeOrderProps ToolsProps SplitJoinProps JoinOrderProps.
Ltac Zify.zify_post_hook ::= Z.div_mod_to_equations.

(** What is compatible with two definitions is compatible with the two merged. *)
Lemma compatible_merged D D2 D' E : NoDup (type_names D2) -> compatible D D2 -> compatible D E -> compatible D2 E -> merged D D2 D' -> compatible D' E.
Proof.
  intros ND CM C1 C2 M. destruct (mg_types _ _ _ M) as (ts & TE & TS). destruct (mg_ports _ _ _ M) as (new & PE & _ & NEW).
  assert (type_names D' = type_names D ++ map td_name ts) as TN by (unfold type_names; rewrite TE; apply map_app).
  split.
  - intros t t2 I I2 N. rewrite TE in I. apply in_app_or in I as [I|I].
    + destruct (cm_types _ _ C1 t t2 I I2 N) as (A & B & C). split; [exact A|]. split; [exact B|]. rewrite TN. apply moved_more. exact C.
    + destruct (TS t I) as (_ & _ & i & u & _ & _ & _ & NU & ST). apply nth_error_In in NU as IU.
      apply (same_type_trans E D2 D' t2 u t ND); [|exact ST]. apply (cm_types _ _ C2); [exact IU|exact I2|]. destruct ST as (<- & _). exact N.
  - intros pr pr' p q I IQ N. rewrite PE in IQ. apply in_app_or in IQ as [IQ|IQ].
    + destruct (cm_ports _ _ C1 pr pr' p q I IQ N) as (A & B & C & X & Y). split; [exact A|]. split; [exact B|]. split; [exact C|]. split; [|exact Y].
      intros IR. rewrite TN. apply moved_more. auto.
    + destruct (NEW pr' q IQ) as (_ & p' & IP' & MP & _). destruct (cm_ports _ _ C2 pr pr' p p' I IP') as [A B]; [destruct MP as (<- & _); exact N|].
      split; [exact A|]. exact (moved_port_trans E D2 D' p p' q ND B MP).
  - exact (cm_once _ _ C1).
  - intros pr p n j t2 I X T. rewrite TN. destruct (cm_taken _ _ C1 pr p n j t2 I X T) as [Y|Y]; [left; apply in_or_app; auto|auto].
  - intros t2 I. rewrite TN. destruct (cm_names _ _ C1 t2 I) as [X|[X Y]]; [left; apply in_or_app; auto|].
    assert (In (td_name t2) (type_names D) \/ ~ In (td_name t2) (port_names D2)) as [Z|Z]; [|left; apply in_or_app; auto|].
    { destruct (cm_names _ _ C2 t2 I) as [Z|[Z _]]; [|auto]. apply in_map_iff in Z as (u & <- & IU). destruct (cm_names _ _ CM u IU) as [Z|[_ Z]]; auto. }
    right. split; [|exact Y]. intros K. unfold port_names in K. apply in_map_iff in K as (q & QN & IQ).
    assert (exists pr, In q (ports pr D')) as (pr & IQ') by (apply in_app_or in IQ as [?|?]; [exists true|exists false]; assumption).
    rewrite PE in IQ'. apply in_app_or in IQ' as [IQ'|IQ'].
    + apply X. rewrite <- QN. unfold port_names. apply in_map. destruct pr; apply in_or_app; auto.
    + destruct (NEW pr q IQ') as (_ & p & IP & (N & _) & _). apply Z. rewrite <- QN, N. unfold port_names. apply in_map. destruct pr; apply in_or_app; auto.
Qed.
Lemma extend_all_ok fuel l : forall Ds W nd D, inv W nd D -> Forall2 (src W) l Ds -> (forall E, In E Ds -> compatible D E) ->
  (forall E F, In E Ds -> In F Ds -> compatible E F) -> (forall E, In E Ds -> (length (df_types E) <= fuel)%nat) ->
  exists W' nd', extend_all fuel W nd l = Ok (W', nd').
Proof.
  induction l as [|x l IH]; intros Ds W nd D IN F CD CP FU; cbn [extend_all]; [eauto|]. inversion F as [|? D2 ? Ds' SR F']; subst.
  destruct (add_ports_from_ok fuel x D2 (FU _ (or_introl eq_refl)) (n_require x ++ n_provide x) W nd D IN SR (CD _ (or_introl eq_refl))) as (W1 & nd1 & E).
  { intros o O. rewrite in_app_iff in *. tauto. }
  unfold extend at 1. rewrite E. cbn [bind]. destruct (extend_rep fuel W nd D x D2 W1 nd1 IN SR E) as (D1 & M & IN1 & WL & _).
  apply (IH Ds' W1 nd1 D1 IN1).
  - eapply Forall2_imp; [|exact F']. intros; eapply src_wle; eauto.
  - intros E' I. apply (compatible_merged D D2 D1 E'); [destruct SR as (_ & L2 & _); apply (ln_names _ L2)|apply CD; left; reflexivity|apply CD; right; exact I|apply CP; [left; reflexivity|right; exact I]|exact M].
  - intros A B IA IB. apply CP; right; assumption.
  - intros A IA. apply FU. right. exact IA.
Qed.

(** Files that agree are joined: the tool succeeds, and what it writes is read as the
    joined definition. *)
Theorem join_succeeds fuel inputs name sort normalize d Ds : Forall2 (read_as d) inputs Ds -> Forall writable_def Ds -> Forall named_in_order Ds ->
  joinable Ds -> (forall D, In D Ds -> (length (df_types D) <= fuel)%nat) -> plain_name name -> ~ In 13 name ->
  exists d' D D', apx_join fuel inputs name sort normalize d = (d', Printed []) /\ (forall p, p <> name ++ lit ".apx" -> d' p = d p) /\
    join_of Ds D /\ df_name D = Some name /\ sorted_def sort D D' /\ read_as d' (name ++ lit ".apx") D'.
Proof.
  intros F WD NO [JA JP] FU PN NC.
  assert (exists d', apx_join fuel inputs name sort normalize d = (d', Printed [])) as (d' & E).
  { unfold apx_join. destruct (parse_files_rep _ _ _ F WD None empty_world) as (W & l & EP & _ & FS & FC). rewrite EP. cbn [bind].
    destruct (new_inv W name) as (IN & NI & (_ & _ & NF)). destruct (extend_all_ok fuel l Ds W _ _ IN FS) as (W1 & nd1 & EE); [|exact JP|exact FU|].
    { intros D I. destruct (JA D I). split; auto. }
    rewrite EE. cbn [bind]. destruct (extend_all_rep _ _ _ _ _ _ _ _ IN NI NF FS EE) as (D & C & IN1 & NI1 & NF1). pose proof (inv_untagged _ _ _ IN1 NI1) as U. pose proof IN1 as (R1 & L1 & _).
    assert (Forall linked Ds) as LD.
    { clear -FS. induction FS as [|x D l Ds (_ & L & _) FS IH]; constructor; assumption. }
    pose proof (chain_join _ _ _ C) as JO. pose proof (join_gathers _ _ JO L1 LD) as G. destruct (joined_parts _ _ JO WD NO L1 G) as (GN & NX).
    destruct (finalize_ok sort false W1 nd1 D R1 L1 NF1 GN) as (W2 & nd2 & EF). rewrite EF.
    destruct (finalize_rep sort W1 nd1 D W2 nd2 R1 L1 NF1 EF) as (D' & SD & _). destruct (finalized_tagged _ _ _ _ _ _ _ R1 L1 NF1 U SD EF) as (R2 & T2 & F2).
    pose proof (named_ordered _ _ _ NX L1 GN SD) as OD.
    pose proof (chain_writable _ _ _ C PN WD) as WR. pose proof (chain_crless _ _ _ C NC FC) as CR. pose proof (proj2 (chain_ext _ _ _ C)) as DN. cbn [df_name] in DN.
    destruct (save_final normalize None d W2 nd2 D' (name ++ lit ".apx") R2 (linked_sorted _ _ _ L1 SD OD) T2 F2 (writable_sorted _ _ _ SD WR) (crless_sorted _ _ _ SD CR)) as (ls & SL & TA & SE & _).
    { exists name. split; [rewrite (sd_name _ _ _ SD); exact DN|reflexivity]. }
    rewrite SE. eexists. reflexivity. }
  destruct (join_done _ _ _ _ _ _ _ _ _ F WD PN NC E) as (_ & B & D & D' & JO & N & (SD & L) & X). exists d', D, D'. split; [exact E|]. split; [exact B|]. split; [exact JO|]. split; [exact N|]. split; [exact SD|].
  assert (Forall linked Ds) as LD.
  { clear -F. induction F as [|p D l Ds R F IH]; constructor; [|exact IH]. destruct (read_as_sound _ _ _ empty_world R) as (_ & _ & _ & (_ & L & _) & _). exact L. }
  pose proof (join_gathers _ _ JO L LD) as G. destruct (joined_parts _ _ JO WD NO L G) as (GN & NX). pose proof (named_ordered _ _ _ NX L GN SD) as OD.
  destruct (X OD) as (t & _ & TA & ->). apply put_read_as. exact TA.
Qed.
Print Assumptions join_succeeds.

(** They can be joined in every order and as often as one likes; with --sort the file is
    always the same. *)
Theorem join_every_order fuel inputs name normalize d Ds : Forall2 (read_as d) inputs Ds -> Forall writable_def Ds -> Forall named_in_order Ds ->
  joinable Ds -> (forall D, In D Ds -> (length (df_types D) <= fuel)%nat) -> plain_name name -> ~ In 13 name ->
  exists d', forall inputs', (forall p, In p inputs <-> In p inputs') -> apx_join fuel inputs' name true normalize d = (d', Printed []).
Proof.
  intros F WD NO JB FU PN NC. destruct (join_succeeds fuel inputs name true normalize d Ds F WD NO JB FU PN NC) as (d' & _ & _ & E & _). exists d'.
  intros inputs' IFF. destruct (reordered_files d inputs Ds F inputs') as (Es & FE & IE); [intros p I; apply IFF; exact I|].
  destruct (join_succeeds fuel inputs' name true normalize d Es FE) as (d2 & _ & _ & E2 & _); [|  | | |exact PN|exact NC|].
  - rewrite Forall_forall in *. auto.
  - rewrite Forall_forall in *. auto.
  - destruct JB as [JA JP]. split; auto.
  - auto.
  - destruct (join_any_order fuel fuel inputs inputs' name normalize d Ds d' d2 [] [] F WD NO) as (-> & _); auto.
    intros D D2 I J. right. exact (cm_types _ _ (jb_pairs _ JB D D2 I J)).
Qed.
Print Assumptions join_every_order.

(** Two definitions that can be joined. *)
Definition ex_ja : ndef := mk_ndef (Some (lit "a"))
  [mk_tdef (Some (lit "a_t")) (DPrim None CU8 None None None) None; mk_tdef (Some (lit "r_t")) (DRec None [DRef (Some (lit "x")) (RInt 0)]) None]
  [mk_pdef (Some (lit "p")) (DRef None (RInt 1)) None] [mk_pdef (Some (lit "s")) (DRef None (RInt 0)) None].
Definition ex_jb : ndef := mk_ndef (Some (lit "b"))
  [mk_tdef (Some (lit "U_t")) (DPrim None CU16 None None None) None; mk_tdef (Some (lit "a_t")) (DPrim None CU8 None None None) None]
  [mk_pdef (Some (lit "q")) (DRef None (RInt 0)) None] [mk_pdef (Some (lit "s")) (DRef None (RInt 1)) None].
Ltac each := repeat match goal with X : _ \/ _ |- _ => destruct X as [<- |X] | X : False |- _ => destruct X end.
Ltac moves := repeat constructor; try (intros X; exfalso; apply X; exact I);
  try (intros _); match goal with
  | |- moved ?N ?M (DRef ?n (RInt 0)) (DRef _ (RInt 0)) => exact (mv_ref N M n 0%nat 0%nat _ eq_refl eq_refl)
  | |- moved ?N ?M (DRef ?n (RInt 0)) (DRef _ (RInt 1)) => exact (mv_ref N M n 0%nat 1%nat _ eq_refl eq_refl)
  | |- moved ?N ?M (DRef ?n (RInt 1)) (DRef _ (RInt 0)) => exact (mv_ref N M n 1%nat 0%nat _ eq_refl eq_refl)
  | |- moved ?N ?M (DRef ?n (RInt 1)) (DRef _ (RInt 1)) => exact (mv_ref N M n 1%nat 1%nat _ eq_refl eq_refl)
  end.
Lemma ex_movable D : In D [ex_ja; ex_jb] -> forall j t, nth_error (df_types D) j = Some t -> movable D j.
Proof.
  intros [<- |[<- |[]]] [|[|[|j]]] t E; try discriminate E.
  - eapply mo_prim; reflexivity.
  - eapply mo_rec; [reflexivity|reflexivity|]. constructor; [|constructor]. apply (me_ref ex_ja (Some (lit "x")) 0%nat). eapply mo_prim; reflexivity.
  - eapply mo_prim; reflexivity.
  - eapply mo_prim; reflexivity.
Qed.
Lemma ex_compat D E : In D [mk_ndef None [] [] []; ex_ja; ex_jb] -> In E [ex_ja; ex_jb] -> compatible D E.
Proof.
  intros ID IE. constructor.
  - intros t t2 I I2 N. destruct ID as [<- |[<- |[<- |[]]]], IE as [<- |[<- |[]]]; cbn in I, I2; each; try discriminate N; (split; [reflexivity|]; split; [reflexivity|]); cbn [td_elem]; moves.
  - intros pr pr' p q IP IQ N. destruct ID as [<- |[<- |[<- |[]]]], IE as [<- |[<- |[]]], pr, pr'; cbn in IP, IQ; each; try discriminate N; (split; [reflexivity|]); (split; [reflexivity|]); (split; [reflexivity|]); cbn [pd_elem]; split; moves.
  - intros pr pr' p p' IP IP' N. destruct IE as [<- |[<- |[]]], pr, pr'; cbn in IP, IP'; each; try discriminate N; auto.
  - intros pr p n j t2 _ _ T. right. eapply ex_movable; eauto.
  - intros t2 I. destruct ID as [<- |[<- |[<- |[]]]], IE as [<- |[<- |[]]]; cbn in I; each; right; cbn; intuition discriminate.
Qed.
Example ex_joinable : joinable [ex_ja; ex_jb] /\ Forall named_in_order [ex_ja; ex_jb].
Proof.
  split; [split|].
  - intros D I. apply ex_compat; [left; reflexivity|exact I].
  - intros D E I J. apply ex_compat; [right; exact I|exact J].
  - apply Forall_cons; [|apply Forall_cons; [|constructor]]; intros t i u I P U; cbn in I; each; try solve [inversion P].
    assert (i = 0%nat) as -> by (inversion P as [|n es e k IN Q]; subst; destruct IN as [<- |[]]; inversion Q; lia). injection U as <-. cbn. apply sle_less. lia.
Qed.
Example ex_join_ab : forall sort, let d := two_files "a" ["APX/1.2"; "N""a"""; "T""a_t""C"; "T""r_t""{""x""T[0]}"; "P""p""T[1]"; "R""s""T[0]"]%string
                                                 "b" ["APX/1.2"; "N""b"""; "T""U_t""S"; "T""a_t""C"; "P""q""T[0]"; "R""s""T[1]"]%string in
  (fst (apx_join 2 [lit "a"; lit "b"] (lit "j") sort true d) (lit "j.apx"), snd (apx_join 2 [lit "a"; lit "b"] (lit "j") sort true d)) =
    (Some (text_of ["APX/1.2"; "N""j"""; "T""U_t""S"; "T""a_t""C"; "T""r_t""{""x""T[1]}"; "P""p""T[""r_t""]"; "P""q""T[""U_t""]"; "R""s""T[""a_t""]"; ""; ""]%string), Printed []).
Proof. intros [|]; vm_compute; reflexivity. Qed.

(** Whether files can be joined may depend on their order: a type with the name of a port
    that is there already cannot be taken over, but the port can be added to the type. *)
Theorem join_order_fails_refuted : exists d d1, apx_join 20 [lit "a"; lit "b"] (lit "j") true true d = (d, Failed ValueError) /\
  apx_join 20 [lit "b"; lit "a"] (lit "j") true true d = (d1, Printed []).
Proof.
  exists (two_files "a" ["APX/1.2"; "N""a"""; "P""X""C"]%string "b" ["APX/1.2"; "N""b"""; "T""X""S"; "P""q""T[""X""]"]%string). eexists. split; vm_compute; reflexivity.
Qed.
Print Assumptions join_order_fails_refuted.
(** Files that do not agree are refused and nothing is written: the same port in both
    directions, with another type or another init value, or a type declared differently. *)
Definition refused_join (a b : list String.string) : Prop :=
  let d := two_files "a" a "b" b in exists e, apx_join 20 [lit "a"; lit "b"] (lit "j") true true d = (d, Failed e).
Theorem join_disagreement_refuted :
  refused_join ["APX/1.2"; "N""a"""; "P""p""C"]%string ["APX/1.2"; "N""b"""; "R""p""C"]%string /\
  refused_join ["APX/1.2"; "N""a"""; "P""p""C"]%string ["APX/1.2"; "N""b"""; "P""p""S"]%string /\
  refused_join ["APX/1.2"; "N""a"""; "P""p""C:=1"]%string ["APX/1.2"; "N""b"""; "P""p""C:=2"]%string /\
  refused_join ["APX/1.2"; "N""a"""; "T""t""C"; "P""p""T[0]"]%string ["APX/1.2"; "N""b"""; "T""t""S"; "P""q""T[0]"]%string.
Proof. repeat split; eexists; vm_compute; reflexivity. Qed.
Print Assumptions join_disagreement_refuted.
