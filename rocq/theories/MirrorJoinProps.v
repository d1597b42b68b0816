(** Properties: joining mirrored files, and mirroring the joined file (C91). *)
From Coq Require Import ZifyBool ZifyNat Lia.
From Coq Require Import String Permutation.
From Verif Require Import Py PyLemmas TypesModel TextModel SigModel AttrModel NodeModel ParserModel FilesModel ToolsModel.
From Verif Require Import SigSpec NodeSpec ParserSpec MergeSpec FilesSpec ToolsSpec MergeOkSpec MergeOrderSpec SplitJoinSpec JoinOkSpec MirrorJoinSpec.
From Verif Require Import NodeProofs FinalizeProofs ExtendProofs MirrorProofs FilesProofs FilesProofs2 MergeOkProofs MergeOrderProofs ToolsProofs ToolsProofs2 ToolsProofs3.
From Verif Require Import ParserProps NodeProps MergeOkProps MergeOrderProps MirrorMergeProps ToolsProps SplitJoinProps JoinOrderProps JoinOkProps SplitOkProps.
Ltac Zify.zify_post_hook ::= Z.div_mod_to_equations.

(** ** Definitions with the same types and ports, in another order *)

(** [same_items D E]: each has the types and ports of the other. *)
Definition same_items (D E : ndef) : Prop := comes D E /\ comes E D.
Lemma same_items_sym D E : same_items D E -> same_items E D.
Proof. intros (A & B). split; assumption. Qed.
Lemma sorted_items s D E : linked D -> linked E -> sorted_def s D E -> same_items D E.
Proof.
  intros L L' SD. pose proof (sorted_gathers _ _ _ L L' SD) as G. split; split.
  - intros t I. destruct (ga_type _ _ G t I) as (X & u & [<- |[]] & IU & M). eauto.
  - intros pr q I. destruct (ga_port _ _ G pr q I) as (X & p & [<- |[]] & IP & M). eauto.
  - intros t I. destruct (sd_types _ _ _ SD) as (ts & (P & _) & F). destruct (forall2_left _ _ _ F t (Permutation_in _ P I)) as (u & IU & M). exists u. split; [exact IU|].
    apply same_type_sym. exact M.
  - intros pr p I. destruct (ga_has _ _ G D pr p (or_introl eq_refl) I) as (q & IQ & M). exists q. split; [exact IQ|]. apply moved_port_sym. exact M.
Qed.
Lemma comes_mirrored n m D E : comes D E -> comes (mirrored n D) (mirrored m E).
Proof.
  intros (A & B). split; [exact A|]. intros pr q I. rewrite ports_mirrored in I. destruct (B _ q I) as (p & IP & M). exists p. rewrite ports_mirrored. split; [exact IP|exact M].
Qed.
Lemma items_mirrored n m D E : same_items D E -> same_items (mirrored n D) (mirrored m E).
Proof. intros (A & B). split; apply comes_mirrored; assumption. Qed.
Lemma comes_type_names D E : comes D E -> incl (type_names E) (type_names D).
Proof. intros (A & _) nm I. apply in_map_iff in I as (t & <- & I). destruct (A t I) as (u & IU & (-> & _)). apply in_map. exact IU. Qed.
Lemma comes_port_names D E : comes D E -> incl (port_names E) (port_names D).
Proof.
  intros (_ & A) nm I. unfold port_names in I. apply in_map_iff in I as (q & <- & I). assert (exists pr, In q (ports pr E)) as (pr & IQ) by (apply in_app_or in I as [?|?]; [exists true|exists false]; assumption).
  destruct (A pr q IQ) as (p & IP & (-> & _)). eapply port_name_in; eauto.
Qed.
Lemma items_gathers Ds Es X : Forall2 same_items Ds Es -> Forall linked Ds -> gathers Es X -> gathers Ds X.
Proof.
  intros F L G. rewrite Forall_forall in L. constructor.
  - apply G.
  - exact L.
  - intros D pr p I IP. destruct (forall2_left _ _ _ F D I) as (E & IE & (_ & (_ & B))). destruct (B pr p IP) as (q & IQ & M).
    destruct (ga_has _ _ G E pr q IE IQ) as (r & IR & M'). exists r. split; [exact IR|].
    eapply moved_port_trans; [apply (ln_names _ (ga_from _ _ G E IE))|apply moved_port_sym; exact M|exact M'].
  - intros pr q I. destruct (ga_port _ _ G pr q I) as (E & p & IE & IP & M). destruct (forall2_right _ _ _ F E IE) as (D & ID & ((_ & B) & _)). destruct (B pr p IP) as (r & IR & M').
    exists D, r. split; [exact ID|]. split; [exact IR|]. eapply moved_port_trans; [apply (ln_names _ (ga_from _ _ G E IE))|exact M'|exact M].
  - intros t I. destruct (ga_type _ _ G t I) as (E & u & IE & IU & M). destruct (forall2_right _ _ _ F E IE) as (D & ID & ((A & _) & _)). destruct (A u IU) as (v & IV & M').
    exists D, v. split; [exact ID|]. split; [exact IV|]. eapply same_type_trans; [apply (ln_names _ (ga_from _ _ G E IE))|exact M'|exact M].
Qed.
Lemma gathers_all_mirrored n m Ds X : gathers Ds X -> gathers (map (mirrored n) Ds) (mirrored m X).
Proof.
  intros G. constructor.
  - apply linked_mirrored. apply G.
  - intros E I. apply in_map_iff in I as (D & <- & I). apply linked_mirrored. apply (ga_from _ _ G D I).
  - intros E pr p I IP. apply in_map_iff in I as (D & <- & I). rewrite ports_mirrored in IP |- *. destruct (ga_has _ _ G D _ p I IP) as (q & IQ & M). exists q. auto.
  - intros pr q I. rewrite ports_mirrored in I. destruct (ga_port _ _ G _ q I) as (D & p & ID & IP & M). exists (mirrored n D), p. split; [apply in_map; exact ID|]. rewrite ports_mirrored. auto.
  - intros t I. destruct (ga_type _ _ G t I) as (D & u & ID & IU & M). exists (mirrored n D), u. split; [apply in_map; exact ID|]. auto.
Qed.
Lemma items_compatible D1 D2 P Q : linked D1 -> linked D2 -> linked P -> linked Q -> same_items D1 P -> same_items D2 Q -> compatible D1 D2 -> compatible P Q.
Proof.
  intros L1 L2 LP LQ (CP & CP') (CQ & _) CB. pose proof CP as (PT & PP). pose proof CQ as (QT & QP). constructor.
  - intros t t2 I I2 N. destruct (PT t I) as (u & IU & M). destruct (QT t2 I2) as (u2 & IU2 & M2).
    assert (same_type D2 D1 u2 u) as S by (apply (cm_types _ _ CB); [exact IU|exact IU2|]; destruct M as (<- & _), M2 as (<- & _); exact N).
    apply (same_type_trans Q D2 P t2 u2 t (ln_names _ L2) (same_type_sym _ _ _ _ M2)). exact (same_type_trans D2 D1 P u2 u t (ln_names _ L1) S M).
  - intros pr pr' p q I IQ N. destruct (QP pr p I) as (u & IU & M). destruct (PP pr' q IQ) as (v & IV & M').
    destruct (cm_ports _ _ CB pr pr' u v IU IV) as (-> & S); [destruct M as (<- & _), M' as (<- & _); exact N|]. split; [reflexivity|].
    apply (moved_port_trans Q D2 P p u q (ln_names _ L2) (moved_port_sym _ _ _ _ M)). exact (moved_port_trans D2 D1 P u v q (ln_names _ L1) S M').
  - intros pr pr' p p' I I' N. destruct (QP pr p I) as (u & IU & M). destruct (QP pr' p' I') as (v & IV & M').
    destruct (cm_once _ _ CB pr pr' u v IU IV) as (-> & ->); [destruct M as (<- & _), M' as (<- & _); exact N|]. split; [reflexivity|].
    exact (moved_port_fun D2 Q u p' p (ln_names _ LQ) M' M).
  - intros pr p m j t2 I E T. destruct (QP pr p I) as (u & IU & M). pose proof M as (_ & _ & MR & MN).
    assert (is_ref (pd_elem u)) as R.
    { destruct (is_reference (pd_elem u)) eqn:R; [apply is_ref_bool; exact R|apply is_ref_false in R]. rewrite (MN R) in E. exfalso. apply R. rewrite E. exact Logic.I. }
    specialize (MR R). rewrite E in MR. inversion MR as [|? i1 j1 nm A B X Y|]; subst. assert (j1 = j) as -> by lia.
    unfold type_names in A, B. rewrite nth_error_map in A, B. rewrite T in B. destruct (nth_error (df_types D2) i1) as [v|] eqn:V; [|discriminate]. cbn [option_map] in A, B.
    assert (td_name t2 = td_name v) as NW by congruence.
    destruct (cm_taken _ _ CB pr u m i1 v IU (eq_sym X) V) as [IN|MV]; [left; rewrite NW; exact (comes_type_names _ _ CP' _ IN)|right].
    apply (movable_moved D2 Q L2 LQ CQ i1 j v t2 MV V T).
    destruct (QT t2 (nth_error_In _ _ T)) as (v' & IV' & ST). assert (v' = v) as <-; [|exact ST].
    apply (names_nodup td_name (df_types D2)); [apply (ln_names _ L2)|exact IV'|eapply nth_error_In; eauto|]. destruct ST as (<- & _). congruence.
  - intros t2 I. destruct (QT t2 I) as (u & IU & (-> & _)). destruct (cm_names _ _ CB u IU) as [X|(X & Y)]; [left; exact (comes_type_names _ _ CP' _ X)|right].
    split; intros Z; [apply X; exact (comes_port_names _ _ CP _ Z)|apply Y; exact (comes_port_names _ _ CQ _ Z)].
Qed.
Lemma linked_blank : linked (mk_ndef None [] [] []).
Proof. constructor; cbn; try (intros; contradiction); [constructor|]. intros [|i] t X; discriminate X. Qed.
Lemma items_joinable Ds Es : Forall2 same_items Ds Es -> Forall linked Ds -> Forall linked Es -> joinable Ds -> joinable Es.
Proof.
  intros F LD LE [JA JP]. rewrite Forall_forall in LD, LE. split.
  - intros E I. destruct (forall2_right _ _ _ F E I) as (D & ID & S). apply (items_compatible (mk_ndef None [] [] []) D); auto using linked_blank. split; apply comes_blank.
  - intros E E2 I I2. destruct (forall2_right _ _ _ F E I) as (D & ID & S). destruct (forall2_right _ _ _ F E2 I2) as (D2 & ID2 & S2). apply (items_compatible D D2); auto.
Qed.
Lemma mirrored_joinable n Ds : joinable Ds -> joinable (map (mirrored n) Ds).
Proof.
  intros [JA JP]. split.
  - intros E I. apply in_map_iff in I as (D & <- & I). pose proof (compatible_mirrored None n _ _ (JA D I)) as C. exact C.
  - intros E E2 I I2. apply in_map_iff in I as (D & <- & I). apply in_map_iff in I2 as (D2 & <- & I2). apply compatible_mirrored. auto.
Qed.

(** ** The tools *)

Lemma read_linked d p D : read_as d p D -> linked D.
Proof. intros R. destruct (read_as_sound _ _ _ empty_world R) as (_ & _ & _ & (_ & L & _) & _). exact L. Qed.
Lemma sorting d p D : read_as d p D -> writable_def D -> named_in_order D -> exists D', sorted_def true D D' /\ ordered D' /\ linked D'.
Proof.
  intros RA WD NO. destruct (read_as_sound _ _ _ empty_world RA) as (W & nd & _ & (R & LD & _) & _ & NF & _).
  destruct (finalize_ok true false W nd D R LD NF (writable_names _ WD)) as (W1 & nd1 & EF). destruct (finalize_rep _ _ _ _ _ _ R LD NF EF) as (D' & SD & _).
  pose proof (named_ordered _ _ _ NO LD (writable_names _ WD) SD) as OD. exists D'. split; [exact SD|]. split; [exact OD|]. exact (linked_sorted _ _ _ LD SD OD).
Qed.
Lemma mirror_file_reads d d' p p' D : read_as d p D -> writable_def D -> named_in_order D -> mirror_file d d' p p' ->
  exists E, read_as d' p' E /\ same_items (mirrored None D) E /\ writable_def E /\ named_in_order E /\ length (df_types E) = length (df_types D).
Proof.
  intros RA WD NO (n & normalize & x & x' & NM & XP & EM & XP'). destruct (sorting _ _ _ RA WD NO) as (D' & SD & OD & LD'). pose proof (read_linked _ _ _ RA) as LD.
  pose proof (mirrored_is_read (mk_args [p] (Some p') false n normalize) [] x D D' p') as MR. cbn [a_pipe a_name] in MR. destruct MR as (x2 & E2 & R2 & _); [|left; reflexivity|exact WD|exact SD|exact OD|exact NM|].
  { exists p, []. split; [reflexivity|]. apply (read_as_ext d); [exact XP|exact RA]. }
  rewrite EM in E2. injection E2 as <-. pose proof (sorted_items _ _ _ LD LD' SD) as SI. exists (mirrored n D'). split; [apply (read_as_ext x'); [exact XP'|exact R2]|]. split; [apply items_mirrored; exact SI|]. split.
  - apply writable_mirrored; [exact (writable_sorted _ _ _ SD WD)|]. intros s X. apply (NM s X).
  - split; [exact (named_part D D' NO (proj1 (proj1 SI)))|]. cbn [mirrored df_types]. destruct (sd_types _ _ _ SD) as (ts & (P & _) & F).
    rewrite <- (Forall2_len _ _ _ F). symmetry. apply Permutation_length. exact P.
Qed.
Lemma mirror_files_read d d' inputs inputs' Ds : Forall2 (read_as d) inputs Ds -> Forall writable_def Ds -> Forall named_in_order Ds -> Forall2 (mirror_file d d') inputs inputs' ->
  exists Es, Forall2 (read_as d') inputs' Es /\ Forall2 same_items (map (mirrored None) Ds) Es /\ Forall writable_def Es /\ Forall named_in_order Es /\
    forall E, In E Es -> exists D, In D Ds /\ length (df_types E) = length (df_types D).
Proof.
  intros F. revert inputs'. induction F as [|p D inputs Ds R F IH]; intros inputs' WD NO MF; inversion MF as [|? p' ? l' M MF']; subst.
  - exists []. cbn [map]. repeat (split; [constructor|]). intros E [].
  - inversion WD as [|? ? W WD']; subst. inversion NO as [|? ? N NO']; subst. destruct (IH l' WD' NO' MF') as (Es & A & B & C & G & H).
    destruct (mirror_file_reads _ _ _ _ _ R W N M) as (E & A1 & B1 & C1 & G1 & H1). exists (E :: Es). cbn [map]. repeat (split; [constructor; assumption|]).
    intros X [<- |I]; [exists D; split; [left; reflexivity|exact H1]|]. destruct (H X I) as (Y & IY & EY). exists Y. split; [right; exact IY|exact EY].
Qed.
Lemma needs_mirrored n D e i : needs D e i -> needs (mirrored n D) e i.
Proof. induction 1 as [m i E|i u j NE IH U P]; [eapply ne_here; eauto|]. eapply ne_next; eauto. Qed.
Lemma gathered_writable n Ds X : gathers Ds X -> df_name X = Some n -> plain_name n -> Forall writable_def Ds -> writable_def X.
Proof.
  intros G N PN WD. rewrite Forall_forall in WD. apply writable_parts. split; [exists n; auto|]. split.
  - intros t I. destruct (ga_type _ _ G t I) as (D & u & ID & IU & M). eapply fine_same_type; [exact M|]. specialize (WD D ID). apply writable_parts in WD as (_ & (A & _)). auto.
  - intros q I. assert (exists pr, In q (ports pr X)) as (pr & IQ) by (apply in_app_or in I as [?|?]; [exists true|exists false]; assumption).
    destruct (ga_port _ _ G pr q IQ) as (D & p & ID & IP & M). eapply fine_moved_port; [exact M|]. specialize (WD D ID). apply writable_parts in WD as (_ & (_ & B)). apply B.
    apply (MergeOrderProofs.in_ports pr). exact IP.
Qed.
Lemma forall2_flip {A B} (R : A -> B -> Prop) (S : B -> A -> Prop) l m : (forall x y, R x y -> S y x) -> Forall2 R l m -> Forall2 S m l.
Proof. intros H. induction 1; constructor; auto. Qed.

(** Files that can be joined: the mirror of the joined file is the file joined from the
    mirrored files. *)
Theorem mirror_of_join fuel fuel' inputs inputs' name compact normalize d d' Ds out : Forall2 (read_as d) inputs Ds -> Forall writable_def Ds -> Forall named_in_order Ds ->
  joinable Ds -> (forall D, In D Ds -> (length (df_types D) <= fuel)%nat /\ (length (df_types D) <= fuel')%nat) -> plain_name name -> ~ In 13 name ->
  Forall2 (mirror_file d d') inputs inputs' ->
  exists d1 d2 d3, apx_join fuel inputs name true compact d = (d1, Printed []) /\
    apx_mirror (mk_args [name ++ lit ".apx"] (Some out) false None normalize) [] d1 = (d2, Printed []) /\
    apx_join fuel' inputs' name true normalize d' = (d3, Printed []) /\
    d2 out = d3 (name ++ lit ".apx") /\ d2 out <> None.
Proof.
  intros F WD NO JB FU PN NC MF. destruct (mirror_files_read _ _ _ _ _ F WD NO MF) as (Es & FE & SI & WE & NE & LN).
  assert (Forall linked Ds) as LD by (apply Forall_forall; intros D I; destruct (forall2_right _ _ _ F D I) as (p & _ & R); exact (read_linked _ _ _ R)).
  assert (Forall linked Es) as LE by (apply Forall_forall; intros D I; destruct (forall2_right _ _ _ FE D I) as (p & _ & R); exact (read_linked _ _ _ R)).
  set (Ms := map (mirrored None) Ds) in *. assert (Forall linked Ms) as LM by (apply Forall_forall; intros M I; apply in_map_iff in I as (D & <- & I); apply linked_mirrored; rewrite Forall_forall in LD; auto).
  assert (joinable Ms) as JM by (apply mirrored_joinable; exact JB). assert (joinable Es) as JE by (apply (items_joinable Ms); assumption).
  destruct (join_succeeds fuel inputs name true compact d Ds F WD NO JB (fun D I => proj1 (FU D I)) PN NC) as (d1 & _ & _ & E1 & _).
  destruct (join_succeeds fuel' inputs' name true normalize d' Es FE WE NE JE) as (d3 & _ & _ & E3 & _); [|exact PN|exact NC|].
  { intros E I. destruct (LN E I) as (D & ID & ->). apply (FU D ID). }
  destruct (join_done _ _ _ _ _ _ _ _ _ F WD PN NC E1) as (_ & _ & X & X' & JX & DX & (SX & LX) & RX).
  destruct (join_done _ _ _ _ _ _ _ _ _ FE WE PN NC E3) as (_ & _ & Y & Y' & JY & DY & (SY & LY) & RY).
  pose proof (join_gathers _ _ JX LX LD) as GX. pose proof (join_gathers _ _ JY LY LE) as GY.
  destruct (joined_parts _ _ JX WD NO LX GX) as (GNX & NX). destruct (joined_parts _ _ JY WE NE LY GY) as (GNY & NY).
  pose proof (named_ordered _ _ _ NX LX GNX SX) as OX. pose proof (named_ordered _ _ _ NY LY GNY SY) as OY.
  pose proof (linked_sorted _ _ _ LX SX OX) as LX'. pose proof (linked_sorted _ _ _ LY SY OY) as LY'.
  pose proof (gathers_all_mirrored None None _ _ GX) as GMX. fold Ms in GMX. pose proof (items_gathers _ _ _ SI LM GY) as GMY.
  assert (gathers Es (mirrored None X)) as GEX by (apply (items_gathers Es Ms); [eapply forall2_flip; [|exact SI]; apply same_items_sym|exact LE|exact GMX]).
  assert (forall A B, In A Ms -> In B Ms -> A = B \/ types_agree A B) as AM by (intros A B I J; right; exact (cm_types _ _ (jb_pairs _ JM A B I J))).
  assert (forall A B, In A Es -> In B Es -> A = B \/ types_agree A B) as AE by (intros A B I J; right; exact (cm_types _ _ (jb_pairs _ JE A B I J))).
  assert (mirrored None X' = Y') as EQ.
  { apply (sorted_join_same Ms (mirrored None X) Y); try assumption.
    - intros nm I. change (type_names (mirrored None X)) with (type_names X) in I. apply in_map_iff in I as (t & <- & I). destruct (jn_types _ _ JX t I) as (D & pr & p & i & u & ID & IP & NE' & U & (-> & _)).
      apply (needed_name Ms Y (mirrored None D) (negb pr) p i u GMY AM); [apply in_map; exact ID|rewrite ports_mirrored, Bool.negb_involutive; exact IP|apply needs_mirrored; exact NE'|exact U].
    - intros nm I. apply in_map_iff in I as (t & <- & I). destruct (jn_types _ _ JY t I) as (E & pr & p & i & u & IE & IP & NE' & U & (-> & _)).
      exact (needed_name Es (mirrored None X) E pr p i u GEX AE IE IP NE' U).
    - apply (Permutation_NoDup (l := port_names X)); [|apply (jn_once _ _ JX)]. unfold port_names. apply Permutation_map. cbn [mirrored df_provide df_require]. apply Permutation_app_comm.
    - apply (jn_once _ _ JY).
    - destruct GNX as (A & B). split; [exact A|]. intros q I. apply B. cbn [mirrored df_provide df_require] in I. apply in_app_or in I. apply in_or_app. tauto.
    - apply linked_mirrored. exact LX'.
    - apply sorted_mirrored. exact SX.
    - cbn [mirrored df_name]. congruence. }
  destruct (RX OX) as (t & _ & TA & ED1). destruct (RY OY) as (t' & TF' & TA' & ->).
  assert (sorted_def true X' X') as SX' by (eapply sorted_again; eauto).
  destruct (mirror_done (mk_args [name ++ lit ".apx"] (Some out) false None normalize) [] d1 X' X' out) as (t2 & _ & _ & TF2 & TA2 & _ & _ & E2); [|reflexivity| |exact SX'|exact OX|discriminate|].
  - exists (name ++ lit ".apx"), []. split; [reflexivity|]. rewrite ED1. apply put_read_as. exact TA.
  - eapply writable_sorted; [exact SX|]. apply (gathered_writable name Ds X); assumption.
  - cbn [a_pipe a_name a_normalize] in *. rewrite EQ in TF2. rewrite (text_once _ _ _ _ TF' TF2 TA') in *. exists d1, (put_file d1 out t2), (put_file d' (name ++ lit ".apx") t2).
    split; [exact E1|]. split; [exact E2|]. split; [exact E3|]. rewrite !put_same. split; [reflexivity|discriminate].
Qed.
Print Assumptions mirror_of_join.

(** The two files of [join_two] (JoinOrderProps), joined and mirrored in the two orders. *)
Definition mirror_to (p out : str) (n : option str) (d : disk) : disk * outcome := apx_mirror (mk_args [p] (Some out) false n false) [] d.
Definition join_mirror (sort : bool) (a b : list String.string) : option str * option str :=
  let d := two_files "a" a "b" b in
  let joined := fst (apx_join 20 [lit "a"; lit "b"] (lit "j") sort true d) in
  let inverse := fst (mirror_to (lit "b") (lit "mb") (Some (lit "other")) (fst (mirror_to (lit "a") (lit "ma") None d))) in
  (fst (mirror_to (lit "j.apx") (lit "out") None joined) (lit "out"), fst (apx_join 20 [lit "ma"; lit "mb"] (lit "j") sort false inverse) (lit "j.apx")).
Example ex_join_mirror :
  let t := text_of ["APX/1.2"; "N""j"""; "T""U_T""S"; "T""V_T""C"; "T""W_T""{""x""T[1]""y""S}"; "P""s""C"; "R""o""T[0]"; "R""p""T[2]"; "R""q""T[1]"; ""; ""]%string in
  join_mirror true ex_jo_a ex_jo_b = (Some t, Some t).
Proof. vm_compute. reflexivity. Qed.
Lemma mirror_file_made n d p p' x' : (forall s, n = Some s -> plain_name s /\ ~ In 13 s) -> mirror_to p p' n d = (x', Printed []) -> forall d', d' p' = x' p' -> mirror_file d d' p p'.
Proof. intros NM E d' X. exists n, false, d, x'. auto. Qed.
(** Its files are mirrored files in the sense of the theorem. *)
Example ex_mirror_files : let d := two_files "a" ex_jo_a "b" ex_jo_b in
  let d' := fst (mirror_to (lit "b") (lit "mb") None (fst (mirror_to (lit "a") (lit "ma") None d))) in
  Forall2 (mirror_file d d') [lit "a"; lit "b"] [lit "ma"; lit "mb"].
Proof.
  cbv zeta. constructor; [|constructor; [|constructor]].
  - eapply (mirror_file_made None); [discriminate|vm_compute; reflexivity|vm_compute; reflexivity].
  - eapply (mirror_file_made None); [discriminate|vm_compute; reflexivity|vm_compute; reflexivity].
Qed.
(** Without --sort the ports of the joined mirrors are in the order of the files. *)
Theorem mirror_of_unsorted_join_refuted : exists x y, join_mirror false ex_jo_a ex_jo_b = (Some x, Some y) /\ x <> y.
Proof. do 2 eexists. split; [vm_compute; reflexivity|]. vm_compute. discriminate. Qed.
Print Assumptions mirror_of_unsorted_join_refuted.
