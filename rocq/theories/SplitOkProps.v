(** Properties: when a definition can be split, and that it can be joined again (C89). *)
From Coq Require Import ZifyBool ZifyNat Lia.
From Coq Require Import String Permutation.
From Verif Require Import Py PyLemmas TypesModel TextModel SigModel AttrModel NodeModel ParserModel FilesModel ToolsModel.
From Verif Require Import SigSpec NodeSpec ParserSpec MergeSpec FilesSpec ToolsSpec MergeOkSpec MergeOrderSpec SplitJoinSpec JoinOkSpec.
From Verif Require Import NodeProofs FinalizeProofs ExtendProofs MirrorProofs FilesProofs FilesProofs2 MergeOkProofs MergeOrderProofs ToolsProofs ToolsProofs2 ToolsProofs3.
From Verif Require Import ParserProps NodeProps MergeOkProps MergeOrderProps ToolsProps SplitJoinProps JoinOrderProps JoinOkProps.
Ltac Zify.zify_post_hook ::= Z.div_mod_to_equations.

(** ** The parts of a definition agree *)

(** [comes D P]: the types and ports of [P] are from [D]. *)
Definition comes (D P : ndef) : Prop :=
  (forall t, In t (df_types P) -> exists u, In u (df_types D) /\ same_type D P u t) /\
  (forall pr q, In q (ports pr P) -> exists p, In p (ports pr D) /\ moved_port D P p q).
Lemma comes_blank n D : comes D (mk_ndef n [] [] []).
Proof. split; [intros t []|]. intros [|] q []. Qed.
Lemma comes_part D pick P : (forall pr p, In p (pick pr) -> In p (ports pr D)) -> part_of D pick P -> comes D P.
Proof.
  intros PK PO. split; [intros t I; eapply part_type; eauto|]. intros pr q I. destruct (forall2_right _ _ _ (pf_ports _ _ _ PO pr) q I) as (p & IP & M). eauto.
Qed.
Lemma comes_sorted s D P Q : linked P -> linked Q -> comes D P -> sorted_def s P Q -> comes D Q.
Proof.
  intros LP LQ (CT & CP) SD. pose proof (sorted_gathers _ _ _ LP LQ SD) as G. split.
  - intros t I. destruct (ga_type _ _ G t I) as (E & u & [<- |[]] & IU & M). destruct (CT u IU) as (v & IV & M'). exists v. split; [exact IV|].
    exact (same_type_trans D P Q v u t (ln_names _ LP) M' M).
  - intros pr q I. destruct (ga_port _ _ G pr q I) as (E & u & [<- |[]] & IU & M). destruct (CP pr u IU) as (v & IV & M'). exists v. split; [exact IV|].
    exact (moved_port_trans D P Q v u q (ln_names _ LP) M' M).
Qed.
Lemma refless_moved N N' : forall a b, moved N N' a b -> refless a -> refless b.
Proof.
  fix F 3. intros a b [n c lo hi k|n i j nm A B|n es es' X] R; [constructor|inversion R|]. constructor. inversion R as [|? ? RL]; subst. clear R. revert RL.
  induction X as [|x y es es' M X IH]; intros RL; [constructor|]. inversion RL; subst. constructor; [eapply F; eauto|auto].
Qed.
Lemma movable_moved D P : linked D -> linked P -> comes D P -> forall i j u t, movable D i -> nth_error (df_types D) i = Some u -> nth_error (df_types P) j = Some t ->
  same_type D P u t -> movable P j.
Proof.
  intros LD LP (CT & _). induction i as [i IH] using lt_wf_ind. intros j u t MV U T (_ & _ & M).
  inversion MV as [i0 u0 n c lo hi k U0 E|i0 u0 n es U0 E ME]; subst i0; rewrite U in U0; injection U0 as <-; rewrite E in M; inversion M as [| |? ? es' MS]; subst.
  - eapply mo_prim; eauto.
  - eapply mo_rec; [exact T|eauto|]. pose proof (ln_below _ LD i u U) as BL. rewrite E in BL. inversion BL as [| |? ? BS]; subst. clear -LD LP CT IH BS ME MS.
    revert BS ME. induction MS as [|x y es es' MX MS IHM]; intros BS ME; [constructor|]. inversion BS as [|? ? BX BS']; subst. inversion ME as [|? ? MEX ME']; subst. constructor; [|apply IHM; assumption].
    inversion MEX as [? RL|n1 k MK]; subst; [apply me_plain; eapply refless_moved; eauto|].
    inversion MX as [|? i1 j1 nm A B|]; subst. assert (i1 = k) as -> by lia. apply me_ref.
    unfold type_names in A, B. rewrite nth_error_map in A, B. destruct (nth_error (df_types D) k) as [v|] eqn:V; [|discriminate]. destruct (nth_error (df_types P) j1) as [w|] eqn:Wq; [|discriminate].
    cbn [option_map] in A, B. assert (td_name w = td_name v) as NW by congruence.
    apply (IH k) with (u := v) (t := w); [inversion BX; lia|exact MK|exact V|exact Wq|].
    destruct (CT w (nth_error_In _ _ Wq)) as (v' & IV' & ST). assert (v' = v) as <-; [|exact ST].
    apply (names_nodup td_name (df_types D)); [apply (ln_names _ LD)|exact IV'|eapply nth_error_In; eauto|]. destruct ST as (<- & _). congruence.
Qed.
Lemma port_name_in pr D p : In p (ports pr D) -> In (pd_name p) (port_names D).
Proof. intros I. unfold port_names. apply in_map. destruct pr; apply in_or_app; auto. Qed.
Lemma same_port D pr pr' p p' : NoDup (port_names D) -> In p (ports pr D) -> In p' (ports pr' D) -> pd_name p' = pd_name p -> pr' = pr /\ p' = p.
Proof.
  intros ND I I' N. unfold port_names in ND. rewrite map_app in ND. pose proof ND as ND'. apply nodup_app_both in ND' as (N1 & N2).
  assert (forall q q', In q (df_provide D) -> In q' (df_require D) -> pd_name q = pd_name q' -> False) as X.
  { intros q q' Q Q' E. apply (in_map pd_name) in Q, Q'. rewrite <- E in Q'. clear -ND Q Q'. induction (map pd_name (df_provide D)) as [|a l IH]; [destruct Q|]. cbn [app] in ND. inversion ND as [|? ? NI ND']; subst.
    destruct Q as [->|Q]; [apply NI; apply in_or_app; right; exact Q'|auto]. }
  destruct pr, pr'; cbn [ports] in I, I'; try (exfalso; eapply X; [| |]; eauto; fail).
  - split; [reflexivity|]. exact (names_nodup pd_name _ p' p N1 I' I N).
  - split; [reflexivity|]. exact (names_nodup pd_name _ p' p N2 I' I N).
Qed.
Lemma moved_port_fun D P p q q' : NoDup (type_names P) -> moved_port D P p q -> moved_port D P p q' -> q = q'.
Proof.
  intros ND (A & B & C & E) (A' & B' & C' & E'). assert (pd_elem q = pd_elem q') as X.
  { destruct (is_reference (pd_elem p)) eqn:R; [apply is_ref_bool in R; exact (moved_fun _ _ ND _ _ (C R) _ (C' R))|apply is_ref_false in R; rewrite E, E'; auto]. }
  destruct q, q'. cbn in *. congruence.
Qed.
Lemma parts_compatible n D P Q : linked D -> linked P -> linked Q -> comes D P -> comes D Q -> NoDup (port_names D) -> compatible (mk_ndef n [] [] []) D -> compatible P Q.
Proof.
  intros LD LP LQ CP CQ ND CB. pose proof CP as (PT & PP). pose proof CQ as (QT & QP).
  assert (forall nm, In nm (type_names P) \/ In nm (type_names Q) -> ~ In nm (port_names D)) as TN.
  { intros nm I. assert (exists u, In u (df_types D) /\ td_name u = nm) as (u & IU & <-).
    { destruct I as [I|I]; apply in_map_iff in I as (t & <- & I); [destruct (PT t I) as (u & IU & (-> & _))|destruct (QT t I) as (u & IU & (-> & _))]; eauto. }
    destruct (cm_names _ _ CB u IU) as [[]|[_ X]]. exact X. }
  assert (forall X nm, comes D X -> In nm (port_names X) -> In nm (port_names D)) as PN.
  { intros X nm (_ & XP) I. unfold port_names in I. apply in_map_iff in I as (q & <- & I). assert (exists pr, In q (ports pr X)) as (pr & IQ) by (apply in_app_or in I as [?|?]; [exists true|exists false]; assumption).
    destruct (XP pr q IQ) as (p & IP & (-> & _)). eapply port_name_in; eauto. }
  constructor.
  - intros t t2 I I2 N. destruct (PT t I) as (u & IU & M). destruct (QT t2 I2) as (u2 & IU2 & M2).
    assert (u2 = u) as ->. { apply (names_nodup td_name (df_types D)); [apply (ln_names _ LD)|exact IU2|exact IU|]. destruct M as (<- & _), M2 as (<- & _). congruence. }
    exact (same_type_trans Q D P t2 u t (ln_names _ LD) (same_type_sym _ _ _ _ M2) M).
  - intros pr pr' p q I IQ N. destruct (QP pr p I) as (u & IU & M). destruct (PP pr' q IQ) as (v & IV & M').
    destruct (same_port D pr pr' u v ND IU IV) as (-> & ->); [destruct M as (<- & _), M' as (<- & _); exact N|]. split; [reflexivity|].
    exact (moved_port_trans Q D P p u q (ln_names _ LD) (moved_port_sym _ _ _ _ M) M').
  - intros pr pr' p p' I I' N. destruct (QP pr p I) as (u & IU & M). destruct (QP pr' p' I') as (v & IV & M').
    destruct (same_port D pr pr' u v ND IU IV) as (-> & ->); [destruct M as (<- & _), M' as (<- & _); exact N|]. split; [reflexivity|].
    exact (moved_port_fun D Q u p' p (ln_names _ LQ) M' M).
  - intros pr p m j t2 I E T. right. destruct (QP pr p I) as (u & IU & M). pose proof M as (_ & _ & MR & MN).
    assert (is_ref (pd_elem u)) as R.
    { destruct (is_reference (pd_elem u)) eqn:R; [apply is_ref_bool; exact R|apply is_ref_false in R]. rewrite (MN R) in E. exfalso. apply R. rewrite E. exact Logic.I. }
    specialize (MR R). rewrite E in MR. inversion MR as [|? i1 j1 nm A B X Y|]; subst. assert (j1 = j) as -> by lia.
    unfold type_names in A, B. rewrite nth_error_map in A, B. rewrite T in B. destruct (nth_error (df_types D) i1) as [v|] eqn:V; [|discriminate]. cbn [option_map] in A, B.
    assert (td_name t2 = td_name v) as NW by congruence.
    apply (movable_moved D Q LD LQ CQ i1 j v t2); [|exact V|exact T|].
    + destruct (cm_taken _ _ CB pr u m i1 v IU (eq_sym X) V) as [[]|MV]. exact MV.
    + destruct (QT t2 (nth_error_In _ _ T)) as (v' & IV' & ST). assert (v' = v) as <-; [|exact ST].
      apply (names_nodup td_name (df_types D)); [apply (ln_names _ LD)|exact IV'|eapply nth_error_In; eauto|]. destruct ST as (<- & _). congruence.
  - intros t2 I. right. assert (~ In (td_name t2) (port_names D)) as X by (apply TN; right; apply in_map; exact I). split; [intros Y; exact (X (PN P _ CP Y))|intros Y; exact (X (PN Q _ CQ Y))].
Qed.

(** ** The tool succeeds *)

Lemma found_type W nd D nm o : represents W nd D -> node_find W nd nm = Some (FType o) -> In nm (type_names D).
Proof.
  intros R E. unfold node_find in E. destruct (find _ (n_types nd)) as [x|] eqn:F; [|unfold option_map in E; match type of E with match ?x with _ => _ end = _ => destruct x; discriminate end].
  apply find_some in F as [I N]. apply opt_eqb_eq in N. apply In_nth_error in I as (i & I). destruct (Forall2_nth _ _ _ _ _ (rep_names _ _ _ R) I) as (y & Y & NY).
  rewrite <- N, NY. eapply nth_error_In; eauto.
Qed.
Lemma add_one_ok fuel W0 source D W nd Dn pr po p : src W0 source D -> (length (df_types D) <= fuel)%nat -> wle W0 W -> inv W nd Dn -> compatible Dn D ->
  In po (n_provide source ++ n_require source) -> In p (ports pr D) -> port_is W (n_types source) pr po p ->
  exists W1 nd1 o Dn1, add_port_from fuel W nd po = Ok (W1, nd1, o) /\ wle W0 W1 /\ inv W1 nd1 Dn1 /\ compatible Dn1 D.
Proof.
  intros SR FU WL IN CM IO IP PI. pose proof (src_wle _ _ _ _ WL SR) as SR1. destruct (add_port_from_ok fuel W nd Dn source D pr po p IN SR1 CM FU IO IP PI) as (W1 & nd1 & o & E).
  exists W1, nd1, o. destruct (add_port_from_step fuel W nd Dn source D pr po p W1 nd1 o IN SR1 IO IP PI E) as [(-> & -> & _)|(D' & AD)].
  - exists Dn. auto.
  - exists D'. pose proof (compatible_added _ _ _ _ _ _ _ _ _ _ _ (proj1 (proj2 SR)) CM IP AD) as CM'. destruct AD as (ts & q & _ & IN' & WL' & _). split; [exact E|]. split; [eapply wle_trans; eauto|]. auto.
Qed.
Lemma head_ports_ok fuel W0 source D names : src W0 source D -> (length (df_types D) <= fuel)%nat -> (forall s, In s names -> ~ In (Some s) (type_names D)) ->
  forall W head done Dh, wle W0 W -> inv W head Dh -> compatible Dh D -> exists W' head' done', head_ports fuel W source head done names = Ok (W', head', done').
Proof.
  intros SR FU. induction names as [|s names IH]; intros NT W head done Dh WL IN CM; cbn [head_ports]; [eauto|].
  assert (forall s, In s names -> ~ In (Some s) (type_names D)) as NT' by (intros x X; apply NT; right; exact X).
  pose proof (found_port W source D (Some s) (rep_wle _ _ _ _ WL (proj1 SR))) as FP. destruct (node_find W source (Some s)) as [[o|o]|] eqn:NF.
  - exfalso. apply (NT s (or_introl eq_refl)). eapply found_type; [|exact NF]. exact (rep_wle _ _ _ _ WL (proj1 SR)).
  - destruct FP as (PN & pr & p & IO & IP & PI & NP). destruct (existsb _ done); [eapply IH; eauto|].
    destruct (add_one_ok fuel W0 source D W head Dh pr o p SR FU WL IN CM IO IP PI) as (W1 & head1 & o1 & Dh1 & E & WL1 & IN1 & CM1). rewrite E. cbn [bind]. eapply IH; eauto.
  - eapply IH; eauto.
Qed.
Lemma tail_ports_ok fuel W0 source D l : src W0 source D -> (length (df_types D) <= fuel)%nat -> (forall o, In o l -> In o (n_provide source ++ n_require source)) ->
  forall W tail done Dt, wle W0 W -> inv W tail Dt -> compatible Dt D -> exists W' tail', tail_ports fuel W tail done l = Ok (W', tail').
Proof.
  intros SR FU. induction l as [|o l IH]; intros SUB W tail done Dt WL IN CM; cbn [tail_ports]; [eauto|].
  assert (forall o, In o l -> In o (n_provide source ++ n_require source)) as SUB' by (intros x X; apply SUB; right; exact X).
  destruct (existsb _ done); [eapply IH; eauto|]. pose proof (SUB o (or_introl eq_refl)) as IO. destruct (port_obj _ _ _ _ (rep_wle _ _ _ _ WL (proj1 SR)) IO) as (pr & p & PI & IP & _).
  destruct (add_one_ok fuel W0 source D W tail Dt pr o p SR FU WL IN CM IO IP PI) as (W1 & tail1 & o1 & Dt1 & E & WL1 & IN1 & CM1). rewrite E. cbn [bind]. eapply IH; eauto.
Qed.
Lemma mirror_if_ok m W nd D : inv W nd D -> untagged W nd -> exists W' nd', mirror_if m W nd = Ok (W', nd').
Proof.
  intros (R & L & C & _) U. unfold mirror_if. destruct m; [|eauto]. destruct (mirror_rep W nd D None R L (or_introl U) C) as (W' & nd' & E & _). eauto.
Qed.
Lemma compatible_named n n' D E : compatible (mk_ndef n [] [] []) E -> D = mk_ndef n' [] [] [] -> compatible D E.
Proof. intros [A B C X Y] ->. split; auto. Qed.

Lemma split_ok fuel a d D names nh nt : read_as d (s_input a) D -> writable_def D -> NoDup (port_names D) -> named_in_order D -> compatible (mk_ndef None [] [] []) D ->
  (length (df_types D) <= fuel)%nat -> wanted a d names -> (forall s, In s names -> ~ In (Some s) (type_names D)) ->
  node_name (s_head a) (s_head_name a) nh -> plain_name nh -> ~ In 13 nh ->
  (forall p, s_tail a = Some p -> named_by p nt /\ plain_name nt /\ ~ In 13 nt) ->
  exists d' text, apx_split fuel a d = (d', Printed text).
Proof.
  intros RA WD ND NO CB FU WA NMS NH PH CH NT. destruct (wanted_names _ _ _ WA) as (WN & NE). unfold apx_split.
  set (r := do '(W, source) <- parse_file d empty_world (s_input a); _).
  assert (forall (x y : disk * outcome), match s_file a, s_names a with None, [] => x | _, _ => y end = y) as SEL.
  { intros x y. destruct (s_file a), (s_names a); try reflexivity. destruct (NE eq_refl eq_refl). }
  cbv zeta. rewrite SEL. clear SEL.
  destruct (read_as_sound _ _ _ empty_world RA) as (W0 & nd0 & EP & (R0 & L0 & N0 & U0) & CR & _).
  destruct (writable_copyable _ WD) as [CP TT]. assert (src W0 nd0 D) as SR by (split; [exact R0|split; [exact L0|split; [exact CP|split; [exact TT|left; exact U0]]]]).
  destruct (new_inv W0 nh) as (IH & NOH & FRH).
  destruct (head_ports_ok fuel W0 nd0 D names SR FU NMS W0 (new_node (Some nh)) [] _ (wle_refl W0) IH) as (W1 & head1 & done1 & EH); [eapply compatible_named; [exact CB|reflexivity]|].
  destruct (head_ports_picks fuel W0 nd0 D names SR _ _ _ _ _ _ (wle_refl W0) (ex_intro _ _ IH) EH) as (l & lp & SP & AE & DE & ME).
  assert (NoDup (map (fun x => pd_name (snd x)) lp)) as NL by (rewrite ME; apply NoDup_filter, firsts_nodup).
  destruct (taken fuel W0 nd0 D l lp W0 _ nh W1 head1 SR (wle_refl W0) IH SP NL AE) as (Dh & INh & WL1 & DNh & PT).
  pose proof (noids_add_ports_from _ _ _ _ _ _ NOH AE) as NO1. pose proof (fresh_add_ports_from _ _ _ _ _ _ _ FRH AE) as (FA & FB & FC). pose proof (inv_untagged _ _ _ INh NO1) as U1.
  destruct (mirror_if_ok (s_mirror a) W1 head1 Dh INh U1) as (W2 & head2 & EM).
  destruct (mirror_if_done _ _ _ _ _ _ INh U1 FC EM) as (R2 & L2 & U2 & F2 & WL2 & AB2). change (if s_mirror a then mirrored None Dh else Dh) with (head_def a Dh) in *.
  assert (forall pr p, In p (side pr lp) -> In p (ports pr D)) as PK by (intros pr p I; apply side_in in I; exact (source_in _ _ _ _ _ SP _ I)).
  assert (writable_def (head_def a Dh)) as WDh.
  { pose proof (part_writable _ _ _ _ PT PK DNh PH WD) as X. unfold head_def. destruct (s_mirror a); [apply writable_mirrored; [exact X|discriminate]|exact X]. }
  assert (crless (head_def a Dh)) as CRh.
  { pose proof (part_crless _ _ _ _ PT PK DNh CH CR) as X. unfold head_def. destruct (s_mirror a); [apply crless_mirrored; [exact X|]|exact X]. intros Y. vm_compute in Y. intuition discriminate. }
  destruct (finalize_ok (s_sort a) false W2 head2 _ R2 L2 F2 (writable_names _ WDh)) as (W3 & head3 & EF).
  destruct (finalize_rep _ _ _ _ _ _ R2 L2 F2 EF) as (Dh' & SDh & _). destruct (finalized_tagged _ _ _ _ _ _ _ R2 L2 F2 U2 SDh EF) as (R3 & T3 & F3).
  assert (wle W0 W3) as WL3. { eapply finalize_frame; [exact R2|exact L2|exact EF|eapply wle_trans; [exact WL1|exact WL2]|]. apply AB2; [exact FA|exact FB]. }
  assert (named_in_order (head_def a Dh)) as NOh.
  { pose proof (named_part _ _ NO (fun t => part_type _ _ _ t PT)) as X. unfold head_def. destruct (s_mirror a); exact X. }
  pose proof (named_ordered _ _ _ NOh L2 (writable_names _ WDh) SDh) as ODh.
  assert (r = Ok (W3, nd0, head3, done1)) as ER.
  { subst r. rewrite EP. cbn [bind].
    assert ((match s_file a with Some f => do t <- read_file d f; Ok (name_lines t) | None => Ok (s_names a) end) = Ok names) as EN by (destruct (s_file a); [exact WN|rewrite WN; reflexivity]).
    rewrite EN. cbn [bind]. rewrite (node_for_name _ _ _ NH), EH. cbn [bind]. rewrite EM. cbn [bind]. rewrite EF. reflexivity. }
  rewrite ER. clear ER r.
  assert (exists d1 text1, match s_head a with
        | Some p => let '(d, r) := save_apx true (Some p) d W3 head3 in (d, do '(W, _) <- r; Ok (W, []))
        | None => (d, do '(W, _, t) <- node_dumps true W3 head3; Ok (W, print t))
        end = (d1, Ok (W3, text1))) as (d1 & text1 & EO).
  { destruct (s_head a) as [ph|].
    - destruct (save_final true (Some ph) d W3 head3 Dh' ph R3 (linked_sorted _ _ _ L2 SDh ODh) T3 F3 (writable_sorted _ _ _ SDh WDh) (crless_sorted _ _ _ SDh CRh) eq_refl) as (ls & SL & TA & SE & _).
      rewrite SE. cbn [bind]. eauto.
    - destruct (save_final true (Some []) d W3 head3 Dh' [] R3 (linked_sorted _ _ _ L2 SDh ODh) T3 F3 (writable_sorted _ _ _ SDh WDh) (crless_sorted _ _ _ SDh CRh) eq_refl) as (ls & SL & TA & _ & t & SE & PE).
      rewrite SE. cbn [bind]. eauto. }
  rewrite EO. destruct (s_tail a) as [pt|]; [|eauto]. destruct (NT pt eq_refl) as (NB & PN & CN).
  assert (node_for (Some pt) (s_tail_name a) = new_node (Some nt)) as NF by (apply node_for_name; exact NB). rewrite NF.
  destruct (new_inv W3 nt) as (IT & NOT & FRT). assert (untagged W3 (new_node (Some nt))) as UT by (intros o []).
  destruct (mirror_if_ok (s_mirror a) W3 _ _ IT UT) as (W6 & tail6 & EM6). rewrite EM6. cbn [bind].
  destruct (mirror_if_done _ _ _ _ _ _ IT UT eq_refl EM6) as (R6 & L6 & U6 & F6 & WL6 & _).
  assert ((if s_mirror a then mirrored None (mk_ndef (Some nt) [] [] []) else mk_ndef (Some nt) [] [] []) = mk_ndef (Some nt) [] [] []) as ME6 by (destruct (s_mirror a); reflexivity). rewrite ME6 in *.
  assert (inv W6 tail6 (mk_ndef (Some nt) [] [] [])) as I6.
  { split; [exact R6|]. split; [exact L6|]. split; [split; intros ? []|]. split; [intros ? []|]. intros o O. apply U6. exact O. }
  pose proof (wle_trans _ _ _ WL3 WL6) as WL06.
  destruct (tail_ports_ok fuel W0 nd0 D (n_provide nd0 ++ n_require nd0) SR FU (fun o O => O) W6 tail6 done1 _ WL06 I6) as (W7 & tail7 & ET); [eapply compatible_named; [exact CB|reflexivity]|]. rewrite ET.
  assert (source_ports W0 nd0 D (n_provide nd0 ++ n_require nd0) (map (pair true) (df_provide D) ++ map (pair false) (df_require D))) as SPA.
  { apply Forall2_app; apply paired; auto; try (apply R0); intros; apply in_or_app; auto. }
  destruct (tail_ports_picks fuel W0 nd0 D _ SR _ _ _ _ _ _ WL06 (ex_intro _ _ I6) SPA ET) as (l' & SP' & AE').
  set (lp' := filter (fun x => negb (existsb (opt_eqb (pd_name (snd x))) done1)) (map (pair true) (df_provide D) ++ map (pair false) (df_require D))) in *.
  assert (NoDup (map (fun x => pd_name (snd x)) lp')) as NL'.
  { assert (forall (f : bool * pdef -> bool) l0, NoDup (map (fun x => pd_name (snd x)) l0) -> NoDup (map (fun x => pd_name (snd x)) (filter f l0))) as NF0.
    { intros f l0. induction l0 as [|x l0 IHl]; intros Y; [constructor|]. cbn [map filter] in *. inversion Y as [|? ? NI Y']; subst. destruct (f x); [|auto]. cbn [map]. constructor; [|auto].
      intros I. apply NI. apply in_map_iff in I as (z & Z & I). apply in_map_iff. exists z. split; [exact Z|]. apply filter_In in I. apply I. }
    apply NF0. rewrite map_app, !map_map. cbn [snd]. rewrite <- map_app. exact ND. }
  destruct (taken fuel W0 nd0 D l' lp' W6 tail6 nt W7 tail7 SR WL06 I6 SP' NL' AE') as (Dt & INt & WL7 & DNt & PTt).
  assert (forall pr p, In p (side pr lp') -> In p (ports pr D)) as PKt by (intros pr p I; apply side_in in I; exact (source_in _ _ _ _ _ SP' _ I)).
  pose proof INt as (Rt & Lt & _).
  assert (noids W6 tail6) as NO6 by (intros o O; split; [apply U6; exact O|apply (rp_tbelow _ _ _ R6); exact O]).
  assert (fresh 0 W6 tail6) as FR6 by (split; [lia|split; [intros; lia|exact F6]]).
  pose proof (noids_add_ports_from _ _ _ _ _ _ NO6 AE') as NO7. destruct (fresh_add_ports_from _ _ _ _ _ _ _ FR6 AE') as (_ & _ & F7).
  pose proof (part_writable _ _ _ _ PTt PKt DNt PN WD) as WDt. pose proof (part_crless _ _ _ _ PTt PKt DNt CN CR) as CRt.
  destruct (finalize_ok true false W7 tail7 Dt Rt Lt F7 (writable_names _ WDt)) as (W8 & nd8 & EF8). destruct (finalize_rep _ _ _ _ _ _ Rt Lt F7 EF8) as (Dt' & SDt & _).
  pose proof (named_ordered _ _ _ (named_part _ _ NO (fun t => part_type _ _ _ t PTt)) Lt (writable_names _ WDt) SDt) as ODt.
  destruct (save_rep true (Some pt) d1 W7 tail7 Dt Dt' pt Rt Lt F7 (inv_untagged _ _ _ INt NO7) WDt CRt SDt ODt eq_refl) as (W9 & nd9 & ls & _ & _ & SL & TA & SE & _).
  rewrite SE. unfold finish_with. cbn [bind]. eauto.
Qed.

(** A definition with distinct names whose types can be taken over can be split at any
    of its ports: the files that the tool writes are read as the two parts. *)
Theorem split_succeeds fuel a d D names nh nt : read_as d (s_input a) D -> writable_def D -> NoDup (port_names D) -> named_in_order D -> compatible (mk_ndef None [] [] []) D ->
  (length (df_types D) <= fuel)%nat -> wanted a d names -> (forall s, In s names -> ~ In (Some s) (type_names D)) ->
  node_name (s_head a) (s_head_name a) nh -> plain_name nh -> ~ In 13 nh ->
  (forall p, s_tail a = Some p -> named_by p nt /\ plain_name nt /\ ~ In 13 nt) ->
  exists d' text pick Dh Dh', apx_split fuel a d = (d', Printed text) /\ (forall p, s_head a <> Some p -> s_tail a <> Some p -> d' p = d p) /\
    (forall pr, asked D names pr (pick pr)) /\ part_of D pick Dh /\ df_name Dh = Some nh /\ sorted_def (s_sort a) (if s_mirror a then mirrored None Dh else Dh) Dh' /\
    (forall p, s_head a = Some p -> s_tail a <> Some p -> read_as d' p Dh') /\
    (forall p, s_tail a = Some p -> exists Dt Dt', part_of D (others D names) Dt /\ df_name Dt = Some nt /\ sorted_def true Dt Dt' /\ read_as d' p Dt').
Proof.
  intros RA WD ND NO CB FU WA NMS NH PH CH NT. destruct (split_ok fuel a d D names nh nt RA WD ND NO CB FU WA NMS NH PH CH NT) as (d' & text & E).
  destruct (split_done fuel a d D names nh nt d' text RA WD ND WA NH PH CH NT E) as (OT & (pick & Dh & Dh' & AS & PO & DNh & (SDh & Lh) & RH) & TL).
  assert (forall p s E, text_as s E -> d' p = Some s -> read_as d' p E) as PR.
  { intros p s X TA Y. apply (read_as_ext (put_file d' p s)); [rewrite put_same; auto|apply put_read_as; exact TA]. }
  assert (forall pr p, In p (pick pr) -> In p (ports pr D)) as PK by (intros pr p I; apply (AS pr); exact I).
  assert (forall pr p, In p (others D names pr) -> In p (ports pr D)) as PKt by (intros pr p I; apply filter_In in I; apply I).
  exists d', text, pick, Dh, Dh'. split; [exact E|]. split; [exact OT|]. split; [exact AS|]. split; [exact PO|]. split; [exact DNh|]. split; [exact SDh|]. split.
  - intros p SH ST. assert (ordered Dh') as ODh.
    { eapply named_ordered; [|exact Lh| |exact SDh].
      - pose proof (named_part _ _ NO (fun t => part_type _ _ _ t PO)) as X. unfold head_def. destruct (s_mirror a); exact X.
      - pose proof (part_writable _ _ _ _ PO PK DNh PH WD) as X. apply writable_names. unfold head_def. destruct (s_mirror a); [apply writable_mirrored; [exact X|discriminate]|exact X]. }
    destruct (RH ODh) as (t & _ & TA & HX). rewrite SH in HX. destruct HX as (_ & HX). eapply PR; [exact TA|]. apply HX. exact ST.
  - intros p ST. destruct (TL p ST) as (Dt & POt & (DNt & Lt & (Dt' & SDt)) & RT). exists Dt, Dt'. split; [exact POt|]. split; [exact DNt|]. split; [exact SDt|].
    destruct (NT p ST) as (_ & PT & _).
    pose proof (named_ordered _ _ _ (named_part _ _ NO (fun t => part_type _ _ _ t POt)) Lt (writable_names _ (part_writable _ _ _ _ POt PKt DNt PT WD)) SDt) as ODt.
    destruct (RT Dt' SDt ODt) as (t & _ & TA & TX). eapply PR; eauto.
Qed.
Print Assumptions split_succeeds.

Lemma part_length D P : comes D P -> linked P -> (length (df_types P) <= length (df_types D))%nat.
Proof.
  intros (CT & _) L. rewrite <- (map_length td_name (df_types P)), <- (map_length td_name (df_types D)). apply NoDup_incl_length; [apply (ln_names _ L)|].
  intros nm I. apply in_map_iff in I as (t & <- & I). destruct (CT t I) as (u & IU & (-> & _)). apply in_map. exact IU.
Qed.

(** Such a definition can be split and joined again, in both orders of the parts, and one
    gets it back. *)
Theorem split_join_succeeds fuel a d D names nh nt h t fuel' name sort normalize : read_as d (s_input a) D -> writable_def D -> NoDup (port_names D) -> named_in_order D -> compatible (mk_ndef None [] [] []) D ->
  (length (df_types D) <= fuel)%nat -> (length (df_types D) <= fuel')%nat -> wanted a d names -> (forall s, In s names -> ~ In (Some s) (type_names D)) ->
  s_head a = Some h -> s_tail a = Some t -> h <> t -> s_mirror a = false ->
  named_by h nh -> plain_name nh -> ~ In 13 nh -> named_by t nt -> plain_name nt -> ~ In 13 nt -> plain_name name -> ~ In 13 name ->
  exists d1 d2 d3 J, apx_split fuel a d = (d1, Printed []) /\ apx_join fuel' [h; t] name sort normalize d1 = (d2, Printed []) /\ apx_join fuel' [t; h] name sort normalize d1 = (d3, Printed []) /\
    read_as d2 (name ++ lit ".apx") J /\ df_name J = Some name /\ types_agree D J /\ ports_in (same_data D J) D J /\ ports_in (same_data J D) J D /\
    (forall pr, Permutation (map pd_name (ports pr D)) (map pd_name (ports pr J))) /\ (sort = true -> d3 = d2).
Proof.
  intros RA WD ND NO CB FU FU' WA NMS SH ST HT SM NH PH CH NT PT CT PN CN.
  assert (node_name (s_head a) (s_head_name a) nh) as NH' by (rewrite SH; exact NH).
  assert (forall p, s_tail a = Some p -> named_by p nt /\ plain_name nt /\ ~ In 13 nt) as NT' by (intros p P; rewrite ST in P; injection P as <-; auto).
  destruct (split_ok fuel a d D names nh nt RA WD ND NO CB FU WA NMS NH' PH CH NT') as (d1 & text & E).
  destruct (read_as_sound _ _ _ empty_world RA) as (_ & _ & _ & (_ & LD & _) & _).
  destruct (split_done fuel a d D names nh nt d1 text RA WD ND WA NH' PH CH NT' E) as (OT & (pick & Dh & Dh' & AS & PO & DNh & (SDh & Lh) & RH) & TL).
  unfold head_def in *. rewrite SM in *. destruct (TL t ST) as (Dt & POt & (DNt & Lt & (Dt' & SDt)) & RT). clear TL.
  assert (forall p s E, text_as s E -> d1 p = Some s -> read_as d1 p E) as PR.
  { intros p s X TA Y. apply (read_as_ext (put_file d1 p s)); [rewrite put_same; auto|apply put_read_as; exact TA]. }
  assert (forall pr p, In p (pick pr) -> In p (ports pr D)) as PK by (intros pr p I; apply (AS pr); exact I).
  assert (forall pr p, In p (others D names pr) -> In p (ports pr D)) as PKt by (intros pr p I; apply filter_In in I; apply I).
  pose proof (part_writable _ _ _ _ PO PK DNh PH WD) as WDh. pose proof (part_writable _ _ _ _ POt PKt DNt PT WD) as WDt.
  pose proof (named_part _ _ NO (fun t => part_type _ _ _ t PO)) as NOh. pose proof (named_part _ _ NO (fun t => part_type _ _ _ t POt)) as NOt.
  pose proof (named_ordered _ _ _ NOh Lh (writable_names _ WDh) SDh) as ODh. pose proof (named_ordered _ _ _ NOt Lt (writable_names _ WDt) SDt) as ODt.
  pose proof (linked_sorted _ _ _ Lh SDh ODh) as Lh'. pose proof (linked_sorted _ _ _ Lt SDt ODt) as Lt'.
  destruct (RH ODh) as (th & _ & TAh & HX). rewrite SH in HX. destruct HX as (TE & HX). specialize (HX ltac:(rewrite ST; congruence)). subst text.
  destruct (RT Dt' SDt ODt) as (tt' & _ & TAt & TX).
  pose proof (comes_sorted _ _ _ _ Lh Lh' (comes_part _ _ _ PK PO) SDh) as Ch. pose proof (comes_sorted _ _ _ _ Lt Lt' (comes_part _ _ _ PKt POt) SDt) as Ct.
  assert (forall P, comes D P -> named_in_order P) as NP by (intros P (X & _); exact (named_part _ _ NO X)).
  assert (forall P Q, In P [Dh'; Dt'] -> In Q [Dh'; Dt'] -> compatible P Q) as JP.
  { intros P Q [<- |[<- |[]]] [<- |[<- |[]]]; eapply (parts_compatible None D); eauto. }
  assert (forall P, In P [Dh'; Dt'] -> compatible (mk_ndef None [] [] []) P) as JA.
  { destruct (new_inv empty_world nh) as ((_ & L0 & _) & _). intros P IP. apply (compatible_named (Some nh) None _ P); [|reflexivity].
    destruct IP as [<- |[<- |[]]]; eapply (parts_compatible None D); eauto using comes_blank. }
  assert (forall Ds, (forall P, In P Ds -> In P [Dh'; Dt']) -> joinable Ds) as JB by (intros Ds X; split; auto).
  assert (forall P, In P [Dh'; Dt'] -> (length (df_types P) <= fuel')%nat) as FP.
  { intros P [<- |[<- |[]]]; [pose proof (part_length _ _ Ch Lh')|pose proof (part_length _ _ Ct Lt')]; lia. }
  assert (Forall2 (read_as d1) [h; t] [Dh'; Dt']) as F1 by (constructor; [eapply PR; eauto|constructor; [eapply PR; eauto|constructor]]).
  assert (Forall2 (read_as d1) [t; h] [Dt'; Dh']) as F2 by (constructor; [eapply PR; eauto|constructor; [eapply PR; eauto|constructor]]).
  pose proof (writable_sorted _ _ _ SDh WDh) as WDh'. pose proof (writable_sorted _ _ _ SDt WDt) as WDt'.
  destruct (join_succeeds fuel' [h; t] name sort normalize d1 [Dh'; Dt'] F1) as (d2 & _ & _ & E2 & _); [constructor; [|constructor; [|constructor]]; auto|constructor; [|constructor; [|constructor]]; auto|apply JB; auto|exact FP|exact PN|exact CN|].
  assert (forall P, In P [Dt'; Dh'] -> In P [Dh'; Dt']) as SW by (intros P [<- |[<- |[]]]; cbn; auto).
  destruct (join_succeeds fuel' [t; h] name sort normalize d1 [Dt'; Dh'] F2) as (d3 & _ & _ & E3 & _); [constructor; [|constructor; [|constructor]]; auto|constructor; [|constructor; [|constructor]]; auto|apply JB; exact SW|auto|exact PN|exact CN|].
  destruct (split_then_join fuel a d D names nh nt h t d1 [] fuel' name sort normalize d2 []) as (J & RJ & NJ & A & B & C & P); auto.
  exists d1, d2, d3, J. repeat (split; [assumption|]). intros ->.
  destruct (join_any_order fuel' fuel' [h; t] [t; h] name normalize d1 [Dh'; Dt'] d2 d3 [] [] F1) as (-> & _); auto.
  - intros P' Q I I'. right. exact (cm_types _ _ (JP P' Q I I')).
  - intros p. cbn. tauto.
Qed.
Print Assumptions split_join_succeeds.

(** If the ports need all the types, splitting, joining and sorting gives exactly the file
    that apx_finalize or apx_normalize makes of the original. *)
Theorem split_join_same_text fuel a d D names nh nt h t fuel' name normalize out : read_as d (s_input a) D -> writable_def D -> NoDup (port_names D) -> named_in_order D -> compatible (mk_ndef None [] [] []) D ->
  (forall i u, nth_error (df_types D) i = Some u -> exists pr p, In p (ports pr D) /\ needs D (pd_elem p) i) -> df_name D = Some name -> ~ In 13 name ->
  (length (df_types D) <= fuel)%nat -> (length (df_types D) <= fuel')%nat -> wanted a d names -> (forall s, In s names -> ~ In (Some s) (type_names D)) ->
  s_head a = Some h -> s_tail a = Some t -> h <> t -> s_mirror a = false ->
  named_by h nh -> plain_name nh -> ~ In 13 nh -> named_by t nt -> plain_name nt -> ~ In 13 nt ->
  exists d1 d2 d3, apx_split fuel a d = (d1, Printed []) /\ apx_join fuel' [h; t] name true normalize d1 = (d2, Printed []) /\
    (if normalize then apx_normalize else apx_finalize) (mk_args [s_input a] (Some out) false None false) [] d = (d3, Printed []) /\
    d2 (name ++ lit ".apx") = d3 out /\ d3 out <> None.
Proof.
  intros RA WD ND NO CB NEED DN CN FU FU' WA NMS SH ST HT SM NH PH CH NT PT CT.
  assert (plain_name name) as PN by (destruct (wd_name _ WD) as (s & E & P); rewrite DN in E; injection E as <-; exact P).
  destruct (split_join_succeeds fuel a d D names nh nt h t fuel' name true normalize RA WD ND NO CB FU FU' WA NMS SH ST HT SM NH PH CH NT PT CT PN CN) as (d1 & d2 & _ & _ & E1 & E2 & _).
  destruct (split_join_parts fuel a d D names nh nt h t d1 [] fuel' name true normalize d2 [] RA WD ND NO WA SH ST HT SM NH PH CH NT PT CT PN CN E1 E2)
    as (J & J' & s & GJ & LJ & NJ & NGJ & NOJ & DNJ & SDJ & ODJ & LJ' & TF & TA & ED).
  destruct (read_as_sound _ _ _ empty_world RA) as (W & nd & _ & (R & LD & _) & _ & NF & _).
  destruct (finalize_ok true false W nd D R LD NF (writable_names _ WD)) as (W1 & nd1 & EF). destruct (finalize_rep _ _ _ _ _ _ R LD NF EF) as (D' & SD & _).
  pose proof (named_ordered _ _ _ NO LD (writable_names _ WD) SD) as OD. pose proof (linked_sorted _ _ _ LD SD OD) as LD'.
  assert (forall X E, In X [D] -> In E [D] -> X = E \/ types_agree X E) as AG by (intros X E [<- |[]] [<- |[]]; left; reflexivity).
  assert (D' = J') as <-.
  { eapply (sorted_join_same [D] D J); eauto using gathers_one, writable_names; [| |congruence].
    - intros nm I. apply In_nth_error in I as (i & I). unfold type_names in I. rewrite nth_error_map in I. destruct (nth_error (df_types D) i) as [u|] eqn:U; [|discriminate]. injection I as <-.
      destruct (NEED i u U) as (pr & p & IP & NE). eapply (needed_name [D] J D); eauto. left. reflexivity.
    - intros nm I. apply in_map_iff in I as (u & <- & I). destruct (ga_type _ _ GJ u I) as (E & v & [<- |[]] & IV & (-> & _)). apply in_map. exact IV. }
  set (b := mk_args [s_input a] (Some out) false None false).
  destruct (rewrite_done normalize b [] d D D' out) as (s' & _ & _ & TF' & _ & _ & _ & E3); [exists (s_input a), []; split; [reflexivity|exact RA]|reflexivity|exact WD|exact SD|exact OD|].
  cbn [b a_pipe] in E3. rewrite (text_once _ _ _ _ TF TF' TA) in *. exists d1, d2, (put_file d out s'). split; [exact E1|]. split; [exact E2|].
  split; [destruct normalize; exact E3|]. rewrite ED, !put_same. split; [reflexivity|discriminate].
Qed.
Print Assumptions split_join_same_text.

(** [ex_ja] (JoinOkProps) is such a definition: names differ, its types can be taken over,
    and its ports need both of them. *)
Example ex_splittable : NoDup (port_names ex_ja) /\ named_in_order ex_ja /\ compatible (mk_ndef None [] [] []) ex_ja /\
  forall i u, nth_error (df_types ex_ja) i = Some u -> exists pr p, In p (ports pr ex_ja) /\ needs ex_ja (pd_elem p) i.
Proof.
  destruct ex_joinable as ([JA _] & NO). split; [|split; [|split]].
  - cbn. constructor; [intros [X|[]]; discriminate|]. constructor; [intros []|constructor].
  - inversion NO; assumption.
  - apply JA. left. reflexivity.
  - intros [|[|[|i]]] u U; try discriminate U.
    + exists false. eexists. split; [left; reflexivity|]. exact (ne_here _ _ None 0%nat eq_refl).
    + exists true. eexists. split; [left; reflexivity|]. exact (ne_here _ _ None 1%nat eq_refl).
Qed.
Definition ex_split_text : list String.string := ["APX/1.2"; "N""a"""; "T""a_t""C"; "T""r_t""{""x""T[0]}"; "P""p""T[1]"; "R""s""T[0]"]%string.
Definition split_join_text (normalize : bool) (asked text : list String.string) : option str * option str :=
  let d := one_file "in.apx" text in
  let '(d1, _) := apx_split 2 (mk_split_args (lit "in.apx") (map lit asked) (Some (lit "h.apx")) (Some (lit "t.apx")) [] [] None false false) d in
  let '(d2, _) := apx_join 2 [lit "h.apx"; lit "t.apx"] (lit "a") true normalize d1 in
  let '(d3, _) := rewrite_tool normalize (mk_args [lit "in.apx"] (Some (lit "out")) false None false) [] d in
  (d2 (lit "a.apx"), d3 (lit "out")).
Example ex_split_join_text : forall asked, In asked [["p"]; ["s"]; ["s"; "p"]; ["x"]]%string ->
  split_join_text false asked ex_split_text =
    (Some (text_of (ex_split_text ++ [""; ""]%string)), Some (text_of (ex_split_text ++ [""; ""]%string))).
Proof. intros asked [<- |[<- |[<- |[<- |[]]]]]; vm_compute; reflexivity. Qed.
(** A type that no port needs is lost. *)
Theorem split_join_same_text_refuted : exists a b, split_join_text true ["p"]%string ["APX/1.2"; "N""a"""; "T""t""C"; "P""p""C"; "R""q""S"]%string = (Some a, Some b) /\ a <> b.
Proof. do 2 eexists. split; [vm_compute; reflexivity|]. vm_compute. discriminate. Qed.
Print Assumptions split_join_same_text_refuted.
(** What cannot be split: at the name of a type; a port whose type is but a reference to
    another type, or has a reference below a member of a record. *)
Definition split_fails (asked : list String.string) (text : list String.string) : Prop :=
  let d := one_file "in.apx" text in
  exists e, apx_split 20 (mk_split_args (lit "in.apx") (map lit asked) (Some (lit "h.apx")) (Some (lit "t.apx")) [] [] None false false) d = (d, Failed e).
Theorem split_succeeds_refuted :
  split_fails ["t"]%string ["APX/1.2"; "N""a"""; "T""t""C"; "P""p""T[0]"]%string /\
  split_fails ["p"]%string ["APX/1.2"; "N""a"""; "T""t""C"; "T""u""T[0]"; "P""p""T[1]"]%string /\
  split_fails ["p"]%string ["APX/1.2"; "N""a"""; "T""t""C"; "T""u""{""x""{""y""T[0]}}"; "P""p""T[1]"]%string.
Proof. repeat split; eexists; vm_compute; reflexivity. Qed.
Print Assumptions split_succeeds_refuted.
