(** Properties: what is said is accepted (C90). *)
From Coq Require Import ZifyBool ZifyNat Lia.
From Coq Require Import String.
From Verif Require Import Py PyLemmas TypesModel TextModel SigModel AttrModel NodeModel ParserModel FilesModel.
From Verif Require Import SigSpec NodeSpec ParserSpec MergeSpec FilesSpec TextOkSpec.
From Verif Require Import TextProofs SigProofs NodeProofs ElemTextProofs ParserProofs RoundTripProofs LoadProofs FilesProofs FilesProofs2 MergeOkProofs.
From Verif Require ExtendProofs.
From Verif Require Import ParserProps.
Ltac Zify.zify_post_hook ::= Z.div_mod_to_equations.

(** ** A type declared again *)

Lemma refers_text H types names : Forall2 (fun o nm => dt_name (H o) = nm) types names -> forall e a, stands types e a ->
  forall e2, refers names e2 a -> tidy true e2 -> elem_string true H e2 = elem_string true H e /\ de_name e2 = de_name e.
Proof.
  intros F.
  apply (stands_mind types
    (fun e a _ => forall e2, refers names e2 a -> tidy true e2 -> elem_string true H e2 = elem_string true H e /\ de_name e2 = de_name e)
    (fun es l _ => forall es2, refers_all names es2 l -> tidies true es2 -> members_string true H es2 = members_string true H es)).
  - intros n c lo hi k e2 R _. inversion R; subst. auto.
  - intros n o i O e2 R T. inversion R as [|n' s j J|n' j J|n' j J|]; subst; cbn [tidy] in T; try discriminate.
    match goal with X : Z.of_nat _ = Z.of_nat _ |- _ => apply Nat2Z.inj in X; subst end.
    destruct (Forall2_nth _ _ _ _ _ F O) as (x & X & NX). split; [|reflexivity]. cbn [elem_string]. rewrite NX.
    replace x with (Some s) by congruence. reflexivity.
  - intros n es l _ IH e2 R T. inversion R; subst. rewrite tidy_rec in T. split; [|reflexivity]. rewrite !elem_string_rec. erewrite IH by eassumption. reflexivity.
  - intros es2 R _. inversion R. reflexivity.
  - intros e a es l _ IH _ IHs es2 R T. inversion R; subst. destruct T as (_ & T1 & T2). cbn [members_string].
    destruct (IH _ ltac:(eassumption) T1) as [-> ->]. erewrite IHs by eassumption. reflexivity.
Qed.

Lemma again_ok W nd D parts n s attr : sound W nd D -> decl parts = Ok (n, s, attr) -> type_attr_ok attr -> says_again D n s attr ->
  exists W', apply_type W nd parts = Ok (W', nd) /\ sound W' nd D.
Proof.
  intros S0 DC TA (e & t & P & TE & TT & IT & TN & RF & AE).
  assert (make_type n s attr = Ok (mk_dtype n e attr None None)) as MT.
  { unfold make_type. rewrite P. cbn [bind]. destruct attr as [x|]; [|reflexivity]. destruct TA as [v V]. rewrite V. reflexivity. }
  pose proof (sound_new_type W nd D (mk_dtype n e attr None None) S0) as S1.
  unfold apply_type. rewrite DC. cbn [bind]. rewrite MT. cbn [bind].
  destruct (new_type W (mk_dtype n e attr None None)) as [W1 o] eqn:NT. cbn [fst] in S1. exists W1. split; [|exact S1].
  assert (w_types W1 o = mk_dtype n e attr None None) as HO by (unfold new_type in NT; invc NT; cbn; apply upd_same).
  destruct S1 as (R & L & N & U). apply In_nth_error in IT as (i & IT).
  destruct (Forall2_nth_r _ _ _ _ _ (rp_types _ _ _ R) IT) as (x & X & XN & XA & ST).
  assert (map_find n (n_map nd) = Some x) as MF.
  { apply (rp_map _ _ _ R). exists i. split; [exact X|]. unfold type_names. rewrite nth_error_map, IT. cbn. congruence. }
  unfold add_type. rewrite HO. cbn [dt_name]. rewrite MF.
  pose proof (nth_error_In _ _ IT) as InT. destruct (TT t InT) as [_ TD].
  assert (findable true (w_types W1) (n_types nd)) as FN.
  { intros j y Y. destruct (Forall2_nth _ _ _ _ _ (rp_types _ _ _ R) Y) as (u & UU & UN & _). apply nth_error_In in UU.
    destruct (TT u UU) as [(m & M1 & M2 & M3) _]. split; [exists m; rewrite UN; auto|]. left. reflexivity. }
  destruct (stands_text true _ _ _ FN (rep_names _ _ _ R) _ _ ST TD) as (PR & _ & _). destruct (signature_read true _ _ PR) as (z & Z1 & _).
  destruct (refers_text (w_types W1) _ _ (rep_names _ _ _ R) _ _ ST e RF TE) as [ET _].
  assert (dt_short (w_types W1 x) = None) as SH by (apply U; eapply nth_error_In; eauto).
  unfold type_string. cbn [dt_elem dt_name dt_attr dt_short]. rewrite ET, Z1. cbn [bind]. rewrite SH, XN, XA, TN, AE.
  rewrite (ExtendProofs.verify_equal_refl _ _ eq_refl). reflexivity.
Qed.

(** ** Lines *)

Lemma line_ok W P st line st' : holds W P st -> reads_line st line st' ->
  (forall D n s attr, snd st = Some D -> fst st = NODE \/ fst st = TYPE ->
     line_says line (Some [Some [84]; n; Some s; attr]) -> In n (type_names D) -> says_again D n s attr) ->
  exists W' P', process_line W P line = Ok (W', P') /\ holds W' P' st'.
Proof.
  intros HS R CL. inversion R as [cs D l B|D l n more B|cs D l n s a D2 C B DT|cs D l n s a D2 C B DP|cs D l n s a D2 C B DP|D l k n more B K1 K2]; subst.
  - apply line_says_split in B. exists W, P. split; [apply process_blank; exact B|exact HS].
  - apply line_says_split in B. destruct HS as [HC _]. cbn [fst] in HC. unfold process_line. rewrite B, HC. cbv zeta.
    exists W, (mk_parser NODE (Some (new_node n))). split; [reflexivity|]. split; [reflexivity|apply sound_empty].
  - pose proof (line_says_split _ _ B) as SL. destruct DT as [e x PS TA NI RF RC|e t PS TA IT TN SM].
    + apply (do_type W P cs D line n s a _ HS C SL); [|exact NI]. exact (dy_new D n s a e x PS TA NI RF RC).
    + assert (In n (type_names D)) as I by (rewrite <- TN; apply in_map; exact IT). specialize (CL D n s a eq_refl C B I).
      destruct HS as [HC HN]. cbn [fst snd] in *. destruct (p_node P) as [nd|] eqn:PN; [|contradiction].
      destruct (again_ok W nd D _ n s a HN (decl_of (Some [84]) n s a) TA CL) as (W' & E & S').
      exists W', (mk_parser TYPE (Some nd)). split; [|split; [reflexivity|exact S']].
      unfold process_line. rewrite SL, PN, HC. cbv zeta. destruct C as [-> | ->]; cbn [opt_eqb]; rewrite str_eqb_refl; unfold str in *; rewrite E; reflexivity.
  - exact (do_port true W P cs D line n s a D2 HS C (line_says_split _ _ B) DP).
  - exact (do_port false W P cs D line n s a D2 HS C (line_says_split _ _ B) DP).
  - apply line_says_split in B. exists W, P. split; [|exact HS]. destruct HS as [HC HN]. cbn [fst snd] in *.
    unfold process_line. rewrite B, HC. cbv zeta. destruct (p_node P) as [nd|]; [|destruct D; [contradiction|congruence]].
    destruct (opt_eqb k (Some [80])) eqn:E1; [apply is_key in E1; contradiction|].
    destruct (opt_eqb k (Some [82])) eqn:E2; [apply is_key in E2; contradiction|]. reflexivity.
Qed.
Lemma lines_ok st l st' : clear_lines st l st' -> forall W P, holds W P st -> exists W' P', process_lines W P l = Ok (W', P') /\ holds W' P' st'.
Proof.
  induction 1 as [st|st line st1 l st2 R CL _ IH]; intros W P HS; [exists W, P; auto|].
  destruct (line_ok W P st line st1 HS R CL) as (W1 & P1 & E1 & H1). destruct (IH W1 P1 H1) as (W2 & P2 & E2 & H2).
  exists W2, P2. cbn [process_lines]. rewrite E1. auto.
Qed.

(** ** A text says one definition *)

Lemma attr_one attr p q : port_attr_read attr p -> port_attr_read attr q -> p = q.
Proof. destruct attr as [t|]; cbn; [|congruence]. intros (v & V & ->) (v2 & V2 & ->). congruence. Qed.
Lemma port_one pr D n s attr D1 D2 : NoDup (type_names D) -> declares_port pr D n s attr D1 -> declares_port pr D n s attr D2 -> D1 = D2.
Proof.
  intros ND [e a p P A R F _|e p P A R] [e2 a2 p2 P2 A2 R2 F2 _|e2 p2 P2 A2 R2]; rewrite P in P2; injection P2 as <-; try contradiction;
    rewrite (attr_one _ _ _ A A2); [rewrite (refers_fun _ ND _ _ F _ F2)|]; reflexivity.
Qed.
Lemma type_one D n s attr D1 D2 : NoDup (type_names D) -> declares_type D n s attr D1 -> declares_type D n s attr D2 -> D1 = D2.
Proof.
  intros ND [e a P _ N F _|e t P _ I T _] [e2 a2 P2 _ N2 F2 _|e2 t2 P2 _ I2 T2 _].
  - rewrite P in P2. injection P2 as <-. rewrite (refers_fun _ ND _ _ F _ F2). reflexivity.
  - destruct N. rewrite <- T2. apply in_map. exact I2.
  - destruct N2. rewrite <- T. apply in_map. exact I.
  - reflexivity.
Qed.
Lemma line_one st line st1 st2 : (forall D, snd st = Some D -> NoDup (type_names D)) -> reads_line st line st1 -> reads_line st line st2 -> st1 = st2.
Proof.
  intros ND R1 R2.
  inversion R1 as [cs D l B|D l n more B|cs D l n s a D2 C B DT|cs D l n s a D2 C B DP|cs D l n s a D2 C B DP|D l k n more B K1 K2]; subst;
  inversion R2 as [cs' D' l' B'|D' l' n' more' B'|cs' D' l' n' s' a' D2' C' B' DT'|cs' D' l' n' s' a' D2' C' B' DP'|cs' D' l' n' s' a' D2' C' B' DP'|D' l' k' n' more' B' K1' K2']; subst;
  pose proof (says_fun _ _ _ B B') as X; try discriminate; try reflexivity; try (injection X; intros; subst); try congruence;
  try (destruct C; discriminate); try (destruct C'; discriminate).
  - f_equal. f_equal. exact (type_one _ _ _ _ _ _ (ND D eq_refl) DT DT').
  - f_equal. f_equal. exact (port_one _ _ _ _ _ _ _ (ND D eq_refl) DP DP').
  - f_equal. f_equal. exact (port_one _ _ _ _ _ _ _ (ND D eq_refl) DP DP').
Qed.
Lemma line_names st line st' : reads_line st line st' -> (forall D, snd st = Some D -> NoDup (type_names D)) -> forall D, snd st' = Some D -> NoDup (type_names D).
Proof.
  intros R ND. inversion R as [cs D l B|D l n more B|cs D l n s a D2 C B DT|cs D l n s a D2 C B DP|cs D l n s a D2 C B DP|D l k n more B K1 K2]; subst; cbn [snd] in *;
    intros D' E; try (exact (ND D' E)); injection E as <-.
  - constructor.
  - specialize (ND D eq_refl). destruct DT as [e x _ _ NI _ _|e t _ _ _ _ _]; [|exact ND]. unfold type_names, plus_type. cbn [df_types]. rewrite map_app.
    apply NoDup_snoc; assumption.
  - specialize (ND D eq_refl). destruct DP; exact ND.
  - specialize (ND D eq_refl). destruct DP; exact ND.
Qed.
Lemma lines_one l : forall st st1 st2, (forall D, snd st = Some D -> NoDup (type_names D)) -> reads_lines st l st1 -> reads_lines st l st2 -> st1 = st2.
Proof.
  induction l as [|x l IH]; intros st st1 st2 ND R1 R2; inversion R1 as [|? ? a ? ? A1 A2]; subst; inversion R2 as [|? ? b ? ? B1 B2]; subst; [reflexivity|].
  assert (a = b) as <- by (eapply line_one; eauto). exact (IH a st1 st2 (line_names _ _ _ A1 ND) A2 B2).
Qed.

(** The lines of a text or a file say at most one definition. *)
Theorem one_reading body c1 D1 c2 D2 : reads_lines (START, None) body (c1, Some D1) -> reads_lines (START, None) body (c2, Some D2) -> D1 = D2.
Proof.
  intros R1 R2. assert (forall D, snd (START, @None ndef) = Some D -> NoDup (type_names D)) as N by discriminate.
  pose proof (lines_one body _ _ _ N R1 R2) as E. injection E as _ E. exact E.
Qed.
Print Assumptions one_reading.

(** ** What is said is accepted *)

(** A text whose lines can all be read is accepted, whatever objects there are, and
    the node is what they say. *)
Theorem clear_text_accepted W text body cs D : text_body text body -> clear_lines (START, None) body (cs, Some D) ->
  exists W' nd, loads W text = Ok (W', nd) /\ represents W' nd D /\ linked D /\ numbered W' nd.
Proof.
  intros TB CL. destruct (lines_ok _ _ _ CL W new_parser) as (W1 & P1 & E & HC & HN); [split; reflexivity|].
  cbn [snd] in HN. destruct (p_node P1) as [nd|] eqn:PN; [|contradiction].
  destruct (resolve_types_sound _ _ _ HN) as (W2 & E2 & (R & L & N & _) & _).
  exists W2, nd. split; [|auto]. rewrite (loads_body W text body TB), E. cbn [bind]. unfold finish. rewrite PN, E2. reflexivity.
Qed.
Print Assumptions clear_text_accepted.
(** So is a file, whatever was read before. *)
Theorem clear_file_accepted d path text D : d path = Some text -> file_clear text D -> read_as d path D.
Proof.
  intros T (first & body & cs & FL & HV & CL) W0. destruct (file_lines_text _ _ FL) as (UT & PL). apply plain_newline in PL.
  destruct (load_lines None W0 first body PL) as [L1 _].
  destruct (lines_ok _ _ _ CL W0 new_parser) as (W1 & P1 & E & HC & HN); [split; reflexivity|].
  cbn [snd] in HN. destruct (p_node P1) as [nd|] eqn:PN; [|contradiction].
  destruct (resolve_types_sound _ _ _ HN) as (W2 & E2 & (R & _) & _).
  exists W2, nd. split; [|exact R]. unfold parse_file, parse_with, read_file. rewrite T. cbn [bind]. rewrite UT. unfold load in *.
  rewrite L1 by exact HV. unfold new_parser in E. rewrite E. cbn [bind]. unfold finish_load. rewrite PN, E2. reflexivity.
Qed.
Print Assumptions clear_file_accepted.

(** Types declared once: nothing is declared again. *)
Lemma once_clear body ns : names_said [84] body ns -> forall st st', reads_lines st body st' -> NoDup ns ->
  (forall D, snd st = Some D -> forall n, In n ns -> ~ In n (type_names D)) -> clear_lines st body st'.
Proof.
  induction 1 as [|line l ns SK NS IH|line n more l ns LS NS IH]; intros st st' R ND DJ; inversion R as [|? ? s1 ? ? R1 R2]; subst.
  - constructor.
  - apply cl_cons with s1; [exact R1| |].
    + intros D n s attr _ _ LS. destruct (SK _ _ LS).
    + apply IH; [exact R2|exact ND|]. intros D E n I.
      inversion R1 as [cs D0 l0 B|D0 l0 n0 more0 B|cs D0 l0 n0 s a D2 C B DT|cs D0 l0 n0 s a D2 C B DP|cs D0 l0 n0 s a D2 C B DP|D0 l0 k n0 more0 B K1 K2]; subst; cbn [snd] in *; try (exact (DJ D E n I)).
      * injection E as <-. intros [].
      * destruct (SK _ _ B).
      * injection E as <-. specialize (DJ D0 eq_refl n I). destruct DP; exact DJ.
      * injection E as <-. specialize (DJ D0 eq_refl n I). destruct DP; exact DJ.
  - inversion ND as [|? ? NI ND']; subst. apply cl_cons with s1; [exact R1| |].
    + intros D m s attr E _ LS2 I. pose proof (says_fun _ _ _ LS LS2) as X. injection X as -> _. destruct (DJ D E m (or_introl eq_refl) I).
    + apply IH; [exact R2|exact ND'|]. intros D E m I.
      inversion R1 as [cs D0 l0 B|D0 l0 n0 more0 B|cs D0 l0 n0 s a D2 C B DT|cs D0 l0 n0 s a D2 C B DP|cs D0 l0 n0 s a D2 C B DP|D0 l0 k n0 more0 B K1 K2]; subst; cbn [snd] in *; try (exact (DJ D E m (or_intror I))).
      * injection E as <-. intros [].
      * pose proof (says_fun _ _ _ LS B) as X. injection X as -> _. injection E as <-. specialize (DJ D0 eq_refl).
        destruct DT as [e x _ _ _ _ _|e t _ _ _ _ _]; [|exact (DJ m (or_intror I))]. unfold type_names, plus_type. cbn [df_types]. rewrite map_app. intros J.
        apply in_app_or in J as [J|[J|[]]]; [exact (DJ m (or_intror I) J)|]. cbn in J. subst. contradiction.
      * pose proof (says_fun _ _ _ LS B) as X. discriminate.
      * pose proof (says_fun _ _ _ LS B) as X. discriminate.
Qed.

(** A text that declares every type once is accepted if and only if its lines can be
    read one after the other. *)
Theorem text_accepted_iff W text body ns : text_body text body -> names_said [84] body ns -> NoDup ns ->
  (exists W' nd, loads W text = Ok (W', nd)) <-> (exists cs D, reads_lines (START, None) body (cs, Some D)).
Proof.
  intros TB NS ND. split.
  - intros (W' & nd & E). destruct (loaded_node_is_what_is_said W text body W' nd TB E) as (cs & D & R & _). eauto.
  - intros (cs & D & R). assert (clear_lines (START, None) body (cs, Some D)) as CL by (apply (once_clear body ns NS _ _ R ND); discriminate).
    destruct (clear_text_accepted W text body cs D TB CL) as (W' & nd & E & _). eauto.
Qed.
Print Assumptions text_accepted_iff.
(** And a file. *)
Theorem file_accepted_iff d W path text first body ns : d path = Some text -> file_lines text (first :: body) -> names_said [84] body ns -> NoDup ns ->
  (exists W' nd, parse_file d W path = Ok (W', nd)) <->
  ((is_header first -> version12 first) /\ exists cs D, reads_lines (START, None) body (cs, Some D)).
Proof.
  intros T FL NS ND. split.
  - intros (W' & nd & E). destruct (file_lines_text _ _ FL) as (UT & PL). apply plain_newline in PL.
    unfold parse_file, parse_with, read_file in E. rewrite T in E. cbn [bind] in E. rewrite UT in E.
    destruct (load_lines None W first body PL) as [L1 L2].
    destruct (header_dec first) as [H|[H1 H2]]; [|rewrite L2 in E by assumption; discriminate]. split; [exact H|].
    rewrite L1 in E by exact H. inv_bind E. destruct a as [W1 P1]. apply Forall_inv_tail in PL as PR.
    destruct (lines_sound body PR W (mk_parser START None) (START, None) W1 P1) as ([cs oD] & R & HC & HN); [split; reflexivity|exact Ha|].
    unfold finish_load in E. destruct (p_node P1) as [nd1|]; [|discriminate]. cbn [snd] in HN. destruct oD as [D|]; [|contradiction]. eauto.
  - intros (HV & cs & D & R). assert (clear_lines (START, None) body (cs, Some D)) as CL by (apply (once_clear body ns NS _ _ R ND); discriminate).
    destruct (clear_file_accepted d path text D T (ex_intro _ first (ex_intro _ body (ex_intro _ cs (conj FL (conj HV CL))))) W) as (W' & nd & E & _). eauto.
Qed.
Print Assumptions file_accepted_iff.

(** ** Examples *)

Lemma says_of line p : ~ In 10 line -> split_line line = p -> line_says line p.
Proof. intros N <-. apply split_says, N. Qed.
Ltac no_newline := vm_compute; intuition discriminate.
Ltac say := apply says_of; [no_newline|vm_compute; reflexivity].

(** A type that is declared again with the reference by name. *)
Definition ex_twice : list str := map lit ["N""n"""; "T""a""C"; "T""b""{""x""T[0]}"; "T""b""{""x""T[""a""]}"; "P""p""T[""b""]"]%string.
Definition ex_twice_def : ndef :=
  mk_ndef (Some (lit "n"))
    [mk_tdef (Some (lit "a")) (DPrim None CU8 None None None) None;
     mk_tdef (Some (lit "b")) (DRec None [DRef (Some (lit "x")) (RInt 0)]) None]
    [mk_pdef (Some (lit "p")) (DRef None (RInt 1)) None] [].
Example ex_clear : clear_lines (START, None) ex_twice (PROVIDE, Some ex_twice_def) /\
  text_body (join [NEWLINE] ex_twice) ex_twice /\
  (forall W, exists W' nd, loads W (join [NEWLINE] ex_twice) = Ok (W', nd) /\ represents W' nd ex_twice_def).
Proof.
  assert (clear_lines (START, None) ex_twice (PROVIDE, Some ex_twice_def)) as CL.
  { unfold ex_twice. cbn [map].
    eapply cl_cons; [eapply rd_node; say|discriminate|].
    eapply cl_cons; [eapply rd_type; [left; reflexivity|say|]|intros D n s attr E _ _ I; injection E as <-; destruct I|].
    { eapply dy_new; [vm_compute; reflexivity|exact Logic.I|intros []|constructor|constructor; intros []]. }
    eapply cl_cons; [eapply rd_type; [right; reflexivity|say|]| |].
    { eapply dy_new; [vm_compute; reflexivity|exact Logic.I|vm_compute; intuition discriminate| |].
      - apply rf_rec. constructor; [|constructor]. apply (rf_index _ _ 0). cbn. lia.
      - constructor. intros []. }
    { intros D n s attr E _ LS I. injection E as <-. apply line_says_split in LS. vm_compute in LS. injection LS as <- <- <-. vm_compute in I. intuition discriminate. }
    eapply cl_cons with (st1 := (TYPE, Some (mk_ndef (Some (lit "n")) (df_types ex_twice_def) [] []))); [eapply rd_type; [right; reflexivity|say|]| |].
    { eapply dy_again with (t := mk_tdef (Some (lit "b")) (DRec None [DRef (Some (lit "x")) (RInt 0)]) None);
        [vm_compute; reflexivity|exact Logic.I|right; left; reflexivity|reflexivity|].
      intros _ _. split; [|reflexivity]. apply rf_rec. constructor; [|constructor]. apply (rf_name _ _ _ 0). reflexivity. }
    { intros D n s attr E _ LS _. injection E as <-. apply line_says_split in LS. vm_compute in LS. injection LS as <- <- <-.
      exists (DRec None [DRef (Some (lit "x")) (RName (lit "a"))]), (mk_tdef (Some (lit "b")) (DRec None [DRef (Some (lit "x")) (RInt 0)]) None).
      split; [vm_compute; reflexivity|]. split; [|split; [|split; [right; left; reflexivity|split; [reflexivity|split; [|reflexivity]]]]].
      - cbn [tidy]. split; [exists (lit "x"); split; [reflexivity|spelt]|]. split; [|exact Logic.I]. split; [reflexivity|]. split; [spelt|].
        cbn. repeat (apply bk_char; [discriminate|discriminate|]). constructor.
      - intros t [<- |[<- |[]]]; cbn [td_name td_elem]; (split; [eexists; split; [reflexivity|]; split; [spelt|]; cbn; repeat (apply bk_char; [discriminate|discriminate|]); constructor|]).
        + cbn. tauto.
        + cbn [tidy]. split; [exists (lit "x"); split; [reflexivity|spelt]|]. split; [reflexivity|exact Logic.I].
      - apply rf_rec. constructor; [|constructor]. apply (rf_name _ _ _ 0). reflexivity. }
    eapply cl_cons; [eapply rd_provide; [discriminate|say|]| |constructor].
    { change ex_twice_def with (plus_port true (mk_ndef (Some (lit "n")) (df_types ex_twice_def) [] []) (mk_pdef (Some (lit "p")) (DRef None (RInt 1)) None)) at 2.
      eapply dp_ref; [vm_compute; reflexivity|reflexivity|exact Logic.I|apply (rf_name _ _ _ 1); reflexivity|].
      eapply (rc_step _ _ _ 1); [reflexivity|]. constructor. intros []. }
    { intros D n s attr E _ LS _. apply line_says_split in LS. vm_compute in LS. discriminate. } }
  assert (text_body (join [NEWLINE] ex_twice) ex_twice) as TB.
  { exists (lit "N""n"""), (tl ex_twice). split; [reflexivity|]. split; [repeat apply Forall_cons; try apply Forall_nil; no_newline|].
    right. split; [|reflexivity]. intros (a & b & m & E & _). vm_compute in E. discriminate. }
  split; [exact CL|]. split; [exact TB|]. intros W. destruct (clear_text_accepted W _ _ _ _ TB CL) as (W' & nd & E & R & _). eauto.
Qed.

(** A text with a type per name that is accepted and one, with an unknown type, that
    no reading explains. *)
Example ex_iff :
  names_said [84] (map lit ["N""n"""; "T""a""C"; "P""p""T[""a""]"]%string) [Some (lit "a")] /\
  (exists W nd, loads empty_world (text_of ["N""n"""; "T""a""C"; "P""p""T[""a""]"]%string) = Ok (W, nd)) /\
  loads empty_world (text_of ["N""n"""; "T""a""C"; "P""p""T[""b""]"]%string) = Err ApxTypeError /\
  ~ exists cs D, reads_lines (START, None) (map lit ["N""n"""; "T""a""C"; "P""p""T[""b""]"]%string) (cs, Some D).
Proof.
  assert (forall l, ~ In 10 l -> split_line l = None \/ (exists k n more, split_line l = Some (k :: n :: more) /\ k <> Some [84]) ->
    forall n more, ~ line_says l (Some (Some [84] :: n :: more))) as SK.
  { intros l _ S n more LS. apply line_says_split in LS. destruct S as [S|(k & m & r & S & K)]; rewrite LS in S; [discriminate|]. injection S as S _ _. congruence. }
  split; [|split; [|split]].
  - cbn [map]. apply ns_skip; [apply SK; [no_newline|right; do 3 eexists; split; [vm_compute; reflexivity|discriminate]]|].
    eapply ns_take; [say|]. apply ns_skip; [apply SK; [no_newline|right; do 3 eexists; split; [vm_compute; reflexivity|discriminate]]|]. constructor.
  - vm_compute. eauto.
  - vm_compute. reflexivity.
  - set (body := map lit ["N""n"""; "T""a""C"; "P""p""T[""b""]"]%string).
    assert (text_body (join [NEWLINE] body) body) as TB.
    { exists (lit "N""n"""), (tl body). split; [reflexivity|]. split; [repeat apply Forall_cons; try apply Forall_nil; no_newline|].
      right. split; [|reflexivity]. intros (a & b & m & E & _). vm_compute in E. discriminate. }
    assert (names_said [84] body [Some (lit "a")]) as NS.
    { unfold body. cbn [map]. apply ns_skip; [apply SK; [no_newline|right; do 3 eexists; split; [vm_compute; reflexivity|discriminate]]|].
      eapply ns_take; [say|]. apply ns_skip; [apply SK; [no_newline|right; do 3 eexists; split; [vm_compute; reflexivity|discriminate]]|]. constructor. }
    intros X. apply (text_accepted_iff empty_world _ body _ TB NS) in X; [|repeat constructor; intros []].
    destruct X as (W' & nd & E). vm_compute in E. discriminate.
Qed.

(** Not every type that is declared again in the same way is accepted: with a
    reference by number the very same line may not occur twice. *)
Theorem again_by_number_refuted :
  (exists W nd, loads empty_world (text_of ["N""n"""; "T""a""C"; "T""b""{""x""T[0]}"; "T""b""{""x""T[""a""]}"]%string) = Ok (W, nd)) /\
  loads empty_world (text_of ["N""n"""; "T""a""C"; "T""b""{""x""T[0]}"; "T""b""{""x""T[0]}"]%string) = Err RuntimeError.
Proof. split; vm_compute; eauto. Qed.
Print Assumptions again_by_number_refuted.
