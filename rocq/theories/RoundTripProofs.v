(** Lemmas for the definition text round trip. *)
From Coq Require Import ZifyBool ZifyNat Lia.
From Verif Require Import Py PyLemmas TypesModel TextModel SigModel AttrModel NodeModel ParserModel.
From Verif Require Import SigSpec NodeSpec ParserSpec TextProofs SigProofs NodeProofs ElemTextProofs ParserProofs.
Ltac Zify.zify_post_hook ::= Z.div_mod_to_equations.

(** ** Lines *)

Lemma decl_line letter name sig attr : is_linetype letter = true -> plain_name name -> none bad sig -> ends_well sig -> tidy_attr attr ->
  split_line (decl_string letter (Some name) sig attr) = Some [Some [letter]; Some name; Some sig; attr] /\
  ~ In NEWLINE (decl_string letter (Some name) sig attr).
Proof.
  intros LT PN NB EW TA. destruct (plain_in _ PN) as (Q & P35 & P10). destruct (bad_in _ NB) as (S35 & S10 & S58).
  assert (letter <> 35 /\ letter <> 10) as [L35 L10] by (unfold is_linetype in LT; lia).
  assert (decl_string letter (Some name) sig attr = decl_text letter name sig attr) as ->.
  { unfold decl_string, decl_text. cbn [opt_text app]. reflexivity. }
  destruct EW as (p & d & -> & ED).
  assert (forall x, x <> letter -> x <> QUOTE -> x <> 58 -> ~ In x name -> ~ In x (p ++ [d]) -> match attr with Some a => ~ In x a | None => True end ->
    ~ In x (decl_text letter name (p ++ [d]) attr)) as NI.
  { intros x X1 X2 X3 X4 X5 X6 I. unfold decl_text in I. destruct I as [I|[I|I]]; try congruence.
    apply in_app_or in I as [I|[I|I]]; try congruence; try contradiction. apply in_app_or in I as [I|I]; [contradiction|].
    destruct attr as [a|]; [|contradiction]. destruct I as [I|I]; [congruence|contradiction]. }
  split.
  - apply split_decl; auto; [destruct p; discriminate|]. split.
    + apply NI; auto; try discriminate. destruct attr; [apply TA|exact I].
    + intros q c E. unfold decl_text in E. destruct attr as [a|].
      * destruct (rev a) as [|z ra] eqn:RA.
        { assert (a = []) as -> by (rewrite <- (rev_involutive a), RA; reflexivity).
          replace (letter :: QUOTE :: name ++ QUOTE :: (p ++ [d]) ++ [58]) with ((letter :: QUOTE :: name ++ QUOTE :: (p ++ [d])) ++ [58]) in E
            by (repeat (cbn [app]; rewrite <- ?app_assoc); reflexivity).
          apply app_inj_tail in E as [_ <-]. unfold blank_char. lia. }
        assert (a = rev ra ++ [z]) as EA by (rewrite <- (rev_involutive a), RA; reflexivity).
        replace (letter :: QUOTE :: name ++ QUOTE :: (p ++ [d]) ++ 58 :: a) with ((letter :: QUOTE :: name ++ QUOTE :: (p ++ [d]) ++ 58 :: rev ra) ++ [z]) in E
          by (rewrite EA; repeat (cbn [app]; rewrite <- ?app_assoc); reflexivity).
        apply app_inj_tail in E as [_ <-]. apply TA with (rev ra). exact EA.
      * rewrite app_nil_r in E.
        replace (letter :: QUOTE :: name ++ QUOTE :: p ++ [d]) with ((letter :: QUOTE :: name ++ QUOTE :: p) ++ [d]) in E
          by (repeat (cbn [app]; rewrite <- ?app_assoc); reflexivity).
        apply app_inj_tail in E as [_ <-]. rewrite blank_eol. congruence.
  - apply NI; auto; try discriminate. destruct attr; [apply TA|exact I].
Qed.
Lemma name_line n : plain_name n -> split_line (lit "N""" ++ n ++ lit """") = Some [Some [78]; Some n] /\ ~ In NEWLINE (lit "N""" ++ n ++ lit """").
Proof.
  intros PN. destruct (plain_in _ PN) as (Q & P35 & P10).
  change (lit "N""" ++ n ++ lit """") with (78 :: QUOTE :: n ++ [QUOTE]). split.
  - apply split_name; auto. split.
    + intros [I|[I|I]]; try discriminate. apply in_app_or in I as [I|[I|[]]]; [contradiction|discriminate].
    + intros p c E. change (78 :: QUOTE :: n ++ [QUOTE]) with ((78 :: QUOTE :: n) ++ [QUOTE]) in E. apply app_inj_tail in E as [_ <-].
      unfold blank_char, QUOTE. lia.
  - intros [I|[I|I]]; try discriminate. apply in_app_or in I as [I|[I|[]]]; [contradiction|discriminate].
Qed.

(** ** Reading the lines *)

Lemma do_type W P cs D line n s attr D' : holds W P (cs, Some D) -> cs = NODE \/ cs = TYPE ->
  split_line line = Some [Some [84]; n; Some s; attr] -> declares_type D n s attr D' -> ~ In n (type_names D) ->
  exists W' P', process_line W P line = Ok (W', P') /\ holds W' P' (TYPE, Some D').
Proof.
  intros [HC HN] C SL DT NI. cbn [fst snd] in *. destruct (p_node P) as [nd|] eqn:PN; [|contradiction].
  destruct (apply_type_ok W nd D _ n s attr D' HN (decl_of (Some [84]) n s attr) DT NI) as (W' & nd' & E & S').
  exists W', (mk_parser TYPE (Some nd')). split; [|split; [reflexivity|exact S']].
  unfold process_line. rewrite SL, PN, HC. cbv zeta. destruct C as [-> | ->]; cbn [opt_eqb]; rewrite str_eqb_refl; unfold str in *; rewrite E; reflexivity.
Qed.
Lemma do_port (pr : bool) W P cs D line n s attr D' : holds W P (cs, Some D) -> cs <> START ->
  split_line line = Some [Some [if pr then 80 else 82]; n; Some s; attr] -> declares_port pr D n s attr D' ->
  exists W' P', process_line W P line = Ok (W', P') /\ holds W' P' (if pr then PROVIDE else REQUIRE, Some D').
Proof.
  intros [HC HN] C SL DP. cbn [fst snd] in *. destruct (p_node P) as [nd|] eqn:PN; [|contradiction].
  destruct (apply_port_ok pr W nd D _ n s attr D' HN (decl_of (Some [if pr then 80 else 82]) n s attr) DP) as (W' & nd' & E & S').
  exists W', (mk_parser (if pr then PROVIDE else REQUIRE) (Some nd')). split; [|split; [reflexivity|exact S']].
  unfold process_line. rewrite SL, PN, HC. cbv zeta. destruct cs; [contradiction| | | |]; destruct pr; cbn [opt_eqb];
    repeat (rewrite str_eqb_refl || (change (str_eqb [80] [84]) with false) || (change (str_eqb [82] [84]) with false) ||
            (change (str_eqb [82] [80]) with false) || (change (str_eqb [80] [82]) with false)); unfold str in *; rewrite E; reflexivity.
Qed.

Lemma reaches_firstn ts : (forall j t, nth_error ts j = Some t -> below j (td_elem t)) ->
  forall k a, reaches ts k a -> forall i, below i a -> reaches (firstn i ts) k a.
Proof.
  intros B k a R. induction R as [n a N|n nm j t E R IH]; intros i BL; [constructor; exact N|].
  inversion BL as [|n' j' J|]; subst. match goal with X : Z.of_nat _ = Z.of_nat _ |- _ => apply Nat2Z.inj in X; subst end.
  eapply rc_step; [rewrite nth_firstn by exact J; exact E|]. apply IH. eapply below_more; [|apply B; exact E]. lia.
Qed.

(** A line that declares type [t], given the types before it. *)
Definition type_line (pre : list tdef) (line : str) (t : tdef) : Prop :=
  exists s e, split_line line = Some [Some [84]; td_name t; Some s; td_attr t] /\ parse_signature s = Ok e /\
    refers (map td_name pre) e (td_elem t) /\ reaches pre 10 (td_elem t) /\ type_attr_ok (td_attr t) /\ ~ In (td_name t) (map td_name pre).
Lemma do_types nm ls : forall pre rest W P cs,
  length ls = length rest ->
  (forall i line t, nth_error ls i = Some line -> nth_error rest i = Some t -> type_line (pre ++ firstn i rest) line t) ->
  holds W P (cs, Some (mk_ndef nm pre [] [])) -> cs = NODE \/ cs = TYPE ->
  exists W' P' cs', process_lines W P ls = Ok (W', P') /\ holds W' P' (cs', Some (mk_ndef nm (pre ++ rest) [] [])) /\ cs' <> START.
Proof.
  induction ls as [|x ls IH]; intros pre rest W P cs LN F HS C.
  - destruct rest; [|discriminate]. rewrite app_nil_r. exists W, P, cs. split; [reflexivity|]. split; [exact HS|]. destruct C as [-> | ->]; discriminate.
  - destruct rest as [|t rest]; [discriminate|]. destruct (F O x t eq_refl eq_refl) as (s & e & SL & PS & RF & RC & TA & NI).
    cbn [firstn] in RF, RC, NI. rewrite app_nil_r in RF, RC, NI.
    destruct (do_type W P cs (mk_ndef nm pre [] []) x (td_name t) s (td_attr t) (plus_type (mk_ndef nm pre [] []) (mk_tdef (td_name t) (td_elem t) (td_attr t))) HS C SL) as (W1 & P1 & E1 & H1); auto.
    { eapply dy_new; eauto. }
    destruct (IH (pre ++ [t]) rest W1 P1 TYPE) as (W2 & P2 & cs2 & E2 & H2 & C2).
    + cbn in LN. lia.
    + intros i line u A B. rewrite <- app_assoc. apply (F (S i) line u A B).
    + destruct t. exact H1.
    + auto.
    + exists W2, P2, cs2. split; [cbn [process_lines]; rewrite E1; exact E2|]. rewrite <- app_assoc in H2. split; [exact H2|exact C2].
Qed.

(** A line that declares port [p]. *)
Definition port_line (pr : bool) (ts : list tdef) (line : str) (p : pdef) : Prop :=
  exists s attr, split_line line = Some [Some [if pr then 80 else 82]; pd_name p; Some s; attr] /\ port_attr_read attr (pd_attr p) /\
    ((exists e, parse_signature s = Ok e /\ is_ref e /\ refers (map td_name ts) e (pd_elem p) /\ reaches ts 10 (pd_elem p)) \/
     (parse_signature s = Ok (pd_elem p) /\ ~ is_ref (pd_elem p))).
Lemma declare_port_line (pr : bool) D line p : port_line pr (df_types D) line p ->
  exists s attr, split_line line = Some [Some [if pr then 80 else 82]; pd_name p; Some s; attr] /\ declares_port pr D (pd_name p) s attr (plus_port pr D p).
Proof.
  destruct p as [n a pa]. intros (s & attr & SL & PA & X). exists s, attr. split; [exact SL|]. cbn [pd_name pd_elem pd_attr] in *.
  destruct X as [(e & PS & IR & RF & RC)|[PS NR]]; [eapply dp_ref; eauto|eapply dp_own; eauto].
Qed.
Lemma do_ports (pr : bool) ls ps : forall D W P cs, Forall2 (port_line pr (df_types D)) ls ps ->
  holds W P (cs, Some D) -> cs <> START ->
  exists W' P' cs', process_lines W P ls = Ok (W', P') /\
    holds W' P' (cs', Some (if pr then mk_ndef (df_name D) (df_types D) (df_provide D ++ ps) (df_require D)
                            else mk_ndef (df_name D) (df_types D) (df_provide D) (df_require D ++ ps))) /\ cs' <> START.
Proof.
  revert ps. induction ls as [|x ls IH]; intros ps D W P cs F HS C; inversion F as [|? p ? ps' X F']; subst.
  - exists W, P, cs. split; [reflexivity|]. destruct D. rewrite !app_nil_r. destruct pr; auto.
  - destruct (declare_port_line _ _ _ _ X) as (s & attr & SL & DP).
    destruct (do_port pr W P cs D x _ s attr _ HS C SL DP) as (W1 & P1 & E1 & H1).
    destruct (IH ps' (plus_port pr D p) W1 P1 (if pr then PROVIDE else REQUIRE)) as (W2 & P2 & cs2 & E2 & H2 & C2); [destruct pr; exact F'|exact H1|destruct pr; discriminate|].
    exists W2, P2, cs2. split; [cbn [process_lines]; rewrite E1; exact E2|]. split; [|exact C2].
    destruct pr; cbn [plus_port df_name df_types df_provide df_require] in H2; rewrite <- app_assoc in H2; exact H2.
Qed.

Lemma process_app l1 l2 : forall W P, process_lines W P (l1 ++ l2) = do '(W, P) <- process_lines W P l1; process_lines W P l2.
Proof.
  induction l1 as [|x l1 IH]; intros W P; [reflexivity|]. cbn [app process_lines].
  destruct (process_line W P x) as [[W1 P1]|]; [|reflexivity]. cbn [bind]. apply IH.
Qed.

(** ** The lines that are written *)

Lemma findable_rep by_name W nd D : represents W nd D -> tagging W nd -> writable_def D -> findable by_name (w_types W) (n_types nd).
Proof.
  intros R TG WD i o E. destruct (Forall2_nth _ _ _ _ _ (rp_types _ _ _ R) E) as (t & T & (N & _)).
  apply nth_error_In in T. destruct (wd_types _ WD t T) as ((s & S1 & S2 & S3) & _). split; [exists s; rewrite N; auto|].
  right. destruct TG as [U|U]; [left; apply U; eapply nth_error_In; eauto|right; apply (U i o E)].
Qed.

Lemma type_written W nd D i o t : represents W nd D -> linked D -> tagging W nd -> writable_def D ->
  nth_error (n_types nd) i = Some o -> nth_error (df_types D) i = Some t ->
  exists line, type_string false (w_types W) (w_types W o) = Ok line /\ type_line (firstn i (df_types D)) line t /\ ~ In NEWLINE line.
Proof.
  intros R L TG WD O T. destruct (Forall2_nth _ _ _ _ _ (rp_types _ _ _ R) O) as (t' & T' & N & A & ST). rewrite T in T'. injection T' as <-.
  pose proof (nth_error_In _ _ T) as IT. destruct (wd_types _ WD t IT) as ((n & N1 & N2 & N3) & TD & TA).
  destruct (stands_text false _ _ _ (findable_rep _ _ _ _ R TG WD) (rep_names _ _ _ R) _ _ ST TD) as (PR & CL & RF).
  destruct (signature_read false _ _ PR) as (s & S1 & S2). destruct (elem_string_good _ _ _ CL _ S1) as [NB EW].
  unfold type_string. rewrite S1. cbn [bind]. 
  assert (dt_short (w_types W o) = None) as -> by (destruct TG as [U|U]; [apply U; eapply nth_error_In; eauto|apply (U i o O)]).
  rewrite N, N1, A. eexists. split; [reflexivity|].
  destruct (decl_line 84 n s (td_attr t) eq_refl (clean_plain _ N2) NB EW TA) as [SL NN]. split; [|exact NN].
  assert (nameless (dt_elem (w_types W o)) = dt_elem (w_types W o)) as NL.
  { pose proof (ln_plain _ L t IT) as X. pose proof (stands_name _ _ _ ST) as Y.
    destruct ST; cbn in *; congruence. }
  exists s, (described false (w_types W) (dt_elem (w_types W o))). rewrite SL, N1. split; [reflexivity|].
  split; [rewrite S2; f_equal; apply nameless_described, NL|].
  pose proof (ln_below _ L i t T) as BL.
  split; [rewrite <- firstn_map; apply RF, BL|]. split; [apply reaches_firstn; [apply L|apply (ln_ends _ L), IT|exact BL]|].
  split; [destruct (td_attr t) eqn:X; [eapply (ln_tattr _ L); eauto|exact I]|].
  rewrite <- N1. intros I. apply In_nth_error in I as [j J].
  assert (j < i)%nat as JI.
  { assert (nth_error (map td_name (firstn i (df_types D))) j <> None) as X by congruence. apply nth_error_Some in X.
    rewrite map_length, firstn_length in X. lia. }
  rewrite <- firstn_map, nth_firstn in J by exact JI.
  assert (nth_error (map td_name (df_types D)) i = Some (td_name t)) as K by (apply map_nth_error; exact T).
  assert (j = i) as X; [|lia]. pose proof (ln_names _ L) as ND. rewrite NoDup_nth_error in ND. apply ND; [|unfold type_names; congruence].
  apply nth_error_Some. unfold type_names. congruence.
Qed.

Lemma port_written normalized pr W nd D o p : represents W nd D -> linked D -> tagging W nd -> writable_def D ->
  In p (df_provide D ++ df_require D) -> port_is W (n_types nd) pr o p ->
  exists line, port_string normalized (w_types W) (w_ports W o) = Ok line /\ port_line pr (df_types D) line p /\ ~ In NEWLINE line.
Proof.
  intros R L TG WD IP (PP & N & A & PS). destruct (wd_ports _ WD p IP) as ((n & N1 & N2) & TA & T1 & T2).
  destruct (ln_ports _ L p IP) as (G1 & G2 & G3 & G4).
  assert (exists s, elem_string normalized (w_types W) (pt_elem (w_ports W o)) = Ok s /\ none bad s /\ ends_well s /\
    ((exists e, parse_signature s = Ok e /\ is_ref e /\ refers (map td_name (df_types D)) e (pd_elem p) /\ reaches (df_types D) 10 (pd_elem p)) \/
     (parse_signature s = Ok (pd_elem p) /\ ~ is_ref (pd_elem p)))) as (s & S1 & NB & EW & X).
  { inversion PS as [m r a ST E1 E2|e NR E1 E2]; subst.
    - assert (is_ref (pd_elem p)) as IR by (apply (stands_ref _ _ _ ST); exact I).
      destruct (stands_text normalized _ _ _ (findable_rep _ _ _ _ R TG WD) (rep_names _ _ _ R) _ _ ST (T1 IR)) as (PR & CL & RF).
      destruct (signature_read _ _ _ PR) as (s & S1 & S2). destruct (elem_string_good _ _ _ CL _ S1) as [NB EW].
      exists s. split; [exact S1|]. split; [exact NB|]. split; [exact EW|]. left.
      destruct (G1 IR) as [BL RC].
      assert (m = None) as ->.
      { inversion ST; subst; match goal with X : DRef _ _ = pd_elem p |- _ => rewrite <- X in G3 end; cbn in G3; congruence. }
      exists (described normalized (w_types W) (DRef None r)). split; [rewrite S2; f_equal; apply nameless_described; reflexivity|].
      split; [destruct r; exact I|]. split; [|exact RC].
      specialize (RF _ BL). unfold type_names in RF. rewrite firstn_map, firstn_all in RF. exact RF.
    - match goal with X : pt_elem _ = pd_elem p |- _ => rename X into PE | X : pd_elem p = pt_elem _ |- _ => symmetry in X; rename X into PE end.
      rewrite PE in *. destruct (own_text normalized (w_types W) _ (T2 NR)) as (PR & CL & DS).
      destruct (signature_read _ _ _ PR) as (s & S1 & S2). destruct (elem_string_good _ _ _ CL _ S1) as [NB EW].
      exists s. split; [exact S1|]. split; [exact NB|]. split; [exact EW|]. right. split; [|exact NR]. rewrite S2, DS, G3. reflexivity. }
  unfold port_string. rewrite S1. cbn [bind]. rewrite PP, N, N1, A. eexists. split; [reflexivity|].
  assert (match pd_attr p with Some a => Some (pa_str a) | None => None end = option_map pa_str (pd_attr p)) as -> by reflexivity.
  destruct (decl_line (if pr then 80 else 82) n s (option_map pa_str (pd_attr p)) ltac:(destruct pr; reflexivity) N2 NB EW TA) as [SL NN].
  split; [|exact NN]. exists s, (option_map pa_str (pd_attr p)). rewrite SL, N1. split; [reflexivity|]. split; [|exact X].
  destruct (pd_attr p) as [pa|] eqn:PA; cbn; [|reflexivity]. exists pa. split; [apply G4; reflexivity|reflexivity].
Qed.

(** ** The whole text *)

Lemma map_res_ok {A B} (f : A -> res B) (Q : nat -> A -> B -> Prop) l :
  (forall i x, nth_error l i = Some x -> exists y, f x = Ok y /\ Q i x y) ->
  exists ys, map_res f l = Ok ys /\ length ys = length l /\
    forall i x y, nth_error l i = Some x -> nth_error ys i = Some y -> Q i x y.
Proof.
  revert Q. induction l as [|x l IH]; intros Q F; [exists []; repeat split; intros [|i] x y E; discriminate|].
  destruct (F O x eq_refl) as (y & Y1 & Y2).
  destruct (IH (fun i => Q (S i))) as (ys & E & L & G); [intros i z Z; apply (F (S i) z Z)|].
  exists (y :: ys). cbn [map_res]. rewrite Y1, E. cbn [bind]. split; [reflexivity|]. split; [cbn; congruence|].
  intros [|i] a b A1 B1; [cbn in *; congruence|]. apply (G i a b A1 B1).
Qed.

Lemma lines_written normalized W nd D : represents W nd D -> linked D -> tagging W nd -> writable_def D ->
  exists n tls pls rls, df_name D = Some n /\ plain_name n /\
    lines normalized W nd = Ok ((lit "N""" ++ n ++ lit """") :: tls ++ pls ++ rls) /\
    length tls = length (df_types D) /\
    (forall i line t, nth_error tls i = Some line -> nth_error (df_types D) i = Some t -> type_line (firstn i (df_types D)) line t) /\
    Forall2 (port_line true (df_types D)) pls (df_provide D) /\ Forall2 (port_line false (df_types D)) rls (df_require D) /\
    Forall (fun line => ~ In NEWLINE line) (tls ++ pls ++ rls).
Proof.
  intros R L TG WD. destruct (wd_name _ WD) as (n & N1 & N2).
  destruct (map_res_ok (fun o => type_string false (w_types W) (w_types W o))
    (fun i o line => forall t, nth_error (df_types D) i = Some t -> type_line (firstn i (df_types D)) line t /\ ~ In NEWLINE line) (n_types nd)) as (tls & E1 & L1 & G1).
  { intros i o O. destruct (Forall2_nth _ _ _ _ _ (rp_types _ _ _ R) O) as (t & T & _).
    destruct (type_written W nd D i o t R L TG WD O T) as (line & X & Y). exists line. split; [exact X|]. intros t' T'. rewrite T in T'. injection T' as <-. exact Y. }
  assert (forall pr os ps, Forall2 (port_is W (n_types nd) pr) os ps -> (forall p, In p ps -> In p (df_provide D ++ df_require D)) ->
    exists ls, map_res (fun o => port_string normalized (w_types W) (w_ports W o)) os = Ok ls /\ Forall2 (port_line pr (df_types D)) ls ps /\
      Forall (fun line => ~ In NEWLINE line) ls) as PW.
  { intros pr os ps F. induction F as [|o p os ps X F IH]; intros I; [exists []; repeat split; constructor|].
    destruct (port_written normalized pr W nd D o p R L TG WD (I p (or_introl eq_refl)) X) as (line & A & B & C).
    destruct IH as (ls & A2 & B2 & C2); [intros q Q; apply I; right; exact Q|].
    exists (line :: ls). cbn [map_res]. rewrite A, A2. split; [reflexivity|]. split; constructor; auto. }
  destruct (PW true _ _ (rp_provide _ _ _ R)) as (pls & E2 & F2 & G2); [intros; apply in_or_app; auto|].
  destruct (PW false _ _ (rp_require _ _ _ R)) as (rls & E3 & F3 & G3); [intros; apply in_or_app; auto|].
  pose proof (Forall2_len _ _ _ (rp_types _ _ _ R)) as LT.
  exists n, tls, pls, rls. split; [exact N1|]. split; [exact N2|]. split.
  { unfold lines. rewrite E1, E2, E3. cbn [bind]. rewrite (rp_name _ _ _ R), N1. reflexivity. }
  split; [exact (eq_trans L1 LT)|]. split.
  { intros i line t A B. destruct (nth_error (n_types nd) i) as [o|] eqn:O; [apply (G1 i o line O A t B)|].
    apply nth_error_None in O. assert (nth_error (df_types D) i <> None) as X by congruence. apply nth_error_Some in X. lia. }
  split; [exact F2|]. split; [exact F3|]. apply Forall_app. split; [|apply Forall_app; auto].
  apply Forall_forall. intros line I. apply In_nth_error in I as [i I]. unfold str in *.
  assert (i < length (n_types nd))%nat as IL by (rewrite <- L1; apply nth_error_Some; intros X; rewrite X in I; discriminate I).
  destruct (nth_error (n_types nd) i) as [o|] eqn:O; [|apply nth_error_None in O; lia].
  destruct (nth_error (df_types D) i) as [t|] eqn:T; [|apply nth_error_None in T; rewrite <- LT in T; lia]. apply (G1 i o line O I t T).
Qed.

Lemma join_last sep : forall l x, l <> [] -> join sep (l ++ [x]) = join sep l ++ sep ++ x.
Proof.
  induction l as [|a l IH]; intros x NE; [congruence|]. destruct l as [|b l]; [reflexivity|].
  change (join sep ((a :: b :: l) ++ [x])) with (a ++ sep ++ join sep ((b :: l) ++ [x])). rewrite IH by discriminate.
  change (join sep (a :: b :: l)) with (a ++ sep ++ join sep (b :: l)). rewrite <- !app_assoc. reflexivity.
Qed.
Lemma not_in_none c (s : str) : ~ In c s -> none (fun x => x =? c) s.
Proof. intros N. apply Forall_forall. intros x I. destruct (x =? c) eqn:E; [|reflexivity]. apply Z.eqb_eq in E. subst. contradiction. Qed.

Lemma text_read n tls pls rls D W0 : df_name D = Some n -> plain_name n -> length tls = length (df_types D) ->
  (forall i line t, nth_error tls i = Some line -> nth_error (df_types D) i = Some t -> type_line (firstn i (df_types D)) line t) ->
  Forall2 (port_line true (df_types D)) pls (df_provide D) -> Forall2 (port_line false (df_types D)) rls (df_require D) ->
  Forall (fun line => ~ In NEWLINE line) (tls ++ pls ++ rls) ->
  exists W' nd', loads W0 (join [NEWLINE] (lit "APX/1.2" :: (lit "N""" ++ n ++ lit """") :: tls ++ pls ++ rls) ++ [NEWLINE]) = Ok (W', nd') /\ sound W' nd' D.
Proof.
  intros N1 N2 LT FT FP FR NN. destruct (name_line n N2) as [SN NLN].
  set (nl := lit "N""" ++ n ++ lit """") in *. clearbody nl.
  set (ls := lit "APX/1.2" :: nl :: tls ++ pls ++ rls).
  assert (split_on NEWLINE (join [NEWLINE] ls ++ [NEWLINE]) = ls ++ [[]]) as SP.
  { replace (join [NEWLINE] ls ++ [NEWLINE]) with (join [NEWLINE] (ls ++ [[]])) by (rewrite join_last by discriminate; reflexivity).
    apply split_join; [|discriminate]. apply Forall_app. split; [|repeat constructor]. unfold ls.
    constructor; [repeat constructor|]. constructor; [apply not_in_none, NLN|].
    eapply Forall_impl; [|exact NN]. intros a. apply not_in_none. }
  unfold loads, loads_with. rewrite SP. unfold ls.
  change (header_version (rstrip is_crlf (hd [] ((lit "APX/1.2" :: nl :: tls ++ pls ++ rls) ++ [[]])))) with (Some (49, 50)).
  cbn iota. cbn [bind tl app]. cbn [process_lines].
  assert (process_line W0 (mk_parser START None) nl = Ok (W0, mk_parser NODE (Some (new_node (Some n))))) as ->.
  { unfold process_line. rewrite SN. reflexivity. }
  cbn [bind]. rewrite <- !app_assoc, process_app.
  destruct (do_types (Some n) tls [] (df_types D) W0 (mk_parser NODE (Some (new_node (Some n)))) NODE LT FT) as (W1 & P1 & c1 & E1 & H1 & C1); auto.
  { split; [reflexivity|]. apply sound_empty. }
  rewrite E1. cbn [bind app] in *. rewrite process_app.
  destruct (do_ports true pls (df_provide D) (mk_ndef (Some n) (df_types D) [] []) _ _ _ FP H1 C1) as (W2 & P2 & c2 & E2 & H2 & C2). rewrite E2. cbn [bind]. rewrite process_app.
  cbn [df_name df_types df_provide df_require app] in H2.
  destruct (do_ports false rls (df_require D) (mk_ndef (Some n) (df_types D) (df_provide D) []) _ _ _ FR H2 C2) as (W3 & P3 & c3 & E3 & H3 & C3). rewrite E3. cbn [bind].
  cbn [df_name df_types df_provide df_require app] in H3.
  cbn [process_lines]. unfold process_line at 1. cbn [split_line rstrip strip_comment]. change (split_line []) with (@None (list (option str))). cbn iota. cbn [bind].
  destruct H3 as [_ H3]. cbn [snd] in H3. destruct (p_node P3) as [nd|]; [|contradiction].
  destruct (resolve_types_sound _ _ _ H3) as (W4 & -> & S4 & _). cbn [bind]. exists W4, nd. split; [reflexivity|].
  replace D with (mk_ndef (Some n) (df_types D) (df_provide D) (df_require D)) by (destruct D; cbn in *; congruence). exact S4.
Qed.
