(** Lemmas about the definition language parser. *)
From Coq Require Import ZifyBool ZifyNat Lia.
From Verif Require Import Py PyLemmas TypesModel TextModel SigModel AttrModel NodeModel ParserModel.
From Verif Require Import SigSpec NodeSpec ParserSpec TextProofs SigProofs NodeProofs ElemTextProofs.
Ltac Zify.zify_post_hook ::= Z.div_mod_to_equations.

(** ** Declarations *)

(** A node while it is being read. *)
Definition sound (W : world) (nd : node) (D : ndef) : Prop :=
  represents W nd D /\ linked D /\ numbered W nd /\ untagged W nd.

Lemma sound_new_type W nd D d : sound W nd D -> sound (fst (new_type W d)) nd D.
Proof.
  intros (R & L & N & U). assert (forall o, In o (n_types nd) -> w_types (fst (new_type W d)) o = w_types W o) as X.
  { intros o O. cbn. apply upd_other. apply (rp_tbelow _ _ _ R) in O. lia. }
  split; [|split; [exact L|split; [exact N|]]].
  - eapply rep_frame; eauto; cbn; auto.
  - intros o O. rewrite X by exact O. auto.
Qed.
Lemma sound_new_port W nd D p : sound W nd D -> sound (fst (new_port W p)) nd D.
Proof.
  intros (R & L & N & U). assert (forall o, In o (n_provide nd ++ n_require nd) -> w_ports (fst (new_port W p)) o = w_ports W o) as X.
  { intros o O. cbn. apply upd_other. apply (rp_pbelow _ _ _ R) in O. lia. }
  split; [|split; [exact L|split; [|exact U]]].
  - eapply rep_frame; eauto; cbn; auto.
  - destruct N as [N1 N2]. split; intros i o O; rewrite X by (apply in_or_app; apply nth_error_In in O; auto); auto.
Qed.

Lemma apply_type_step W nd D parts n s attr W' nd' : sound W nd D -> decl parts = Ok (n, s, attr) ->
  apply_type W nd parts = Ok (W', nd') -> exists D', declares_type D n s attr D' /\ sound W' nd' D'.
Proof.
  intros S0 DC E. unfold apply_type in E. rewrite DC in E. cbn [bind] in E. inv_bind E.
  destruct (make_type_inv _ _ _ _ Ha) as (e & P & TA & ->). 
  pose proof (sound_new_type W nd D (mk_dtype n e attr None None) S0) as S1.
  destruct (new_type W (mk_dtype n e attr None None)) as [W1 o] eqn:NT. cbn [fst] in S1. destruct S1 as (R & L & N & U).
  inv_bind E. destruct a as [[W2 nd2] o2]. invc E.
  assert (w_types W1 o = mk_dtype n e attr None None /\ (o < w_ntypes W1)%nat /\ ~ In o (n_types nd)) as (HO & OB & ON).
  { unfold new_type in NT. invc NT. cbn. rewrite upd_same. split; [reflexivity|]. split; [lia|].
    intros I. destruct S0 as (R0 & _). apply (rp_tbelow _ _ _ R0) in I. lia. }
  destruct (add_type_step W1 nd D o W' nd' o2 R L OB ON) as [(I & -> & -> & IT & NT2 & VE)|(a & e' & NI & RF & RC & -> & W2 & ND & R2)].
  - rewrite HO. apply parse_signature_inv with s. exact P.
  - exact Ha0.
  - rewrite HO in I, NT2, VE. cbn [dt_name] in *. exists D. split; [|exact (conj R (conj L (conj N U)))].
    apply In_nth_error in IT as [i IT]. destruct (Forall2_nth _ _ _ _ _ (rp_types _ _ _ R) IT) as (t & T & TN & TAT & ST).
    pose proof (nth_error_In _ _ T) as InT. eapply dy_again with (t := t); eauto; [congruence|]. intros TD TT. rewrite <- TAT.
    destruct (TT t InT) as [_ TF]. assert (length (type_names D) = length (df_types D)) as LD by apply map_length.
    refine (same_type_said _ _ _ o2 (mk_dtype n e attr None None) _ _ (rep_names _ _ _ R) ST TF _ _ TD _ _ eq_refl _ VE).
    + intros j x X. destruct (Forall2_nth _ _ _ _ _ (rp_types _ _ _ R) X) as (u & UU & UN & _). apply nth_error_In in UU.
      destruct (TT u UU) as [(m & M1 & M2 & M3) _]. split; [exists m; rewrite UN; auto|]. left. reflexivity.
    + rewrite LD. eapply below_more; [|eapply (ln_below _ L); eauto]. assert (i < length (df_types D))%nat; [apply nth_error_Some; congruence|lia].
    + apply (ln_plain _ L); auto.
    + eapply parse_nameless; eauto.
    + apply U. eapply nth_error_In; eauto.
    + exact NT2.
  - rewrite HO in *. cbn [dt_name dt_elem dt_attr] in *. exists (plus_type D (mk_tdef n a attr)). split; [eapply dy_new; eauto|].
    split; [exact R2|]. split; [eapply linked_plus_type; eauto; eapply parse_nameless; eauto|]. subst. split; [exact N|].
    intros x X. cbn [n_types] in X. cbn [set_type w_types]. apply in_app_or in X as [X|[<- | []]].
    + rewrite upd_other by congruence. apply U, X.
    + rewrite upd_same. split; reflexivity.
Qed.

Lemma port_found_good D n e a attr pa : linked D -> nameless e = e -> as_parsed e -> port_found D e a -> port_attr_read attr pa -> good_port D (mk_pdef n a pa).
Proof.
  intros L NE AP F PA. assert (forall x, pa = Some x -> parse_port_attr (pa_str x) = Ok x) as PX.
  { intros x ->. destruct attr as [t|]; [|discriminate PA]. destruct PA as (v & V & X). invc X. rewrite (parse_port_attr_str _ _ V). exact V. }
  destruct F as [(IR & RF & RC)|[NR ->]]; unfold good_port; cbn [pd_elem pd_attr].
  - assert (is_ref a) as IA by (apply (refers_ref _ _ _ RF), IR). split; [|split; [intros X; contradiction|split; [eapply refers_nameless; eauto|exact PX]]].
    intros _. split; [|exact RC]. replace (length (df_types D)) with (length (type_names D)) by apply map_length. eapply refers_below; eauto.
  - split; [intros X; contradiction|]. split; [auto|]. split; [exact NE|exact PX].
Qed.

Lemma apply_port_step pr W nd D parts n s attr W' nd' : sound W nd D -> decl parts = Ok (n, s, attr) ->
  apply_port pr W nd parts = Ok (W', nd') -> exists D', declares_port pr D n s attr D' /\ sound W' nd' D'.
Proof.
  intros S0 DC E. unfold apply_port in E. rewrite DC in E. cbn [bind] in E. inv_bind E.
  destruct (make_port_inv _ _ _ _ _ Ha) as (e & pa & P & PA & ->).
  pose proof (sound_new_port W nd D (mk_port pr n e pa None) S0) as S1.
  destruct (new_port W (mk_port pr n e pa None)) as [W1 o] eqn:NT. cbn [fst] in S1. destruct S1 as (R & L & N & U).
  assert (w_ports W1 o = mk_port pr n e pa None /\ (o < w_nports W1)%nat /\ ~ In o (n_provide nd ++ n_require nd)) as (HO & OB & ON).
  { unfold new_port in NT. invc NT. cbn. rewrite upd_same. split; [reflexivity|]. split; [lia|].
    intros I. destruct S0 as (R0 & _). apply (rp_pbelow _ _ _ R0) in I. lia. }
  assert (as_parsed e) as AP by (apply parse_signature_inv with s; exact P).
  destruct (add_port_step W1 nd D o W' nd' R OB ON) as (a & e' & F & ND & W2 & R2).
  - rewrite HO. exact AP.
  - exact E.
  - rewrite HO in *. cbn [pt_elem pt_provide pt_name pt_attr] in *. exists (plus_port pr D (mk_pdef n a pa)). split.
    + destruct F as [(IR & RF & RC)|[NR ->]]; [eapply dp_ref; eauto|apply dp_own; auto].
    + split; [exact R2|]. split; [apply linked_plus_port; auto; eapply port_found_good; eauto; eapply parse_nameless; eauto|].
      subst. split; [|destruct pr; exact U].
      match goal with |- numbered (set_port _ _ ?q) _ => pose proof (numbered_add W1 nd o q N ON) as X end. apply X. reflexivity.
Qed.

Lemma apply_type_ok W nd D parts n s attr D' : sound W nd D -> decl parts = Ok (n, s, attr) ->
  declares_type D n s attr D' -> ~ In n (type_names D) -> exists W' nd', apply_type W nd parts = Ok (W', nd') /\ sound W' nd' D'.
Proof.
  intros S0 DC DT NI. assert (forall t, In t (df_types D) -> td_name t <> n) as NX by (intros t I <-; apply NI; apply in_map; exact I).
  destruct DT as [e a P TA _ RF RC|? t ? ? IT E]; [|destruct (NX t IT E)].
  assert (make_type n s attr = Ok (mk_dtype n e attr None None)) as MT.
  { unfold make_type. rewrite P. cbn [bind]. destruct attr as [t|]; [|reflexivity]. destruct TA as [v V]. rewrite V. reflexivity. }
  assert (exists W' nd', apply_type W nd parts = Ok (W', nd')) as (W' & nd' & E).
  { unfold apply_type. rewrite DC. cbn [bind]. rewrite MT. cbn [bind].
    pose proof (sound_new_type W nd D (mk_dtype n e attr None None) S0) as S1.
    destruct (new_type W (mk_dtype n e attr None None)) as [W1 o] eqn:NT. cbn [fst] in S1. destruct S1 as (R & L & _).
    assert (w_types W1 o = mk_dtype n e attr None None) as HO by (unfold new_type in NT; invc NT; cbn; apply upd_same).
    destruct (add_type_ok W1 nd D o a R L) as (W' & nd' & ->); rewrite ?HO; auto. cbn [bind]. eauto. }
  exists W', nd'. split; [exact E|]. destruct (apply_type_step _ _ _ _ _ _ _ _ _ S0 DC E) as (D2 & DT & S2).
  destruct DT as [e2 a2 P2 _ _ RF2 _|? t ? ? IT E3]; [|destruct (NX t IT E3)]. rewrite P in P2. invc P2.
  destruct S0 as (_ & L & _). rewrite (refers_fun _ (ln_names _ L) _ _ RF _ RF2). exact S2.
Qed.

Lemma apply_port_ok pr W nd D parts n s attr D' : sound W nd D -> decl parts = Ok (n, s, attr) ->
  declares_port pr D n s attr D' -> exists W' nd', apply_port pr W nd parts = Ok (W', nd') /\ sound W' nd' D'.
Proof.
  intros S0 DC DP.
  assert (exists e a pa, parse_signature s = Ok e /\ port_attr_read attr pa /\ port_found D e a /\ D' = plus_port pr D (mk_pdef n a pa)) as (e & a & pa & P & PA & F & ->).
  { destruct DP as [e a pa P PA IR RF RC|e pa P PA NR]; [exists e, a, pa|exists e, e, pa]; repeat split; auto; [left|right]; auto. }
  assert (make_port pr n s attr = Ok (mk_port pr n e pa None)) as MP.
  { unfold make_port. rewrite P. cbn [bind]. destruct attr as [t|]; [|rewrite PA; reflexivity]. destruct PA as (v & V & ->). rewrite V. reflexivity. }
  assert (exists W' nd', apply_port pr W nd parts = Ok (W', nd')) as (W' & nd' & E).
  { unfold apply_port. rewrite DC. cbn [bind]. rewrite MP. cbn [bind].
    pose proof (sound_new_port W nd D (mk_port pr n e pa None) S0) as S1.
    destruct (new_port W (mk_port pr n e pa None)) as [W1 o] eqn:NT. cbn [fst] in S1. destruct S1 as (R & L & _).
    assert (w_ports W1 o = mk_port pr n e pa None) as HO by (unfold new_port in NT; invc NT; cbn; apply upd_same).
    destruct (add_port_ok W1 nd D o a R L) as (W' & nd' & ->); rewrite ?HO; auto. eauto. }
  exists W', nd'. split; [exact E|]. destruct (apply_port_step _ _ _ _ _ _ _ _ _ _ S0 DC E) as (D2 & DP2 & S2).
  destruct S0 as (_ & L & _).
  assert (forall pa2, port_attr_read attr pa2 -> pa2 = pa) as PX.
  { intros pa2 X. destruct attr as [t|]; [|rewrite X, PA; reflexivity]. destruct X as (v & V & ->), PA as (v2 & V2 & ->). congruence. }
  destruct DP2 as [e2 a2 pa2 P2 PA2 IR2 RF2 RC2|e2 pa2 P2 PA2 NR2]; rewrite P in P2; invc P2; apply PX in PA2; subst pa2.
  - destruct F as [(_ & RF & _)|[NR _]]; [|contradiction]. rewrite (refers_fun _ (ln_names _ L) _ _ RF _ RF2). exact S2.
  - destruct F as [(IR & _)|[_ ->]]; [contradiction|]. exact S2.
Qed.

(** ** Lines *)

Lemma strip_free s : ~ In 35 s -> strip_comment false s = s.
Proof.
  induction s as [|c s IH]; intros N; [reflexivity|]. cbn [strip_comment]. cbn [In] in N.
  rewrite IH by tauto. destruct (c =? 10); [reflexivity|]. replace (c =? 35) with false by lia. reflexivity.
Qed.
Lemma strip_in s : ~ In 10 s -> strip_comment true s = [].
Proof.
  induction s as [|c s IH]; intros N; [reflexivity|]. cbn [strip_comment]. cbn [In] in N.
  rewrite IH by tauto. replace (c =? 10) with false by lia. reflexivity.
Qed.
Lemma strip_app a b : ~ In 35 a -> strip_comment false (a ++ b) = a ++ strip_comment false b.
Proof.
  induction a as [|c a IH]; intros N; [reflexivity|]. cbn [strip_comment app]. cbn [In] in N.
  rewrite IH by tauto. destruct (c =? 10); [reflexivity|]. replace (c =? 35) with false by lia. reflexivity.
Qed.
Lemma blank_eol c : blank_char c <-> is_eol c = true.
Proof. unfold blank_char, is_eol. lia. Qed.
Lemma trailing_strip t : trailing t -> all is_eol (strip_comment false t).
Proof.
  intros (b & c & -> & B & C). rewrite strip_app.
  - apply all_app. split; [eapply Forall_impl; [|exact B]; intros x; apply blank_eol|].
    destruct C as [-> |(x & -> & X)]; [constructor|]. cbn [strip_comment]. rewrite Z.eqb_refl. change (35 =? 10) with false. cbn [orb].
    cbn iota. rewrite strip_in by exact X. constructor.
  - intros I. rewrite Forall_forall in B. apply B in I. unfold blank_char in I. lia.
Qed.
Lemma body_stops b : body_text b -> stops is_eol (rev b).
Proof.
  intros [_ L]. destruct (rev b) as [|c r] eqn:E; [exact I|]. cbn [stops]. destruct (is_eol c) eqn:X; [|reflexivity].
  apply blank_eol in X. exfalso. apply (L (rev r) c); [|exact X]. rewrite <- (rev_involutive b), E. reflexivity.
Qed.
Lemma body_trim b t : body_text b -> trailing t -> rstrip is_eol (strip_comment false (b ++ t)) = b.
Proof. intros B T. rewrite strip_app by apply B. apply rstrip_app; [apply trailing_strip, T|apply body_stops, B]. Qed.
Lemma split_line_body b t : body_text b -> trailing t -> split_line (b ++ t) = split_line b.
Proof.
  intros B T. assert (trailing []) as T0 by (exists [], []; repeat split; auto).
  pose proof (body_trim b [] B T0) as X. rewrite app_nil_r in X. unfold split_line. rewrite body_trim, X by auto. reflexivity.
Qed.
Lemma split_line_trailing t : trailing t -> split_line t = None.
Proof.
  intros T. assert (body_text []) as B0. { split; [auto|]. intros p c E. destruct p; discriminate. }
  rewrite <- (app_nil_l t). rewrite split_line_body by auto. reflexivity.
Qed.

Lemma split_decl letter name sig attr : is_linetype letter = true -> quoteless name -> ~ In 58 sig -> sig <> [] ->
  body_text (decl_text letter name sig attr) ->
  split_line (decl_text letter name sig attr) = Some [Some [letter]; Some name; Some sig; attr].
Proof.
  intros LT Q NC NE B. unfold split_line. pose proof (body_trim _ [] B) as X. rewrite app_nil_r in X. rewrite X; [|exists [], []; repeat split; auto].
  unfold decl_text. rewrite LT. cbn [take_while drop_while]. rewrite LT. change (is_linetype QUOTE) with false. cbn iota.
  change (QUOTE :: name ++ QUOTE :: ?r) with ([QUOTE] ++ name ++ [QUOTE] ++ r).
  rewrite (parse_str_quoted name) by (apply quoteless_none; exact Q).
  assert (all (fun c => negb (c =? 58)) sig) as A.
  { apply Forall_forall. intros c I. assert (c <> 58) by congruence. lia. }
  assert (stops (fun c => negb (c =? 58)) (match attr with Some a => 58 :: a | None => [] end)) as S1 by (destruct attr; reflexivity || exact I).
  destruct (sig ++ match attr with Some a => 58 :: a | None => [] end) as [|c r] eqn:E; [destruct sig; [congruence|discriminate]|].
  rewrite <- E, take_while_app, drop_while_app by auto. destruct attr; reflexivity.
Qed.
Lemma split_name letter name : is_linetype letter = true -> quoteless name -> body_text (letter :: QUOTE :: name ++ [QUOTE]) ->
  split_line (letter :: QUOTE :: name ++ [QUOTE]) = Some [Some [letter]; Some name].
Proof.
  intros LT Q B. unfold split_line. pose proof (body_trim _ [] B) as X. rewrite app_nil_r in X. rewrite X; [|exists [], []; repeat split; auto].
  rewrite LT. cbn [take_while drop_while]. rewrite LT. change (is_linetype QUOTE) with false. cbn iota.
  pose proof (parse_str_quoted name [] (quoteless_none _ Q)) as P. cbn [app] in P. rewrite P. reflexivity.
Qed.

(** ** Lines and their parts *)

Lemma letter_bool c : is_linetype c = true <-> line_letter c.
Proof. unfold is_linetype, line_letter. lia. Qed.

Lemma name_part_of s n rest : name_part s n rest <-> parse_str s = (n, rest).
Proof.
  split.
  - intros [n' r Q|m Q| |c r C].
    + apply (parse_str_quoted n' r). apply quoteless_none, Q.
    + unfold parse_str, match_pair. rewrite Z.eqb_refl.
      assert (forall acc, pair_loop QUOTE QUOTE 1 acc m = None) as ->; [|reflexivity].
      apply quoteless_none in Q. induction Q as [|c m C Q IH]; intros acc; [reflexivity|]. cbn [pair_loop]. rewrite C. apply IH.
    + reflexivity.
    + unfold parse_str, match_pair. apply Z.eqb_neq in C. rewrite C. reflexivity.
  - destruct n as [n|]; intros E.
    + apply parse_str_inv in E as [-> N]. apply np_name. apply none_quoteless, N.
    + unfold parse_str, match_pair in E. destruct s as [|c s]; [injection E as <-; constructor|].
      destruct (c =? QUOTE) eqn:C; [|injection E as <-; apply np_none; apply Z.eqb_neq, C].
      apply Z.eqb_eq in C. subst c. destruct (pair_loop QUOTE QUOTE 1 [] s) as [[i r]|] eqn:PL; [discriminate|]. injection E as <-. apply np_open.
      revert PL. generalize (@nil Z) as acc. clear. induction s as [|c s IH]; intros acc PL; [intros []|]. cbn [pair_loop] in PL.
      destruct (c =? QUOTE) eqn:C; [discriminate|]. intros [I|I]; [lia|]. exact (IH _ PL I).
Qed.

Lemma all_sig s : all (fun c => negb (c =? 58)) s <-> ~ In 58 s.
Proof.
  unfold all. rewrite Forall_forall. split; intros H.
  - intros I. apply H in I. discriminate.
  - intros c I. assert (c <> 58) by congruence. lia.
Qed.
Lemma rest_part_of rest : rest_part rest
  match rest with
  | [] => []
  | _ :: _ =>
    let dsg := take_while (fun c => negb (c =? 58)) rest in
    match drop_while (fun c => negb (c =? 58)) rest with
    | [] => [Some dsg; None]
    | _ :: r => [Some dsg; Some r]
    end
  end.
Proof.
  destruct rest as [|c r]; [constructor|]. cbv zeta. set (s := c :: r).
  pose proof (take_drop (fun c => negb (c =? 58)) s) as TD. pose proof (take_while_is (fun c => negb (c =? 58)) s) as TI.
  pose proof (drop_while_is (fun c => negb (c =? 58)) s) as DI. apply all_sig in TI.
  destruct (drop_while (fun c => negb (c =? 58)) s) as [|d m].
  - rewrite app_nil_r in TD. rewrite TD in *. apply rp_sig; [discriminate|exact TI].
  - rewrite <- TD at 1. cbn in DI. assert (d = 58) as -> by lia. apply rp_attr. exact TI.
Qed.
Lemma rest_part_is rest ps : rest_part rest ps -> ps =
  match rest with
  | [] => []
  | _ :: _ =>
    let dsg := take_while (fun c => negb (c =? 58)) rest in
    match drop_while (fun c => negb (c =? 58)) rest with
    | [] => [Some dsg; None]
    | _ :: r => [Some dsg; Some r]
    end
  end.
Proof.
  intros [|s NE N|s a N]; [reflexivity| |].
  - apply all_sig in N. destruct s as [|c r]; [congruence|]. cbv zeta. rewrite take_while_all, drop_while_all by exact N. reflexivity.
  - apply all_sig in N. destruct (s ++ 58 :: a) as [|c r] eqn:E; [destruct s; discriminate|]. cbv zeta. rewrite <- E.
    rewrite take_while_app, drop_while_app by (auto; reflexivity). reflexivity.
Qed.

Lemma line_says_split line p : line_says line p -> split_line line = p.
Proof.
  intros [t T|c r t B T L|k more t n rest ps NE K M B T NP RP].
  - apply split_line_trailing, T.
  - unfold split_line. rewrite body_trim by auto. destruct (is_linetype c) eqn:E; [|reflexivity]. apply letter_bool in E. contradiction.
  - unfold split_line. rewrite body_trim by auto. destruct k as [|c k]; [congruence|]. cbn [app]. 
    assert (all is_linetype (c :: k)) as A by (eapply Forall_impl; [|exact K]; intros x; apply letter_bool).
    assert (stops is_linetype more) as S1.
    { destruct more as [|d m]; [exact I|]. cbn. destruct (is_linetype d) eqn:E; [|reflexivity]. apply letter_bool in E. destruct (M d m eq_refl E). }
    inversion A as [|? ? CL _]; subst. rewrite CL. change (c :: k ++ more) with ((c :: k) ++ more).
    rewrite take_while_app, drop_while_app by auto. apply name_part_of in NP. rewrite NP. apply rest_part_is in RP. subst ps.
    destruct rest as [|d m]; [reflexivity|]. cbv zeta. destruct (drop_while _ (d :: m)); reflexivity.
Qed.

Lemma line_body line : ~ In 10 line -> exists t, line = rstrip is_eol (strip_comment false line) ++ t /\ trailing t /\
  body_text (rstrip is_eol (strip_comment false line)).
Proof.
  intros N10. assert (exists c, line = strip_comment false line ++ c /\ (c = [] \/ exists m, c = 35 :: m /\ ~ In 10 m) /\ ~ In 35 (strip_comment false line)) as (c & E & C & N35).
  { revert N10. clear. induction line as [|x line IH]; intros N; [exists []; cbn; auto|]. cbn [In] in N.
    destruct (IH ltac:(tauto)) as (c & E & C & M). cbn [strip_comment]. replace (x =? 10) with false by lia. destruct (x =? 35) eqn:X.
    - apply Z.eqb_eq in X. subst x. exists (35 :: line). rewrite strip_in by tauto. split; [reflexivity|]. split; [right; exists line; tauto|intros []].
    - exists c. cbn [app]. split; [congruence|]. split; [exact C|]. intros [I|I]; [lia|contradiction]. }
  destruct (rstrip_split is_eol (strip_comment false line)) as (b & E2 & B). exists (b ++ c). split; [|split].
  - rewrite app_assoc, <- E2. exact E.
  - exists b, c. split; [reflexivity|]. split; [eapply Forall_impl; [|exact B]; intros x; apply blank_eol|exact C].
  - split.
    + intros I. apply N35. rewrite E2. apply in_or_app. auto.
    + intros p x X. pose proof (rstrip_is is_eol (strip_comment false line)) as S1. rewrite X in S1. rewrite rev_app_distr in S1.
      cbn in S1. rewrite blank_eol. congruence.
Qed.
Lemma split_says line : ~ In 10 line -> line_says line (split_line line).
Proof.
  intros N10. destruct (line_body line N10) as (t & E & T & B). unfold split_line. set (b := rstrip is_eol (strip_comment false line)) in *. clearbody b.
  rewrite E at 1. clear E. destruct b as [|c r]; [constructor; exact T|].
  destruct (is_linetype c) eqn:LT; [|apply ly_other; auto; rewrite <- letter_bool; congruence].
  destruct (parse_str (drop_while is_linetype (c :: r))) as [n rest] eqn:PS. apply name_part_of in PS.
  pose proof (rest_part_of rest) as RP. pose proof (take_drop is_linetype (c :: r)) as TD.
  pose proof (take_while_is is_linetype (c :: r)) as TI. pose proof (drop_while_is is_linetype (c :: r)) as DI.
  assert (take_while is_linetype (c :: r) <> []) as NE by (cbn [take_while]; rewrite LT; discriminate).
  cbv zeta in *. set (k := take_while is_linetype (c :: r)) in *. set (more := drop_while is_linetype (c :: r)) in *. clearbody k more.
  rewrite <- TD in *. 
  match goal with |- line_says _ ?p => replace p with (Some (Some k :: n :: match rest with
    | [] => []
    | _ :: _ => match drop_while (fun c => negb (c =? 58)) rest with
                | [] => [Some (take_while (fun c => negb (c =? 58)) rest); None]
                | _ :: r => [Some (take_while (fun c => negb (c =? 58)) rest); Some r] end end)) end.
  - eapply ly_parts; eauto.
    + eapply Forall_impl; [|exact TI]. intros x. apply letter_bool.
    + intros d m ->. cbn in DI. rewrite <- letter_bool. congruence.
  - destruct rest as [|d m]; [reflexivity|]. destruct (drop_while _ (d :: m)); reflexivity.
Qed.

(** ** Whole texts *)

Lemma split_line_shape line parts : split_line line = Some parts ->
  (exists k n, parts = [k; n]) \/ (exists k n s a, parts = [k; n; Some s; a]).
Proof.
  unfold split_line. destruct (rstrip is_eol (strip_comment false line)) as [|c r]; [discriminate|]. intros E.
  destruct (is_linetype c); [|invc E; left; eauto].
  destruct (parse_str (drop_while is_linetype (c :: r))) as [n [|d m]]; [invc E; left; eauto|].
  destruct (drop_while (fun c0 => negb (c0 =? 58)) (d :: m)); invc E; right; eauto 6.
Qed.
Lemma decl_inv parts n s a : decl parts = Ok (n, s, a) -> forall line, split_line line = Some parts -> exists k, parts = [k; n; Some s; a].
Proof.
  intros E line SL. destruct (split_line_shape _ _ SL) as [(k & m & ->)|(k & m & t & b & ->)].
  - exfalso. unfold decl in E. inv_bind E. inv_bind E. unfold part in Ha0. vm_compute in Ha0. discriminate.
  - vm_compute in E. invc E. eauto.
Qed.
Lemma decl_of k n s a : decl [k; n; Some s; a] = Ok (n, s, a).
Proof. reflexivity. Qed.

Definition holds (W : world) (P : parser) (st : section * option ndef) : Prop :=
  p_cs P = fst st /\
  match p_node P, snd st with
  | Some nd, Some D => sound W nd D
  | None, None => p_cs P = START
  | _, _ => False
  end.

Lemma sound_empty W n : sound W (new_node n) (mk_ndef n [] [] []).
Proof.
  split; [|split; [|split]].
  - constructor; cbn; auto; try constructor; try contradiction; try discriminate.
    + intros (i & I & _). destruct i; discriminate.
  - constructor; cbn; try contradiction; [constructor|]. intros i t E. destruct i; discriminate.
  - split; intros i o E; destruct i; discriminate.
  - intros o [].
Qed.

Lemma is_key t (c : Z) : opt_eqb t (Some [c]) = true <-> t = Some [c].
Proof. apply opt_eqb_eq. Qed.

Lemma apply_type_parts W nd parts W' nd' : apply_type W nd parts = Ok (W', nd') -> exists n s a, decl parts = Ok (n, s, a).
Proof. unfold apply_type. intros E. inv_bind E. destruct a as [[n s] a]. eauto. Qed.
Lemma apply_port_parts pr W nd parts W' nd' : apply_port pr W nd parts = Ok (W', nd') -> exists n s a, decl parts = Ok (n, s, a).
Proof. unfold apply_port. intros E. inv_bind E. destruct a as [[n s] a]. eauto. Qed.

Lemma line_sound W P st line W' P' : ~ In 10 line -> holds W P st -> process_line W P line = Ok (W', P') ->
  exists st', reads_line st line st' /\ holds W' P' st'.
Proof.
  intros N10. pose proof (split_says line N10) as SY. revert SY.
  destruct st as [cs oD]. intros SY [HC HN] E. unfold process_line in E. cbn [fst snd] in *.
  destruct (split_line line) as [parts|] eqn:SL; [|invc E; exists (p_cs P', oD); split; [apply rd_blank; exact SY|split; auto]].
  set (t := match parts with t :: _ => t | [] => None end) in *.
  assert (exists n more, parts = t :: n :: more) as (n0 & more & PS).
  { destruct (split_line_shape _ _ SL) as [(k & m & ->)|(k & m & s & b & ->)]; subst t; eauto. }
  clearbody t.
  assert (forall nd D, sound W nd D -> cs = NODE \/ cs = TYPE -> oD = Some D -> opt_eqb t (Some [84]) = true ->
    (do '(W, nd) <- apply_type W nd parts; Ok (W, mk_parser TYPE (Some nd))) = Ok (W', P') ->
    exists st', reads_line (cs, oD) line st' /\ holds W' P' st') as AT.
  { intros nd D S0 C -> K X. apply is_key in K. inv_bind X. destruct a as [W2 nd2]. injection X as -> <-.
    destruct (apply_type_parts _ _ _ _ _ Ha) as (n & s & a & DC). destruct (decl_inv _ _ _ _ DC _ SL) as (k & PP).
    destruct (apply_type_step _ _ _ _ _ _ _ _ _ S0 DC Ha) as (D' & DT & S2). exists (TYPE, Some D'). split; [|split; [reflexivity|exact S2]].
    assert (k = t) as KT by (rewrite PP in PS; injection PS as -> _; reflexivity).
    eapply rd_type; [exact C| |exact DT]. rewrite PP, KT, K in SY. exact SY. }
  assert (forall (pr : bool) nd D, sound W nd D -> cs <> START -> oD = Some D -> opt_eqb t (Some (if pr : bool then [80] else [82])) = true ->
    (do '(W, nd) <- apply_port pr W nd parts; Ok (W, mk_parser (if pr then PROVIDE else REQUIRE) (Some nd))) = Ok (W', P') ->
    exists st', reads_line (cs, oD) line st' /\ holds W' P' st') as APo.
  { intros pr nd D S0 C -> K X. apply opt_eqb_eq in K. inv_bind X. destruct a as [W2 nd2]. injection X as -> <-.
    destruct (apply_port_parts _ _ _ _ _ _ Ha) as (n & s & a & DC). destruct (decl_inv _ _ _ _ DC _ SL) as (k & PP).
    destruct (apply_port_step _ _ _ _ _ _ _ _ _ _ S0 DC Ha) as (D' & DT & S2). exists (if pr then PROVIDE else REQUIRE, Some D').
    split; [|split; [reflexivity|exact S2]]. assert (k = t) as KT by (rewrite PP in PS; injection PS as -> _; reflexivity).
    rewrite PP, KT, K in SY. destruct pr; [eapply rd_provide|eapply rd_require]; eauto. }
  destruct (p_cs P) eqn:CS; subst cs.
  - (* START *) destruct (opt_eqb t (Some [78])) eqn:K; [|discriminate]. apply is_key in K. inv_bind E. injection E as <- <-.
    exists (NODE, Some (mk_ndef a [] [] [])). split; [|split; [reflexivity|apply sound_empty]].
    rewrite PS in Ha. cbn in Ha. injection Ha as <-. eapply rd_node. rewrite PS, K in SY. exact SY.
  - destruct (p_node P) as [nd|] eqn:PN; [|discriminate]. destruct oD as [D|]; [|contradiction].
    destruct (opt_eqb t (Some [84])) eqn:K1; [eapply AT; eauto|]. destruct (opt_eqb t (Some [80])) eqn:K2; [eapply (APo true); eauto; discriminate|].
    destruct (opt_eqb t (Some [82])) eqn:K3; [eapply (APo false); eauto; discriminate|discriminate].
  - destruct (p_node P) as [nd|] eqn:PN; [|discriminate]. destruct oD as [D|]; [|contradiction].
    destruct (opt_eqb t (Some [84])) eqn:K1; [eapply AT; eauto|]. destruct (opt_eqb t (Some [80])) eqn:K2; [eapply (APo true); eauto; discriminate|].
    destruct (opt_eqb t (Some [82])) eqn:K3; [eapply (APo false); eauto; discriminate|discriminate].
  - destruct (p_node P) as [nd|] eqn:PN; [|discriminate]. destruct oD as [D|]; [|contradiction].
    destruct (opt_eqb t (Some [80])) eqn:K2; [eapply (APo true); eauto; discriminate|].
    destruct (opt_eqb t (Some [82])) eqn:K3; [eapply (APo false); eauto; discriminate|]. injection E as <- <-.
    exists (PROVIDE, Some D). split; [|split; [cbn; exact CS|cbn; rewrite PN; exact HN]].
    eapply rd_dropped; [rewrite PS in SY; exact SY| |]; intros X; rewrite X in *; cbn in *; discriminate.
  - destruct (p_node P) as [nd|] eqn:PN; [|discriminate]. destruct oD as [D|]; [|contradiction].
    destruct (opt_eqb t (Some [82])) eqn:K3; [eapply (APo false); eauto; discriminate|].
    destruct (opt_eqb t (Some [80])) eqn:K2; [eapply (APo true); eauto; discriminate|discriminate].
Qed.

Lemma lines_sound l : Forall (fun line => ~ In 10 line) l -> forall W P st W' P', holds W P st -> process_lines W P l = Ok (W', P') ->
  exists st', reads_lines st l st' /\ holds W' P' st'.
Proof.
  induction 1 as [|x l N10 F IH]; intros W P st W' P' HS E; cbn [process_lines] in E.
  - invc E. exists st. split; [constructor|exact HS].
  - inv_bind E. destruct a as [W1 P1]. destruct (line_sound _ _ _ _ _ _ N10 HS Ha) as (s1 & R1 & H1).
    destruct (IH _ _ _ _ _ H1 E) as (s2 & R2 & H2). exists s2. split; [econstructor; eauto|exact H2].
Qed.

(** Resolving once more changes nothing. *)
Lemma resolve_ports_id W nd D l : represents W nd D -> linked D -> forall W1,
  (forall o, w_types W1 o = w_types W o) -> (forall o, w_ports W1 o = w_ports W o) -> w_ntypes W1 = w_ntypes W -> w_nports W1 = w_nports W ->
  (forall o, In o l -> exists a, port_stands (n_types nd) (pt_elem (w_ports W o)) a /\ (is_ref a -> reaches (df_types D) 10 a)) ->
  exists W2, resolve_ports W1 (n_types nd) l = Ok W2 /\
  (forall o, w_types W2 o = w_types W o) /\ (forall o, w_ports W2 o = w_ports W o) /\ w_ntypes W2 = w_ntypes W /\ w_nports W2 = w_nports W.
Proof.
  intros R L. induction l as [|o l IH]; intros W1 T P NT NP F; cbn [resolve_ports].
  - exists W1. auto.
  - assert (resolve_port W1 (n_types nd) (w_ports W1 o) = Ok (w_ports W o)) as ->.
    { rewrite P. destruct (F o (or_introl eq_refl)) as (a & PS & RC). unfold resolve_port.
      inversion PS as [n r x ST E|x NR E]; subst.
      - cbn [is_reference]. inversion ST as [|n' o' i N|]; subst. unfold resolve_sig. cbn [resolve_type bind].
        assert (Forall2 (type_is (w_types W1) (n_types nd)) (n_types nd) (df_types D)) as TI.
        { eapply Forall2_imp; [|apply (rp_types _ _ _ R)]. intros x y _ _. unfold type_is. rewrite T. auto. }
        destruct (proj2 (follow _ _ _ TI 10 _ _ ST) (RC I)) as (d & RD).
        unfold resolve_data_element, MAX_RECURSE_DEPTH. rewrite RD. cbn [bind]. f_equal.
        match goal with X : DRef _ _ = _ |- _ => rename X into EQ end.
        destruct (w_ports W o) as [a1 a2 a3 a4 a5]. cbn in *. rewrite EQ. reflexivity.
      - apply is_ref_false in NR. rewrite NR. reflexivity. }
    cbn [bind]. apply IH; auto; [|intros x X; apply F; right; exact X].
    intros x. cbn [set_port w_ports]. unfold upd_nat. destruct (Nat.eqb x o) eqn:X; [apply Nat.eqb_eq in X; subst; reflexivity|apply P].
Qed.

Lemma resolve_types_sound W nd D : sound W nd D -> exists W', resolve_types W nd = Ok W' /\ sound W' nd D /\
  (forall o, w_types W' o = w_types W o) /\ (forall o, w_ports W' o = w_ports W o).
Proof.
  intros (R & L & N & U). unfold resolve_types.
  destruct (resolve_ports_id W nd D (n_require nd ++ n_provide nd) R L W) as (W' & E & T & P & NT & NP); auto.
  - intros o O. assert (exists pr p, port_is W (n_types nd) pr o p /\ In p (df_provide D ++ df_require D)) as (pr & p & PI & IP).
    { apply in_app_or in O as [O|O]; apply In_nth_error in O as [i O].
      - destruct (Forall2_nth _ _ _ _ _ (rp_require _ _ _ R) O) as (p & Pn & PI). exists false, p. split; [exact PI|].
        apply in_or_app. right. eapply nth_error_In; eauto.
      - destruct (Forall2_nth _ _ _ _ _ (rp_provide _ _ _ R) O) as (p & Pn & PI). exists true, p. split; [exact PI|].
        apply in_or_app. left. eapply nth_error_In; eauto. }
    exists (pd_elem p). split; [apply PI|]. intros IR. apply (ln_ports _ L p IP), IR.
  - exists W'. split; [exact E|]. split; [|auto].
    split; [|split; [exact L|split]].
    + eapply rep_frame; eauto; lia.
    + destruct N as [N1 N2]. split; intros i o O; rewrite P; auto.
    + intros o O. rewrite T. auto.
Qed.
