(** Properties C77 and C78: the generated headers are C and say what the source files
    define, and the text of the Com layer works with the text of the node. *)
From Coq Require Import ZifyBool ZifyNat Lia Permutation.
From Verif Require Import Py PyLemmas TypesModel TextModel AttrModel NodeModel VmModel TypesSpec TypesProofs CompilerModel
  RmfModel FileModel NodeDataModel NodeDataSpec NodeDataProofs ParserModel GenModel GenSpec GenProofs GenProofs3 GenProofs4 GenTexts NodeInitProofs NodeDataProps GenProps
  GenFilesModel GenFilesSpec GenFilesProofs GenFilesProps AutosarModel ComModel ComSpec ComProofs ComProps
  CTextSpec CTextProofs CFileSpec CFileProofs CFileProofs2 CFitSpec CFileProofs3 CTextProps CLinkSpec CLinkProofs CLinkProofs2.
From Verif Require NodeProofs FinalizeProofs.
Ltac Zify.zify_post_hook ::= Z.div_mod_to_equations.

(** ** C77 *)

Lemma files_fresh version fuel sfx W nd name includes callbacks direct synced st' W' nd' f nm :
  generate_files version fuel new_gen sfx W nd name includes callbacks direct synced = (st', Ok (W', nd', f)) ->
  (match name with Some s => Some s | None => n_name nd end) = Some nm ->
  exists c ins outs fs, generate fuel sfx W nd name callbacks direct synced = Ok (W', nd', c) /\ f_source f = source_lines version c /\ c_name c = nm /\
    signals fuel Unpack nm W' 0 (n_require nd') ins /\ signals fuel Pack nm W' 0 (n_provide nd') outs /\
    gen_funcs (w_types W') sfx Unpack direct ins ins = Ok (c_reads c) /\ gen_funcs (w_types W') sfx Pack direct outs outs = Ok (c_writes c) /\ c_inlen c = sum_lens ins /\
    f_header f = header_lines nm includes (map signal_proto (ins ++ outs)) (0 <? sum_lens ins) /\
    f_cbk f = (if given callbacks then Some (cbk_lines nm fs) else None).
Proof.
  intros E Nm. apply files_ok in E as (nm' & W1 & W2 & ins & outs & cbs & fs & En & Ef & Ei & Ec & Eo & Ea & Ew & Es). rewrite En in Nm. injection Nm as ->.
  destruct (gen_files_signals _ _ _ _ _ _ _ _ _ _ Ei Eo) as (SW & Gi & Go).
  destruct (proj1 (write_fresh version fuel sfx W' nd' nm callbacks cbs fs direct synced ins outs (f_source f) Gi Ec) (ex_intro _ _ Ew)) as (c & Et & EL).
  exists c, ins, outs, fs. split; [apply generate_ok; exists nm, W1, W2, ins, outs, cbs; auto 10|]. split; [exact EL|].
  unfold generate_tail in Et. apply bind_ok in Et as (text & _ & T). apply bind_ok in T as (oi & Eoi & T). apply bind_ok in T as (ii & Eii & T).
  apply bind_ok in T as (reads & Er & T). apply bind_ok in T as (writes & Ewr & T). apply bind_ok in T as (nt & Ent & T). injection T as <-. cbn [c_name c_reads c_writes c_inlen].
  rewrite Es. cbn [f_header f_cbk]. auto 10.
Qed.

Definition head_of (u : unit_) : list cproto := match u with UFun f _ => [f] | _ => [] end.
Lemma heads_app a b : heads (a ++ b) = heads a ++ heads b.
Proof. apply flat_map_app. Qed.
Lemma heads_funs H sfx op direct buf l fs : NoDup (map si_name l) -> gen_funcs H sfx op direct l l = Ok fs ->
  heads (map (funit buf) fs) = map as_read (map signal_proto l).
Proof.
  intros ND. enough (forall sigs fs, (forall x, In x sigs -> In x l) -> gen_funcs H sfx op direct l sigs = Ok fs -> heads (map (funit buf) fs) = map as_read (map signal_proto sigs)) as X by (apply X; auto).
  induction sigs as [|x sigs IH]; intros gs I E; cbn [gen_funcs] in E; [injection E as <-; reflexivity|].
  rewrite (sig_of_here l x ND (I x (or_introl eq_refl))) in E. cbn [bind] in E.
  apply bind_ok in E as ([body n] & E1 & E). apply bind_ok in E as (fs' & E2 & E). injection E as <-.
  cbn [map]. change (heads (?u :: ?r)) with (head_of u ++ heads r). rewrite (IH _ (fun y J => I y (or_intror J)) E2). reflexivity.
Qed.
Lemma heads_vars c ds : heads (var_units c ds) = [].
Proof.
  unfold var_units, out_units, in_units. rewrite !heads_app.
  destruct (0 <? c_outlen c), (0 <? c_inlen c), (c_synced c); reflexivity.
Qed.
Lemma signals_fit fuel op nm W ports off sigs : c_ident nm -> signals fuel op nm W off ports sigs -> Forall (port_fits W) ports -> Forall proto_fits (map signal_proto sigs).
Proof.
  intros I G F. apply Forall_map, Forall_forall. intros s J. destruct (signals_ok _ _ _ _ I _ _ _ G F s J) as (A & B & _).
  split; [left; cid|]. split; [exact A|]. cbn [signal_proto cp_params]. constructor; [|constructor]. split; [left; exact B|cbn [snd]; cid].
Qed.
Lemma defined_no g defs : ~ In g defs -> defined_in defs g = false.
Proof. intros N. unfold defined_in. apply not_true_iff_false. rewrite existsb_exists. intros (x & I & E). apply str_eqb_eq in E as ->. exact (N I). Qed.
Lemma defined_yes g defs : In g defs -> defined_in defs g = true.
Proof. intros I. unfold defined_in. apply existsb_exists. exists g. split; [exact I|apply str_eqb_refl]. Qed.

(** The header, included once: nothing but the prototypes of the functions that the
    source defines, in their order; included again: nothing. *)
Theorem header_in_text version fuel sfx W nd name includes callbacks direct synced st' W' nd' f nm tin tout :
  generate_files version fuel new_gen sfx W nd name includes callbacks direct synced = (st', Ok (W', nd', f)) ->
  (match name with Some s => Some s | None => n_name nd end) = Some nm -> ~ In 42 version ->
  node_fits sfx W' nd' nm (the_callbacks callbacks) tin tout ->
  exists us kept, is_c (f_source f) us /\ is_c kept (map UProto (heads us)) /\
    let guard := upper (lit "ApxNode_" ++ nm) ++ lit "_H" in
    forall defs, (~ In guard defs -> included defs 0 0 (f_header f) = Some (guard :: defs, kept)) /\
      (In guard defs -> included defs 0 0 (f_header f) = Some (defs, [])).
Proof.
  intros E Nm V F. destruct (files_fresh _ _ _ _ _ _ _ _ _ _ _ _ _ _ _ E Nm) as (c & ins & outs & fs & G & ES & En & Gi & Go & Er & Ew & El & EH & _). rewrite <- En in F.
  destruct (fits_good _ _ _ _ _ _ _ _ _ _ _ _ _ _ G V F) as (ds & K). rewrite En in F. destruct F as [Fnode Fname Ftext Fports Fcalls Fin Fout Fmem Freq Fprov].
  apply Forall_app in Fports as [Fp1 Fp2].
  assert (Forall proto_fits (map signal_proto (ins ++ outs))) as FS by (rewrite map_app; apply Forall_app; split; eapply signals_fit; eassumption).
  destruct (header_reads nm includes (map signal_proto (ins ++ outs)) (0 <? sum_lens ins) Fname FS) as (kept & CK & IK). rewrite <- EH in IK.
  exists (file_units c ds), kept. split; [rewrite ES; exact (source_reads c ds version (go_file _ _ _ _ _ K))|]. split.
  - assert (heads (file_units c ds) = map as_read (all_protos nm (map signal_proto (ins ++ outs)) (0 <? sum_lens ins))) as ->; [|rewrite map_map; exact CK].
    pose proof (text_names_distinct _ _ Freq) as N1. pose proof (text_names_distinct _ _ Fprov) as N2.
    unfold port_names in N1, N2. rewrite <- (signals_names _ _ _ _ _ _ _ Gi) in N1. rewrite <- (signals_names _ _ _ _ _ _ _ Go) in N2.
    unfold file_units, all_protos. rewrite !heads_app, heads_vars, (heads_funs _ _ _ _ _ _ _ N1 Er), (heads_funs _ _ _ _ _ _ _ N2 Ew), !map_app, <- !app_assoc. cbn [app].
    assert (heads (map snd (node_funs c)) = map as_read (node_protos nm)) as -> by (rewrite <- En; reflexivity). do 3 f_equal.
    pose proof (go_notifier _ _ _ _ _ K) as N. rewrite El in N. rewrite <- En. destruct (0 <? sum_lens ins); [|rewrite N; reflexivity].
    unfold rx_notifier in N. destruct (c_notifier c); [destruct N|reflexivity|reflexivity].
  - cbv zeta. intros defs. rewrite IK. split; intros I; [rewrite (defined_no _ _ I)|rewrite (defined_yes _ _ I)]; reflexivity.
Qed.
Print Assumptions header_in_text.

Definition normal (f : cfun) : cfun := mk_cfun (cf_name f) (Some (opt_text (cf_type f))) (cf_pointer f) (map fnorm (cf_body f)).
Lemma as_normal buf f : is "p" buf = false -> as_fun buf (funit buf f) = Some (normal f).
Proof. intros P. unfold funit, as_fun. cbn [cp_star cp_params cp_ret cp_name]. rewrite !is_refl. cbn [andb]. rewrite (as_gfs buf P). reflexivity. Qed.
Lemma on_app p b x y : functions_on p b (x ++ y) = functions_on p b x ++ functions_on p b y.
Proof. apply collect_app. Qed.
Lemma on_none p b us : Forall (fun u => match u with UFun f _ => begins p (cp_name f) = false | _ => True end \/ as_fun (lit b) u = None) us -> functions_on p b us = [].
Proof. unfold functions_on, collect. induction 1 as [|u us A F IH]; [reflexivity|]. cbn [flat_map]. rewrite IH. destruct u as [f body| |]; [|reflexivity..]. destruct A as [A|A]; rewrite A; [reflexivity|]. destruct (begins p (cp_name f)); reflexivity. Qed.
Lemma on_all p b fs : is "p" (lit b) = false -> Forall (fun f => begins p (cf_name f) = true) fs -> functions_on p b (map (funit (lit b)) fs) = map normal fs.
Proof.
  intros P. unfold functions_on, collect. induction 1 as [|f fs A F IH]; [reflexivity|]. cbn [map flat_map]. rewrite IH.
  change (match funit (lit b) f with UFun g _ => if begins p (cp_name g) then as_fun (lit b) (funit (lit b) f) else None | _ => None end)
    with (if begins p (cf_name f) then as_fun (lit b) (funit (lit b) f) else None). rewrite A, (as_normal _ _ P). reflexivity.
Qed.
Lemma begins_it p s : begins p (lit p ++ s) = true.
Proof. unfold begins. rewrite firstn_app, Nat.sub_diag, firstn_all, firstn_O, app_nil_r. apply str_eqb_refl. Qed.

(** The functions as read. *)
Lemma normal_name fs : map cf_name (map normal fs) = map cf_name fs.
Proof. rewrite map_map. reflexivity. Qed.
Lemma vars_on p b c ds : functions_on p b (var_units c ds) = [].
Proof.
  apply on_none. unfold var_units, out_units, in_units. rewrite !Forall_app. repeat split;
  repeat match goal with |- context [if ?b then _ else _] => destruct b end; repeat constructor.
Qed.
Lemma notify_on p b c x : functions_on p b (nunits c x) = [].
Proof. apply on_none. destruct x; [constructor|..]; (constructor; [right; reflexivity|constructor]). Qed.
Lemma reads_of_file fuel name W c ds ins H sfx direct ports outs ports' : signals fuel Unpack name W 0 ports ins -> signals fuel Pack name W 0 ports' outs ->
  NoDup (map si_name ins) -> NoDup (map si_name outs) ->
  gen_funcs H sfx Unpack direct ins ins = Ok (c_reads c) -> gen_funcs H sfx Pack direct outs outs = Ok (c_writes c) ->
  read_functions (file_units c ds) = map normal (c_reads c) /\ write_functions (file_units c ds) = map normal (c_writes c).
Proof.
  intros Gi Go N1 N2 Er Ew.
  pose proof (gen_funcs_all _ _ _ _ _ N1 _ _ (fun x J => J) Er) as A1. pose proof (gen_funcs_all _ _ _ _ _ N2 _ _ (fun x J => J) Ew) as A2.
  rewrite (signal_funcs _ _ _ _ _ _ _ Gi) in A1. rewrite (signal_funcs _ _ _ _ _ _ _ Go) in A2.
  assert (forall f, In f (c_reads c) -> exists r, cf_name f = lit "ApxNode_Read_" ++ r) as B1.
  { intros f I. apply (in_map cf_name) in I. rewrite A1 in I. apply in_map_iff in I as (o & <- & _). cbn [func_name]. eexists. reflexivity. }
  assert (forall f, In f (c_writes c) -> exists r, cf_name f = lit "ApxNode_Write_" ++ r) as B2.
  { intros f I. apply (in_map cf_name) in I. rewrite A2 in I. apply in_map_iff in I as (o & <- & _). cbn [func_name]. eexists. reflexivity. }
  unfold read_functions, write_functions, file_units. rewrite !on_app, !vars_on, !notify_on, !app_nil_r. cbn [app].
  assert (forall p b, p = "ApxNode_Read_"%string \/ p = "ApxNode_Write_"%string -> functions_on p b (map snd (node_funs c)) = []) as NF.
  { intros p b E. apply on_none. unfold node_funs. repeat apply Forall_cons; try apply Forall_nil; left; destruct E as [->| ->]; reflexivity. }
  rewrite !NF by auto. cbn [app]. split.
  - rewrite on_all; [|reflexivity|apply Forall_forall; intros f I; destruct (B1 f I) as (r & ->); apply begins_it].
    rewrite on_none, app_nil_r; [reflexivity|]. apply Forall_map, Forall_forall. intros f I. left. destruct (B2 f I) as (r & E). cbn [funit cp_name]. rewrite E. reflexivity.
  - rewrite on_none; [cbn [app]|apply Forall_map, Forall_forall; intros f I; left; destruct (B1 f I) as (r & E); cbn [funit cp_name]; rewrite E; reflexivity].
    apply on_all; [reflexivity|]. apply Forall_forall. intros f I. destruct (B2 f I) as (r & ->). apply begins_it.
Qed.

Lemma filter_map {A B} (g : A -> B) p l : filter p (map g l) = map g (filter (fun x => p (g x)) l).
Proof. induction l as [|x l IH]; [reflexivity|]. cbn [map filter]. destruct (p (g x)); cbn [map]; rewrite IH; reflexivity. Qed.
Lemma typed_as_read vars reads k f : well_typed vars reads k f -> well_typed (map plain_var vars) (map normal reads) k (as_read f).
Proof.
  intros (t & n & V & A1 & A2 & (r & R & T & P) & B1 & B2 & B3 & B4). exists (Some (opt_text t)), n.
  split; [refine (eq_trans (filter_map plain_var _ vars) (f_equal (map plain_var) V))|].
  split; [exact A1|]. split; [exact A2|]. split.
  - exists (normal r). split; [refine (eq_trans (filter_map normal _ reads) (f_equal (map normal) R))|].
    cbn [normal cf_type cf_pointer]. rewrite T. auto.
  - unfold as_read. cbn [cp_ret cp_star cp_name cp_params]. rewrite B4. cbn [map fst snd]. auto.
Qed.
Lemma calls_strip parts : calls (filter is_case parts) = calls parts.
Proof. unfold calls. induction parts as [|x r IH]; [reflexivity|]. cbn [filter flat_map]. destruct x; cbn [is_case flat_map]; rewrite IH; reflexivity. Qed.
Lemma calls_ident parts k : Forall (CFileProofs.parts_ok) parts -> In k (calls parts) -> c_ident (cl_func k).
Proof.
  intros F I. unfold calls in I. apply in_flat_map in I as (x & J & I). rewrite Forall_forall in F. specialize (F x J). destruct x as [l n [q|]|l]; [destruct I as [<-|[]]|destruct I..].
  destruct F as (_ & _ & _ & _ & F). exact F.
Qed.

(** The header of the callbacks, included once: one prototype for every call that the
    source makes, in their order, and the types agree. *)
Theorem callbacks_in_text version fuel sfx W nd name includes m direct synced st' W' nd' f nm tin tout :
  generate_files version fuel new_gen sfx W nd name includes (Some m) direct synced = (st', Ok (W', nd', f)) ->
  (match name with Some s => Some s | None => n_name nd end) = Some nm -> ~ In 42 version ->
  node_fits sfx W' nd' nm m tin tout -> 0 < total tin ->
  exists us cbk kept protos guard parts vars, is_c (f_source f) us /\ f_cbk f = Some cbk /\ is_c kept (map UProto protos) /\
    (let guard := upper (lit "ApxNode_" ++ nm) ++ lit "_CBK_H" in
     forall defs, (~ In guard defs -> included defs 0 0 cbk = Some (guard :: defs, kept)) /\ (In guard defs -> included defs 0 0 cbk = Some (defs, []))) /\
    notifier_of us (nm ++ lit "_inPortDataWritten") = Some (Switch guard parts vars) /\
    Forall2 (well_typed vars (read_functions us)) (calls parts) protos.
Proof.
  intros E Nm V F T0. destruct (files_fresh _ _ _ _ _ _ _ _ _ _ _ _ _ _ _ E Nm) as (c & ins & outs & fs & G & ES & En & Gi & Go & Er & Ew & El & _). rewrite <- En in F.
  destruct (fits_good _ _ _ _ _ _ _ _ _ _ _ _ _ _ G V F) as (ds & K). rewrite En in F.
  assert (c_inlen c = total tin) as Ti by (rewrite El; exact (sum_lens_total _ _ (signals_lens _ _ _ _ _ _ _ _ Gi (nf_ins _ _ _ _ _ _ _ F)))).
  assert (exists guard parts vars, c_notifier c = Switch guard parts vars) as (guard & parts & vars & EN).
  { pose proof G as G'. apply generate_inv in G' as (W1 & nm' & ins' & outs' & text' & cbs & _ & _ & _ & G'). pose proof (gd_notifier _ _ _ _ _ _ _ _ _ _ _ _ G') as Gn.
    pose proof (gd_cbs _ _ _ _ _ _ _ _ _ _ _ _ G') as Gc. rewrite <- (gd_inlen _ _ _ _ _ _ _ _ _ _ _ _ G'), Ti in Gn. unfold gen_notifier in Gn. replace (total tin =? 0) with false in Gn by lia.
    destruct cbs as [l|]; [|cbn in Gc; apply bind_ok in Gc as (? & _ & Gc); discriminate]. apply bind_ok in Gn as (ps & _ & Gn). injection Gn as <-. eauto. }
  destruct (callbacks_typed _ _ _ _ _ _ _ _ _ _ _ _ _ _ _ _ _ _ E G EN (nf_required _ _ _ _ _ _ _ F)) as (nm' & protos & Nm' & EC & WT). rewrite Nm in Nm'. injection Nm' as <-.
  pose proof (of_notifier _ _ _ (go_file _ _ _ _ _ K)) as OK. rewrite EN in OK. destruct OK as (_ & PO & VO).
  assert (Forall proto_fits protos) as FP.
  { clear - WT PO VO. assert (forall k, In k (calls parts) -> c_ident (cl_func k)) as CI by (intros k; apply calls_ident, PO). revert CI. induction WT as [|k p ks ps H _ IH]; intros CI; constructor; [|apply IH; intros q I; apply CI; right; exact I].
    destruct H as (t & n & V & _ & _ & _ & B1 & B2 & B3 & B4). split; [rewrite B1; right; left; reflexivity|]. split; [rewrite B3; apply CI; left; reflexivity|]. rewrite B4.
    constructor; [|constructor]. split; [left|cid]. cbn [fst snd]. assert (In (cl_port k, t, n) vars) as I by (assert (In (cl_port k, t, n) [(cl_port k, t, n)]) as J by (left; reflexivity); rewrite <- V in J; apply filter_In in J; apply J).
    rewrite Forall_forall in VO. exact (proj1 (proj2 (VO _ I))). }
  destruct (cbk_reads nm protos (nf_name _ _ _ _ _ _ _ F) FP) as (kept & CK & IK).
  pose proof (text_names_distinct _ _ (nf_required _ _ _ _ _ _ _ F)) as N1. pose proof (text_names_distinct _ _ (nf_provided _ _ _ _ _ _ _ F)) as N2.
  unfold port_names in N1, N2. rewrite <- (signals_names _ _ _ _ _ _ _ Gi) in N1. rewrite <- (signals_names _ _ _ _ _ _ _ Go) in N2.
  destruct (reads_of_file _ _ _ c ds _ _ _ _ _ _ _ Gi Go N1 N2 Er Ew) as [ER _].
  exists (file_units c ds), (cbk_lines nm protos), kept, (map as_read protos), guard, (filter is_case parts), (map plain_var vars).
  split; [rewrite ES; exact (source_reads c ds version (go_file _ _ _ _ _ K))|]. split; [exact EC|]. split; [rewrite map_map; exact CK|]. split; [|split].
  - cbv zeta. intros defs. rewrite IK. split; intros I; [rewrite (defined_no _ _ I)|rewrite (defined_yes _ _ I)]; reflexivity.
  - rewrite <- En. refine (eq_trans (notifier_is c ds (go_names _ _ _ _ _ K) _) _); rewrite EN; [discriminate|reflexivity].
  - rewrite ER, calls_strip. clear - WT. induction WT as [|k p ks ps H _ IH]; constructor; [apply typed_as_read, H|exact IH].
Qed.
Print Assumptions callbacks_in_text.

(** ** C78 *)

Lemma static_ident f : forallb name_char (cm_port f) = true -> forallb name_char (cm_elem f) = true -> c_ident (static_name f).
Proof.
  intros A B. unfold static_name. split; [reflexivity|]. split; [rewrite !name_chars_app, A, B; reflexivity|].
  intros I. cbn in I. repeat (destruct I as [I|I]; [discriminate I|]). exact I.
Qed.
Lemma callee_ident (p : string) node f : match lit p with [] => False | c :: _ => letter c = true end -> forallb name_char (lit p) = true -> (10 < length (lit p))%nat ->
  c_ident node -> forallb name_char (cm_port f) = true -> c_ident (lit p ++ node ++ lit "_" ++ cm_port f).
Proof. intros A B C (_ & N & _) P. apply ident_app; [exact A|exact B|rewrite !name_chars_app, N, P; reflexivity|exact C]. Qed.
Lemma com_funs_fit W0 comp W1 g : right_sides comp -> new_com W0 comp = Ok (W1, g) -> c_ident (cc_name comp) -> Forall com_fits (cc_send comp ++ cc_receive comp) ->
  Forall comfun_ok (cg_funs g) /\ map fst (cg_funs g) = map cm_proto (cc_send comp ++ cc_receive comp).
Proof.
  intros RS NC N F. destruct (com_code _ _ _ _ RS NC) as (sends & receives & -> & CS & CR). apply Forall_app in F as [F1 F2]. rewrite Forall_app, !map_app.
  enough ((Forall comfun_ok sends /\ map fst sends = map cm_proto (cc_send comp)) /\ (Forall comfun_ok receives /\ map fst receives = map cm_proto (cc_receive comp))) as [[? ->] [? ->]] by auto.
  split.
  - clear - CS F1 N. revert F1. induction CS as [|f b l bs (E & ty & p & a & r & P & B) _ IH]; intros F1; [split; [constructor|reflexivity]|].
    inversion F1 as [|? ? (A1 & A2 & A3 & _) F']; subst. destruct (IH F') as [IH1 IH2]. cbn [map]. rewrite IH2, E. split; [|reflexivity]. constructor; [|exact IH1].
    split; [rewrite E; exact A1|]. assert (c_ident a) as Ia by (destruct A1 as (_ & _ & A1); rewrite P in A1; inversion A1 as [|? ? [_ Q] _]; exact Q).
    pose proof (static_ident f A2 A3) as Is. rewrite B. unfold send_code. constructor; [|constructor; [exact Logic.I|constructor]].
    split; [destruct (cm_complex f); split; assumption|]. constructor; [destruct (cm_complex f); split; assumption|]. constructor; [|constructor].
    split; [apply (callee_ident "ApxNode_Write_"); try assumption; (reflexivity || (cbn; lia))|exact Is].
  - clear - CR F2 N. revert F2. induction CR as [|f b l bs (E & ty & p & a & r & P & B) _ IH]; intros F2; [split; [constructor|reflexivity]|].
    inversion F2 as [|? ? (A1 & A2 & A3 & _) F']; subst. destruct (IH F') as [IH1 IH2]. cbn [map]. rewrite IH2, E. split; [|reflexivity]. constructor; [|exact IH1].
    split; [rewrite E; exact A1|]. assert (c_ident a) as Ia by (destruct A1 as (_ & _ & A1); rewrite P in A1; inversion A1 as [|? ? [_ Q] _]; exact Q).
    rewrite B. unfold receive_code. constructor; [|constructor; [exact Logic.I|constructor]].
    split; [apply (callee_ident "ApxNode_Read_"); try assumption; (reflexivity || (cbn; lia))|exact Ia].
Qed.
Lemma vars_perm l : Permutation (sorted_vars l) l.
Proof. rewrite sorted_vars_isort. apply isort_perm. Qed.
Lemma first_in l n f : first_user l n f -> In f l /\ static_name f = n.
Proof. intros (b & a & -> & E & _). split; [apply in_or_app; right; left; reflexivity|exact E]. Qed.
Lemma com_vars_fit W0 comp W1 g : new_com W0 comp = Ok (W1, g) -> Forall com_fits (cc_send comp ++ cc_receive comp) -> Forall var_ok (sorted_vars (cg_vars g)).
Proof.
  intros NC F. destruct (com_vars _ _ _ _ NC) as (_ & _ & FU). apply Forall_forall. intros v I.
  apply (Permutation_in _ (vars_perm _)) in I. destruct (FU v I) as (f & U & T & In0). destruct (first_in _ _ _ U) as [If Es].
  apply Forall_app in F as [F _]. rewrite Forall_forall in F. destruct (F f If) as (_ & A2 & A3 & A4 & A5). split; [rewrite T; exact A4|]. split; [rewrite <- Es; apply static_ident; assumption|exact (A5 _ In0)].
Qed.
Lemma com_source_fits W0 comp W1 g guard file : right_sides comp -> new_com W0 comp = Ok (W1, g) -> c_ident (cc_name comp) -> Forall com_fits (cc_send comp ++ cc_receive comp) ->
  is_c (generate_source (fst (generate_header guard file g))) (map varu (sorted_vars (cg_vars g)) ++ map comfx (cg_funs g)).
Proof.
  intros RS NC N F. destruct (com_funs_fit _ _ _ _ RS NC N F) as [FF _]. exact (com_source_reads (fst (generate_header guard file g)) (com_vars_fit _ _ _ _ NC F) FF).
Qed.
Lemma statics_of vs : Forall var_ok vs -> collect static_of (map varu vs) = map (fun v => (cv_type v, cv_name v, init_toks (cv_init v))) vs.
Proof. induction 1 as [|v vs _ _ IH]; [reflexivity|]. unfold collect in *. cbn [map flat_map]. rewrite IH. reflexivity. Qed.
Lemma statics_none fs : collect static_of (map comfx fs) = [].
Proof. induction fs as [|f fs IH]; [reflexivity|]. exact IH. Qed.

(** The files of the Com layer: the source has the functions that the header declares,
    which are those of the upper layer, and a variable for every name that a sender
    needs, with the type and the initial value of the first such sender. *)
Theorem com_in_text W0 comp W1 g guard file :
  right_sides comp -> new_com W0 comp = Ok (W1, g) -> c_ident (cc_name comp) -> Forall com_fits (cc_send comp ++ cc_receive comp) -> c_ident (guard ++ lit "_H") ->
  let g' := fst (generate_header guard file g) in let header := snd (generate_header guard file g) in
  exists us kept, is_c (generate_source g') us /\ is_c kept (map UProto (heads us)) /\
    (forall defs, (~ In (guard ++ lit "_H") defs -> included defs 0 0 header = Some ((guard ++ lit "_H") :: defs, kept)) /\
       (In (guard ++ lit "_H") defs -> included defs 0 0 header = Some (defs, []))) /\
    heads us = map as_read (map cm_proto (cc_send comp ++ cc_receive comp)) /\
    (let statics := collect static_of us in
     NoDup (map (fun x => snd (fst x)) statics) /\
     (forall f, In f (cc_send comp) -> In (static_name f) (map (fun x => snd (fst x)) statics)) /\
     (forall ty name init, In (ty, name, init) statics ->
        exists f text, first_user (cc_send comp) name f /\ ty = cm_type f /\ cm_init f = Ok text /\ lex Between (text ++ lit ";") = Some (init ++ [TOp OSemi]))).
Proof.
  intros RS NC N F Gu g' header. destruct (com_funs_fit _ _ _ _ RS NC N F) as [FF FE]. pose proof (com_vars_fit _ _ _ _ NC F) as FV.
  destruct (com_header_reads guard file g Gu FF) as (kept & CK & IK). pose proof (com_source_fits _ _ _ _ guard file RS NC N F) as C.
  assert (heads (map varu (sorted_vars (cg_vars g)) ++ map comfx (cg_funs g)) = map as_read (map fst (cg_funs g))) as H.
  { rewrite heads_app. assert (forall l, heads (map varu l) = []) as -> by (induction l as [|v l IH]; [reflexivity|exact IH]). cbn [app].
    clear. induction (cg_funs g) as [|f l IH]; [reflexivity|]. cbn [map]. change (heads (?u :: ?r)) with (head_of u ++ heads r). rewrite IH. reflexivity. }
  eexists. exists kept. split; [exact C|]. split; [rewrite H, !map_map; exact CK|]. split; [|split].
  - intros defs. unfold header. rewrite IK. split; intros I; [rewrite (defined_no _ _ I)|rewrite (defined_yes _ _ I)]; reflexivity.
  - rewrite H, FE. reflexivity.
  - cbv zeta. rewrite collect_app, (statics_of _ FV), statics_none, app_nil_r, map_map. cbn [fst snd].
    destruct (com_vars _ _ _ _ NC) as (ND & IN & FU). pose proof (vars_perm (cg_vars g)) as P. split; [|split].
    + eapply Permutation_NoDup; [apply Permutation_map, Permutation_sym, P|exact ND].
    + intros f I. eapply Permutation_in; [apply Permutation_map, Permutation_sym, P|apply IN, I].
    + intros ty name init I. apply in_map_iff in I as (v & E & I). injection E as <- <- <-. rewrite Forall_forall in FV. destruct (FV v I) as (_ & _ & t & L & _).
      apply (Permutation_in _ P) in I. destruct (FU v I) as (f & U & T & J). exists f, (cv_init v). rewrite (init_is v t L). auto.
Qed.
Print Assumptions com_in_text.

Lemma normal_call f data arg : call (normal f) data arg = call f data arg.
Proof. unfold call. cbn [normal cf_pointer cf_body]. apply run_norm. Qed.
Lemma normal_named fs s : named (map normal fs) s = option_map normal (named fs s).
Proof.
  unfold named. rewrite filter_map. change (fun x => str_eqb (cf_name (normal x)) s) with (fun x => str_eqb (cf_name x) s).
  destruct (filter _ fs) as [|f [|h l]]; reflexivity.
Qed.
Lemma normal_node ws rs input ptr pname f ref x s : call_node (map normal ws) (map normal rs) input ptr pname f ref x s = call_node ws rs input ptr pname f ref x s.
Proof.
  unfold call_node. rewrite !normal_named. destruct (named ws f) as [w|]; cbn [option_map].
  - destruct (if ref then variable pname s x else by_value ptr pname s x) as [v|]; [|reflexivity]. cbn [obind]. rewrite normal_call. reflexivity.
  - destruct (named rs f) as [r|]; cbn [option_map obind]; [|reflexivity]. destruct ref; [reflexivity|]. destruct (by_pointer ptr pname s x) as [v|]; [|reflexivity].
    cbn [obind]. rewrite normal_call. reflexivity.
Qed.
Lemma normal_exec ws rs input ptr pname : forall c s, com_exec (map normal ws) (map normal rs) input ptr pname c s = com_exec ws rs input ptr pname c s.
Proof.
  fix IH 1. intros [c body|a b|a b|f ref x|] s; cbn [com_exec]; try reflexivity; [|rewrite normal_node; reflexivity].
  destruct (holds ptr pname c s) as [[|]|]; cbn [obind]; try reflexivity. revert s. induction body as [|d body IHb]; intros s; [reflexivity|].
  rewrite IH. destruct (com_exec ws rs input ptr pname d s) as [p|]; [|reflexivity]. cbn [obind]. destruct (snd p); [reflexivity|]. apply IHb.
Qed.
Lemma normal_run ws rs input ptr pname : forall l s, com_run (map normal ws) (map normal rs) input ptr pname l s = com_run ws rs input ptr pname l s.
Proof.
  induction l as [|c l IH]; intros s; [reflexivity|]. cbn [com_run]. rewrite normal_exec. destruct (com_exec ws rs input ptr pname c s) as [p|]; [|reflexivity].
  cbn [obind]. rewrite IH. reflexivity.
Qed.
Lemma normal_play funs ws rs : forall uses s,
  com_play (map (fun f => (as_read (fst f), snd f)) funs) (map normal ws) (map normal rs) uses s = com_play funs ws rs uses s.
Proof.
  induction uses as [|u uses IH]; intros s; [reflexivity|]. cbn [com_play]. rewrite nth_error_map. destruct (nth_error funs (u_fun u)) as [[f b]|]; [|reflexivity].
  cbn [option_map obind fst snd]. unfold as_read. cbn [cp_params]. destruct (cp_params f) as [|[[ty ptr] pname] [|q r]]; try reflexivity.
  cbn [map fst snd]. rewrite normal_run. destruct (com_run ws rs (u_input u) ptr pname b _) as [p|]; [|reflexivity]. cbn [obind]. rewrite IH. reflexivity.
Qed.

(** The text of the Com layer calls the text of the node: what is sent and received goes
    through as C74 says. *)
Theorem com_text_delivers version W0 comp W1 g guard file fuel sfx callbacks direct synced W' nd' c ts rs usn usc :
  proper comp -> new_com W0 comp = Ok (W1, g) -> Forall com_fits (cc_send comp ++ cc_receive comp) ->
  generate fuel sfx W1 (cg_node g) None callbacks direct synced = Ok (W', nd', c) -> ~ In 42 version ->
  node_fits sfx W' nd' (cc_name comp) (the_callbacks callbacks) rs ts ->
  (forall f i t, In f (cc_send comp) -> port_at W' (n_provide nd') ts (cm_port f) i t -> sender_fits f t) ->
  Forall receiver_fits (cc_receive comp) ->
  (forall f h, In f (cc_send comp) -> In h (cc_send comp) ->
     (cm_port f ++ lit "_" ++ cm_elem f = cm_port h ++ lit "_" ++ cm_elem h <-> cm_port f = cm_port h)) ->
  is_c (source_lines version c) usn -> is_c (generate_source (fst (generate_header guard file g))) usc ->
  exists funs, com_functions usc = Some funs /\
  forall uses s, in_step sfx comp W' nd' ts s -> Forall (good_use sfx comp W' nd' ts rs) uses ->
  exists s' ys, com_play funs (write_functions usn) (read_functions usn) uses s = Some (s', ys) /\
    in_step sfx comp W' nd' ts s' /\ Forall2 (result_of comp W' nd' rs) uses ys /\
    (forall f i t x, In f (cc_send comp) -> port_at W' (n_provide nd') ts (cm_port f) i t -> cs_vars s (static_name f) = Some x ->
       part_of ts (cs_out s') i = image t (last (sent_to (cc_send comp) (cm_port f) uses) x) /\
       written_to (cc_name comp) (cm_port f) (cs_log s') =
         written_to (cc_name comp) (cm_port f) (cs_log s) ++ changes x (sent_to (cc_send comp) (cm_port f) uses)) /\
    (forall i, (forall f t, In f (cc_send comp) -> ~ port_at W' (n_provide nd') ts (cm_port f) i t) ->
       part_of ts (cs_out s') i = part_of ts (cs_out s) i).
Proof.
  intros PR NC CF G V F SF RF NM Cn Cc. destruct (com_ports _ _ _ _ _ _ _ _ _ _ _ _ (pr_sides _ PR) NC G) as (En & _).
  pose proof (nf_name _ _ _ _ _ _ _ F) as N. destruct (com_funs_fit _ _ _ _ (pr_sides _ PR) NC N CF) as [FF _].
  rewrite (is_c_unique _ _ _ Cc (com_source_fits _ _ _ _ guard file (pr_sides _ PR) NC N CF)), com_skip, (com_funs_read _ FF). eexists. split; [reflexivity|].
  rewrite <- En in F. destruct (fits_good _ _ _ _ _ _ _ _ _ _ _ _ _ _ G V F) as (ds & K). rewrite En in F.
  rewrite (is_c_unique _ _ _ Cn (source_reads c ds version (go_file _ _ _ _ _ K))).
  assert (read_functions (file_units c ds) = map normal (c_reads c) /\ write_functions (file_units c ds) = map normal (c_writes c)) as [-> ->].
  { pose proof G as G'. apply generate_inv in G' as (W2 & nm & ins & outs & text & cbs & _ & _ & _ & G').
    pose proof (text_names_distinct _ _ (nf_required _ _ _ _ _ _ _ F)) as N1. pose proof (text_names_distinct _ _ (nf_provided _ _ _ _ _ _ _ F)) as N2.
    pose proof (gd_ins _ _ _ _ _ _ _ _ _ _ _ _ G') as Gi. pose proof (gd_outs _ _ _ _ _ _ _ _ _ _ _ _ G') as Go.
    unfold port_names in N1, N2. rewrite <- (signals_names _ _ _ _ _ _ _ Gi) in N1. rewrite <- (signals_names _ _ _ _ _ _ _ Go) in N2.
    exact (reads_of_file _ _ _ c ds _ _ _ _ _ _ _ Gi Go N1 N2 (gd_reads _ _ _ _ _ _ _ _ _ _ _ _ G') (gd_writes _ _ _ _ _ _ _ _ _ _ _ _ G')). }
  intros uses s IS GU. rewrite normal_play.
  exact (com_delivers _ _ _ _ _ _ _ _ _ _ _ _ _ _ PR NC G (nf_outs _ _ _ _ _ _ _ F) (nf_ins _ _ _ _ _ _ _ F) SF RF NM uses s IS GU).
Qed.
Print Assumptions com_text_delivers.

(** ** Examples *)

(** The test node of the repository: its headers, included, and included again. *)
Definition after (defs : list str) (l : list str) : option (list str * list unit_) :=
  let? p := included defs 0 0 l in let? t := words (snd p) in let? us := p_file 600 t in Some (fst p, us).
Definition protos_of (us : list unit_) : list cproto := flat_map (fun u => match u with UProto f => [f] | _ => [] end) us.
Example ex_headers :
  match snd test_files with
  | Ok (W', nd', f) =>
    fitsb [] W' nd' (lit "Test") test_callbacks test_requires test_provides = true /\
    match f_cbk f, (let? t := words (f_source f) in p_file 600 t) with
    | Some cbk, Some us =>
      match after [] (f_header f), after [] cbk with
      | Some (d1, h), Some (d2, k) =>
        d1 = [lit "APXNODE_TEST_H"] /\ d2 = [lit "APXNODE_TEST_CBK_H"] /\ protos_of h = heads us /\ length h = 18%nat /\
        nth_error (protos_of h) 4 = Some (mk_cproto (lit "Std_ReturnType") false (lit "ApxNode_Read_Test_RS16ARPort") [(Some (lit "sint16"), true, lit "val")]) /\
        protos_of k = [mk_cproto (lit "void") false (lit "RS16ARPort_cb_func") [(Some (lit "sint16"), true, lit "value")];
                       mk_cproto (lit "void") false (lit "RU8Port_cb_func") [(Some (lit "uint8"), false, lit "value")];
                       mk_cproto (lit "void") false (lit "SoundRequest_cb_func") [(Some (lit "SoundRequest_T"), true, lit "value")]] /\
        after d1 (f_header f) = Some (d1, []) /\ after d2 cbk = Some (d2, []) /\
        option_map (fun x => match x with Switch _ parts vars => (map cl_func (calls parts), vars) | _ => ([], []) end) (notifier_of us (lit "Test_inPortDataWritten")) =
          Some (map lit ["RS16ARPort_cb_func"; "RU8Port_cb_func"; "SoundRequest_cb_func"]%string,
                [(lit "RS16ARPort", Some (lit "sint16"), Some 3); (lit "RU8Port", Some (lit "uint8"), None); (lit "SoundRequest", Some (lit "SoundRequest_T"), None)])
      | _, _ => False
      end
    | _, _ => False
    end
  | Err _ => False
  end.
Proof. vm_compute. repeat split. Qed.

(** The Com layer of ComProps.v: names fit, and the texts work together. *)
Lemma proto_fitb ret name ty ptr arg : c_identb (lit ret) && c_identb (lit name) && c_identb (lit ty) && c_identb (lit arg) = true ->
  proto_fits (mk_cproto (lit ret) false (lit name) [(Some (lit ty), ptr, lit arg)]).
Proof.
  intros E. do 3 (apply andb_prop in E as [E ?]). split; [left; apply c_identb_ok; assumption|]. split; [apply c_identb_ok; assumption|].
  constructor; [|constructor]. split; [left|]; apply c_identb_ok; assumption.
Qed.
Example ex_com_fits : Forall com_fits (cc_send ex_com ++ cc_receive ex_com) /\
  match com_of ex_com with
  | Ok (g, W', nd', c) => fitsb (lit "_RE") W' nd' (lit "Com") [] [TInt U8] [TRec [(lit "Low", TInt U8); (lit "High", TInt U16)]; TInt U16] = true
  | Err _ => False
  end.
Proof.
  split; [|vm_compute; reflexivity].
  repeat apply Forall_cons; try apply Forall_nil;
  (split; [apply proto_fitb; reflexivity|]; split; [reflexivity|]; split; [reflexivity|]; split; [apply c_identb_ok; reflexivity|]; intros t E; injection E as <-).
  - exists [TNum 65535]. split; [reflexivity|]. cbn. intuition discriminate.
  - exists [TOp OLbrc; TNum 1; TOp OComma; TNum 2; TOp ORbrc]. split; [reflexivity|]. cbn. intuition discriminate.
  - exists [TNum 0]. split; [reflexivity|]. cbn. intuition discriminate.
  - exists [TNum 0]. split; [reflexivity|]. cbn. intuition discriminate.
Qed.
Definition com_units (c : component) : option (list unit_ * list unit_ * list unit_ * cfile) :=
  match com_of c with
  | Ok (g, _, _, f) =>
    let p := generate_header (lit "COM") (lit "Com.h") g in
    let? h := after [] (snd p) in
    let? t := words (generate_source (fst p)) in let? us := p_file 600 t in
    let? t' := words (source_lines (lit "0.4.1") f) in let? usn := p_file 600 t' in
    Some (snd h, us, usn, f)
  | Err _ => None
  end.
Example ex_com_reading :
  match com_units ex_com with
  | Some (h, us, usn, f) =>
    protos_of h = heads us /\ map cp_name (heads us) = map lit ["Com_SendSpeed"; "Com_SendLimits"; "Com_SendSpeedAgain"; "Com_ReceiveLevel"]%string /\
    collect static_of us = [(lit "Limits_T", lit "m_Limits_Limits", [TOp OLbrc; TNum 1; TOp OComma; TNum 2; TOp ORbrc]); (lit "Speed_T", lit "m_Speed_Speed", [TNum 65535])] /\
    map cf_name (write_functions usn) = map lit ["ApxNode_Write_Com_Limits"; "ApxNode_Write_Com_Speed"]%string /\ map cf_name (read_functions usn) = [lit "ApxNode_Read_Com_Level"] /\
    (let? funs := com_functions us in
     option_map (fun p => (cs_out (fst p), cs_log (fst p), snd p)) (com_play funs (write_functions usn) (read_functions usn) ex_uses (mk_comst (vars_of ex_vars) (c_outinit f) (CInt 0) []))) =
      Some ([7; 1; 2; 2; 1], [(lit "ApxNode_Write_Com_Speed", CInt 258); (lit "ApxNode_Write_Com_Limits", limits 7 513)],
            [CInt 65535; CInt 258; limits 7 513; CInt 258; CInt 9; limits 7 513])
  | None => False
  end.
Proof. vm_compute. repeat split. Qed.

(** ** What does not hold *)

(** Two nodes whose names differ in capital letters only have the same guard: whoever
    includes both headers gets the functions of the first one only. *)
Theorem same_guard_refuted :
  match snd (files_of new_gen two_ports (Some (lit "abc")) None), snd (files_of new_gen two_ports (Some (lit "ABC")) None) with
  | Ok (_, _, f), Ok (_, _, h) =>
    f_header f <> f_header h /\
    match included [] 0 0 (f_header f) with
    | Some (defs, kept) => kept <> [] /\ included defs 0 0 (f_header h) = Some (defs, [])
    | None => False
    end
  | _, _ => False
  end.
Proof. vm_compute. repeat split; discriminate. Qed.
Print Assumptions same_guard_refuted.

(** An element with a hyphen in its name: the source of the Com layer is not a C file. *)
Definition ex_hyphen : component :=
  mk_component (lit "Com") [] [mk_aport false (lit "a") (lit "T") (AInt 0 255) None (Some (KInt 7))] [sender "Send" "a" "b-c" "T" false "7u"] [].
Theorem element_name_refuted : proper ex_hyphen /\
  let l := match com_of ex_hyphen with Ok (g, _, _, _) => generate_source (fst (generate_header (lit "COM") (lit "Com.h") g)) | Err _ => [] end in
  l <> [] /\ forall us, ~ is_c l us.
Proof.
  split; [|cbv zeta; split; [vm_compute; discriminate|]].
  - constructor.
    + split; repeat constructor.
    + constructor.
    + repeat constructor; cbn [In]; intuition discriminate.
    + intros f [<-|[]]; vm_compute; auto.
    + intros f [].
  - refine (reads_never _ _ 600 _ _); [vm_compute; reflexivity|]. intros k. vm_compute. reflexivity.
Qed.
Print Assumptions element_name_refuted.
