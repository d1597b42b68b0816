(** Properties C75 and C76: the text of the generated source file, read as a C compiler
    reads it, is the program that C60 to C62 are about. *)
From Coq Require Import ZifyBool ZifyNat Lia.
From Verif Require Import Py PyLemmas TypesModel TextModel AttrModel NodeModel VmModel TypesSpec TypesProofs CompilerModel
  RmfModel FileModel NodeDataModel NodeDataSpec NodeDataProofs ParserModel GenModel GenSpec GenProofs GenProofs3 GenProofs4 GenTexts NodeInitProofs NodeDataProps GenProps GenFilesModel GenFilesSpec GenFilesProofs GenFilesProps
  CTextSpec CTextProofs CFileSpec CFileProofs CFileProofs2 CFitSpec CFileProofs3.
From Verif Require NodeProofs.
Ltac Zify.zify_post_hook ::= Z.div_mod_to_equations.

Lemma defined_iff us name : NoDup (fun_names us) -> function us name <> None <-> In name (fun_names us).
Proof.
  intros ND. split.
  - intros F. destruct (in_dec (list_eq_dec Z.eq_dec) name (fun_names us)) as [I|N]; [exact I|]. exfalso. apply F. unfold function. rewrite (no_function _ _ N). reflexivity.
  - intros I. unfold fun_names in I. apply in_flat_map in I as (u & I & J). destruct u as [f b| |]; [|destruct J|destruct J]. destruct J as [<-|[]]. rewrite (function_one _ _ _ ND I). discriminate.
Qed.

(** ** C75 *)

(** The source is a C file, it can be read in one way only, and it defines the functions
    of the node, of its ports and, if there is input, the one that is told about it. *)
Theorem source_is_c version fuel sfx W nd name callbacks direct synced W' nd' c tin tout :
  generate fuel sfx W nd name callbacks direct synced = Ok (W', nd', c) -> ~ In 42 version ->
  node_fits sfx W' nd' (c_name c) (the_callbacks callbacks) tin tout ->
  exists us, is_c (source_lines version c) us /\ (forall us', is_c (source_lines version c) us' -> us' = us) /\
    forall f, function us f <> None <-> In f
      ([lit "ApxNode_Init_" ++ c_name c; lit "ApxNode_GetNodeData_" ++ c_name c; lit "ApxNode_IsConnected_" ++ c_name c]
       ++ map (read_name (c_name c) W') (n_require nd') ++ map (write_name (c_name c) W') (n_provide nd')
       ++ (if 0 <? total tin then [c_name c ++ lit "_inPortDataWritten"] else [])).
Proof.
  intros E V F. destruct (fits_good _ _ _ _ _ _ _ _ _ _ _ _ _ _ E V F) as (ds & G). exists (file_units c ds).
  pose proof (source_reads c ds version (go_file _ _ _ _ _ G)) as C. split; [exact C|]. split; [intros us' C'; exact (is_c_unique _ _ _ C' C)|].
  intros f. rewrite (defined_iff _ _ (go_names _ _ _ _ _ G)), fun_names_are. pose proof (go_notifier _ _ _ _ _ G) as N.
  apply generate_inv in E as (W1 & nm & ins & outs & text & cbs & _ & _ & _ & E). destruct E as [Gi Go Gt Gii Goi Gr Gw Gc Gn Gnm Gd Gil Gol Glit Glens Goff].
  destruct F as [Fnode Fname Ftext Fports Fcalls Fin Fout Fmem Freq Fprov]. pose proof (text_names_distinct _ _ Freq) as N1. pose proof (text_names_distinct _ _ Fprov) as N2.
  unfold port_names in N1, N2. rewrite <- (signals_names _ _ _ _ _ _ _ Gi) in N1. rewrite <- (signals_names _ _ _ _ _ _ _ Go) in N2.
  rewrite (gen_funcs_all _ _ _ _ _ N1 _ _ (fun x I => I) Gr), (gen_funcs_all _ _ _ _ _ N2 _ _ (fun x I => I) Gw), (signal_funcs _ _ _ _ _ _ _ Gi), (signal_funcs _ _ _ _ _ _ _ Go).
  unfold text_names. rewrite !map_map, Gnm. rewrite Gil, (sum_lens_total _ _ (signals_lens _ _ _ _ _ _ _ _ Gi Fin)) in N.
  assert (match c_notifier c with NoNotifier => [] | _ => [notify_name nm] end = (if 0 <? total tin then [nm ++ lit "_inPortDataWritten"] else [])) as ->; [|reflexivity].
  destruct (0 <? total tin); [|rewrite N; reflexivity]. unfold rx_notifier in N. destruct (c_notifier c); [destruct N|reflexivity|reflexivity].
Qed.
Print Assumptions source_is_c.

Lemma typed H e d t ty : resolve_data_element H e = Ok d -> cable H d t -> ctypename H e = Ok ty ->
  opt_text ty = match e with DRef _ (RObj k) => opt_text (dt_name (H k)) | _ => plain_type t end.
Proof.
  intros R C E. destruct e as [a c lo hi al|a es|a [i|r|k]]; cbn [ctypename] in E; try discriminate; [|injection E as <-; reflexivity].
  apply bind_ok in E as (x & X & E). injection E as <-. injection R as <-. cbn [opt_text].
  inversion C; subst; try match goal with S : small ?k, K : kind_of ?c = Some ?k |- _ => destruct c; cbn in K; try discriminate; injection K as <-; try destruct S end; injection X as <-; reflexivity.
Qed.

(** The Write functions of the text. *)
Theorem write_in_text version fuel sfx W nd name callbacks direct synced W' nd' c tin tout us i o t :
  generate fuel sfx W nd name callbacks direct synced = Ok (W', nd', c) -> ~ In 42 version ->
  node_fits sfx W' nd' (c_name c) (the_callbacks callbacks) tin tout -> is_c (source_lines version c) us ->
  nth_error (n_provide nd') i = Some o -> nth_error tout i = Some t ->
  (exists body, function us (write_name (c_name c) W' o) =
     Some (UFun (mk_cproto (lit "Std_ReturnType") false (write_name (c_name c) W' o) [(Some (c_type W' o t), by_ref t, lit "val")]) body)) /\
  forall buf x, len buf = total tout -> shape sfx t x ->
  exists m d, call_text us (lit "m_outPortdata") (write_name (c_name c) W' o) buf x = Some m /\
    len (m_buf m) = total tout /\ part_of tout (m_buf m) i = image t x /\
    (forall j, j <> i -> part_of tout (m_buf m) j = part_of tout buf j) /\
    (forall v, meaning t x = Some v -> dec t (part_of tout (m_buf m) i) = Some v) /\
    m_val m = x /\ m_lock m = false /\ m_bare m = 0 /\ m_out m = [(port_start tout i, tlen t, d)] /\
    (d = true <-> exists nm, pt_name (w_ports W' o) = Some nm /\ In nm direct).
Proof.
  intros E V F C No Nt. destruct (fits_good _ _ _ _ _ _ _ _ _ _ _ _ _ _ E V F) as (ds & G).
  rewrite (is_c_unique _ _ _ C (source_reads c ds version (go_file _ _ _ _ _ G))). clear us C.
  pose proof (nf_outs _ _ _ _ _ _ _ F) as Fout. pose proof (text_names_distinct _ _ (nf_provided _ _ _ _ _ _ _ F)) as N2.
  destruct (write_function _ _ _ _ _ _ _ _ _ _ _ _ _ _ _ E Fout N2 No Nt) as (_ & f & Nf & En & K). fold (write_name (c_name c) W' o) in En.
  pose proof (nth_error_In _ _ Nf) as If. split.
  - exists (match funit (lit "m_outPortdata") f with UFun _ b => b | _ => [] end). pose proof (function_one _ _ _ (go_names _ _ _ _ _ G) (write_in c ds f If)) as X. cbn [cp_name] in X. rewrite En in X.
    rewrite X. cbn [funit]. do 2 f_equal.
    apply generate_inv in E as (W1 & nm & ins & outs & text & cbs & _ & _ & _ & E). destruct E as [Gi Go Gt Gii Goi Gr Gw Gc Gn Gnm Gd Gil Gol Glit Glens Goff].
    destruct (call_facts _ _ _ _ _ _ _ _ _ _ _ _ _ Go Fout N2 Gw No Nt) as (_ & _ & _ & _ & d & p & body & n & ty & R & Cd & Ep & Nf' & _).
    destruct (signals_nth _ _ _ _ _ _ _ _ _ Go No) as (s & Ns & S). unfold port_names in N2. rewrite <- (signals_names _ _ _ _ _ _ _ Go) in N2.
    destruct (gen_funcs_nth _ _ _ _ _ N2 _ _ i s (fun x I => I) Gw Ns) as (body' & n' & Nf'' & _).
    rewrite Nf in Nf', Nf''. injection Nf' as ->. injection Nf'' as _ E2 _ _. cbn [cf_type cf_pointer]. rewrite E2. pose proof (typed _ _ _ _ _ R Cd (sg_type _ _ _ _ _ _ _ S)) as T.
    unfold c_type. rewrite <- T, Ep. reflexivity.
  - intros buf x Lb Sx. rewrite <- En, (write_is c ds (go_names _ _ _ _ _ G) f buf x If). exact (K buf x Lb Sx).
Qed.
Print Assumptions write_in_text.

(** The Read functions of the text. *)
Theorem read_in_text version fuel sfx W nd name callbacks direct synced W' nd' c tin tout us i o t :
  generate fuel sfx W nd name callbacks direct synced = Ok (W', nd', c) -> ~ In 42 version ->
  node_fits sfx W' nd' (c_name c) (the_callbacks callbacks) tin tout -> is_c (source_lines version c) us ->
  nth_error (n_require nd') i = Some o -> nth_error tin i = Some t ->
  (exists body, function us (read_name (c_name c) W' o) =
     Some (UFun (mk_cproto (lit "Std_ReturnType") false (read_name (c_name c) W' o) [(Some (c_type W' o t), true, lit "val")]) body)) /\
  forall buf old, bytes_ok buf -> len buf = total tin -> shape sfx t old ->
  exists m, call_text us (lit "m_inPortdata") (read_name (c_name c) W' o) buf old = Some m /\
    m_buf m = buf /\ m_val m = loaded t old (part_of tin buf i) /\
    (forall v, dec t (part_of tin buf i) = Some v -> terminated t (part_of tin buf i) -> meaning t (m_val m) = Some v) /\
    m_lock m = false /\ m_bare m <= 1 /\ m_out m = [].
Proof.
  intros E V F C No Nt. destruct (fits_good _ _ _ _ _ _ _ _ _ _ _ _ _ _ E V F) as (ds & G).
  rewrite (is_c_unique _ _ _ C (source_reads c ds version (go_file _ _ _ _ _ G))). clear us C.
  pose proof (nf_ins _ _ _ _ _ _ _ F) as Fin. pose proof (text_names_distinct _ _ (nf_required _ _ _ _ _ _ _ F)) as N2.
  destruct (read_function _ _ _ _ _ _ _ _ _ _ _ _ _ _ _ E Fin N2 No Nt) as (_ & f & Nf & En & K). fold (read_name (c_name c) W' o) in En.
  pose proof (nth_error_In _ _ Nf) as If. split.
  - exists (match funit (lit "m_inPortdata") f with UFun _ b => b | _ => [] end). pose proof (function_one _ _ _ (go_names _ _ _ _ _ G) (read_in c ds f If)) as X. cbn [cp_name] in X. rewrite En in X.
    rewrite X. cbn [funit]. do 2 f_equal.
    apply generate_inv in E as (W1 & nm & ins & outs & text & cbs & _ & _ & _ & E). destruct E as [Gi Go Gt Gii Goi Gr Gw Gc Gn Gnm Gd Gil Gol Glit Glens Goff].
    destruct (call_facts _ _ _ _ _ _ _ _ _ _ _ _ _ Gi Fin N2 Gr No Nt) as (_ & _ & _ & _ & d & p & body & n & ty & R & Cd & Ep & Nf' & _).
    destruct (signals_nth _ _ _ _ _ _ _ _ _ Gi No) as (s & Ns & S). unfold port_names in N2. rewrite <- (signals_names _ _ _ _ _ _ _ Gi) in N2.
    destruct (gen_funcs_nth _ _ _ _ _ N2 _ _ i s (fun x I => I) Gr Ns) as (body' & n' & Nf'' & _).
    rewrite Nf in Nf', Nf''. injection Nf' as ->. injection Nf'' as _ E2 _ _. cbn [cf_type cf_pointer]. rewrite E2. pose proof (typed _ _ _ _ _ R Cd (sg_type _ _ _ _ _ _ _ S)) as T.
    unfold c_type. rewrite <- T, Ep. reflexivity.
  - intros buf x Bo Lb Sx. rewrite <- En, (read_is c ds (go_names _ _ _ _ _ G) f buf x If). exact (K buf x Bo Lb Sx).
Qed.
Print Assumptions read_in_text.

(** ** C76 *)

(** The Init function of the text hands to apx_nodeData_create what the data of the node
    are: name, definition (behind it a line break), initial input and output. *)
Theorem init_in_text version fuel sfx W nd name callbacks direct synced W' nd' c tin tout us W0 F k W2 F' k' D :
  generate fuel sfx W nd name callbacks direct synced = Ok (W', nd', c) -> ~ In 42 version ->
  node_fits sfx W' nd' (c_name c) (the_callbacks callbacks) tin tout -> is_c (source_lines version c) us ->
  same_node W nd W' W0 -> separate nd' -> NodeDataModel.node_data fuel W0 nd' F k = Ok (W2, F', k', D) ->
  init_text (source_lines version c) us (c_name c) =
  Some (mk_made (opt_text (n_name nd')) (f_data (F' (d_def D)) ++ [10]) (len (f_data (F' (d_def D))) + 1)
          (NodeDataProps.in_data F' D) ((0 <? total tin) && synced) (NodeDataProps.out_data F' D)
          (match callbacks with Some _ => Some (opt_text (n_name nd') ++ lit "_inPortDataWritten") | None => None end)).
Proof.
  intros E V Fi C SN Sep ND. destruct (fits_good _ _ _ _ _ _ _ _ _ _ _ _ _ _ E V Fi) as (ds & G).
  rewrite (is_c_unique _ _ _ C (source_reads c ds version (go_file _ _ _ _ _ G))). clear us C.
  pose proof (text_names_distinct _ _ (nf_required _ _ _ _ _ _ _ Fi)) as N1. pose proof (text_names_distinct _ _ (nf_provided _ _ _ _ _ _ _ Fi)) as N2.
  destruct (generated_data _ _ _ _ _ _ _ _ _ _ _ _ _ _ _ _ _ _ E SN Sep ND N1 N2) as (Di & Do & Li & Lo & Ld & Dd).
  destruct (generate_flags _ _ _ _ _ _ _ _ _ _ _ E) as (Enode & Ecb & Esy).
  destruct (go_text _ _ _ _ _ G) as (text & Gt & Dc & Ed).
  assert (text = f_data (F' (d_def D))) as ->.
  { apply generate_inv in E as (W1 & nm & ins & outs & text' & cbs & Fin & S1 & _ & E). pose proof (gd_ins _ _ _ _ _ _ _ _ _ _ _ _ E) as Gi. pose proof (gd_outs _ _ _ _ _ _ _ _ _ _ _ _ E) as Go.
    assert (S0 : same_world W' W0).
    { destruct SN as [->|[Nf ->]]; [apply same_world_refl|]. unfold finalize in Fin. rewrite Nf in Fin. injection Fin as -> ->. apply same_world_sym. exact S1. }
    destruct (node_data_agrees _ _ _ _ _ _ _ _ _ _ _ _ Sep ND (signals_same _ _ _ _ _ S0 _ _ _ Gi) (signals_same _ _ _ _ _ S0 _ _ _ Go)) as (_ & _ & _ & _ & Dt).
    rewrite (dumps_same _ _ _ _ S0), Gt in Dt. congruence. }
  assert (c_inlen c = total tin) as Ti.
  { apply generate_inv in E as (W1 & nm & ins & outs & text' & cbs & _ & _ & _ & E). rewrite (gd_inlen _ _ _ _ _ _ _ _ _ _ _ _ E).
    exact (sum_lens_total _ _ (signals_lens _ _ _ _ _ _ _ _ (gd_ins _ _ _ _ _ _ _ _ _ _ _ _ E) (nf_ins _ _ _ _ _ _ _ Fi))). }
  assert (Forall is_fun (map snd (node_funs c) ++ map (funit (lit "m_inPortdata")) (c_reads c) ++ map (funit (lit "m_outPortdata")) (c_writes c) ++ nunits c (c_notifier c))) as FUN.
  { repeat (apply Forall_app; split); [repeat constructor|apply Forall_map, Forall_forall; intros; exact Logic.I|apply Forall_map, Forall_forall; intros; exact Logic.I|].
    destruct (c_notifier c); repeat constructor. }
  assert (ds <> []) as DS. { intros ->. cbn [concat] in Dc. destruct (f_data (F' (d_def D))); discriminate. }
  pose proof (run_init c ds _ (source_lines version c) _ FUN (go_macros _ _ _ _ _ G) (go_rx _ _ _ _ _ G) (go_out _ _ _ _ _ G) (go_in _ _ _ _ _ G) (go_outs _ _ _ _ _ G) (go_ins _ _ _ _ _ G) DS) as R.
  assert (In (UFun (mk_cproto (lit "apx_nodeData_t") true (lit "ApxNode_Init_" ++ c_name c) []) (map snd (init_list c))) (file_units c ds)) as I.
  { unfold file_units. apply in_or_app. right. apply in_or_app. left. left. reflexivity. }
  unfold init_text. pose proof (function_one _ _ _ (go_names _ _ _ _ _ G) I) as X. cbn [cp_name] in X. rewrite X. cbn [obind cp_ret cp_star cp_params]. rewrite ?is_refl. cbn [andb].
  refine (eq_trans R _). unfold made_of, handler_name. rewrite Dc, Ed, Di, Do, Ti, Enode, Ecb, Esy. destruct callbacks; reflexivity.
Qed.
Print Assumptions init_in_text.

(** The two functions about the state: GetNodeData gives the node data that Init made,
    IsConnected is true when each direction that has data is open, and false without data. *)
Theorem state_in_text version fuel sfx W nd name callbacks direct synced W' nd' c tin tout us :
  generate fuel sfx W nd name callbacks direct synced = Ok (W', nd', c) -> ~ In 42 version ->
  node_fits sfx W' nd' (c_name c) (the_callbacks callbacks) tin tout -> is_c (source_lines version c) us ->
  gets_node us (c_name c) = Some true /\
  forall inputs outputs, exists b, connected_text us (c_name c) inputs outputs = Some b /\
    (b = true <-> (0 < total tin \/ 0 < total tout) /\ (0 < total tin -> inputs = true) /\ (0 < total tout -> outputs = true)).
Proof.
  intros E V Fi C. destruct (fits_good _ _ _ _ _ _ _ _ _ _ _ _ _ _ E V Fi) as (ds & G).
  rewrite (is_c_unique _ _ _ C (source_reads c ds version (go_file _ _ _ _ _ G))). clear us C.
  assert (c_inlen c = total tin /\ c_outlen c = total tout) as [Ti To].
  { apply generate_inv in E as (W1 & nm & ins & outs & text' & cbs & _ & _ & _ & E). rewrite (gd_inlen _ _ _ _ _ _ _ _ _ _ _ _ E), (gd_outlen _ _ _ _ _ _ _ _ _ _ _ _ E). split.
    - exact (sum_lens_total _ _ (signals_lens _ _ _ _ _ _ _ _ (gd_ins _ _ _ _ _ _ _ _ _ _ _ _ E) (nf_ins _ _ _ _ _ _ _ Fi))).
    - exact (sum_lens_total _ _ (signals_lens _ _ _ _ _ _ _ _ (gd_outs _ _ _ _ _ _ _ _ _ _ _ _ E) (nf_outs _ _ _ _ _ _ _ Fi))). }
  split.
  - assert (In (UFun (mk_cproto (lit "apx_nodeData_t") true (lit "ApxNode_GetNodeData_" ++ c_name c) []) [snd (fixed "return &m_nodeData;")]) (file_units c ds)) as I.
    { unfold file_units. apply in_or_app. right. apply in_or_app. left. right. left. reflexivity. }
    pose proof (function_one _ _ _ (go_names _ _ _ _ _ G) I) as X. cbn [cp_name] in X. unfold gets_node, returned. rewrite X. vm_compute. reflexivity.
  - assert (In (UFun (mk_cproto (lit "bool") false (lit "ApxNode_IsConnected_" ++ c_name c) []) [snd (connected c)]) (file_units c ds)) as I.
    { unfold file_units. apply in_or_app. right. apply in_or_app. left. right. right. left. reflexivity. }
    pose proof (function_one _ _ _ (go_names _ _ _ _ _ G) I) as X. cbn [cp_name] in X. intros i o. unfold connected_text, returned. rewrite X. unfold connected. rewrite Ti, To.
    destruct (0 <? total tin) eqn:A; destruct (0 <? total tout) eqn:B; destruct i; destruct o; (eexists; split; [vm_compute; reflexivity|]); apply Z.ltb_lt in A || apply Z.ltb_ge in A; apply Z.ltb_lt in B || apply Z.ltb_ge in B; clear X;
      (split; [intros; try discriminate; repeat split; intros; try reflexivity; lia|]); intros (D & K1 & K2); try reflexivity; try (exact (K1 A)); try (exact (K2 B)); lia.
Qed.
Print Assumptions state_in_text.

(** The macros of the text: lengths, and with callbacks where the data of each port are. *)
Theorem constants_in_text version fuel sfx W nd name callbacks direct synced W' nd' c tin tout :
  generate fuel sfx W nd name callbacks direct synced = Ok (W', nd', c) -> ~ In 42 version ->
  node_fits sfx W' nd' (c_name c) (the_callbacks callbacks) tin tout ->
  constant (source_lines version c) (lit "APX_IN_PORT_DATA_LEN") = Some (total tin) /\
  constant (source_lines version c) (lit "APX_OUT_PORT_DATA_LEN") = Some (total tout) /\
  (forall text, context_dumps false W' [nd'] = Ok text -> constant (source_lines version c) (lit "APX_DEFINITON_LEN") = Some (len text + 1)) /\
  forall i o t, NoDup (macro_names W' (n_require nd')) -> nth_error (n_require nd') i = Some o -> nth_error tin i = Some t ->
    let found := fun z => match callbacks with Some _ => Some z | None => None end in
    constant (source_lines version c) (lit "APX_RX_OFFSET_" ++ upper (opt_text (pt_name (w_ports W' o)))) = found (port_start tin i) /\
    constant (source_lines version c) (lit "APX_RX_LEN_" ++ upper (opt_text (pt_name (w_ports W' o)))) = found (tlen t).
Proof.
  intros E V Fi. destruct (fits_good _ _ _ _ _ _ _ _ _ _ _ _ _ _ E V Fi) as (ds & G). unfold constant. rewrite (go_macros _ _ _ _ _ G). pose proof (go_rx _ _ _ _ _ G) as RX.
  destruct (go_text _ _ _ _ _ G) as (text & Gt & _ & Ed). clear G.
  apply generate_inv in E as (W1 & nm & ins & outs & text' & cbs & _ & _ & _ & E). destruct E as [Gi Go _ Gii Goi Gr Gw Gc Gn Gnm Gd Gil Gol Glit Glens Goff].
  pose proof (signals_lens _ _ _ _ _ _ _ _ Gi (nf_ins _ _ _ _ _ _ _ Fi)) as Ll. pose proof (signals_lens _ _ _ _ _ _ _ _ Go (nf_outs _ _ _ _ _ _ _ Fi)) as Lo.
  split; [refine (eq_trans (three_in c _ RX) _); rewrite Gil, (sum_lens_total _ _ Ll); reflexivity|].
  split; [refine (eq_trans (three_out c _ RX) _); rewrite Gol, (sum_lens_total _ _ Lo); reflexivity|].
  split; [intros tx Etx; refine (eq_trans (three_deflen c _ RX) _); rewrite Ed; congruence|].
  intros i o t ND No Nt. destruct (signals_nth _ _ _ _ _ _ _ _ _ Gi No) as (s & Ns & S).
  change (lit "APX_RX_OFFSET_" ++ upper (opt_text (pt_name (w_ports W' o)))) with (lit "APX_RX_" ++ (lit "OFFSET_" ++ upper (opt_text (pt_name (w_ports W' o))))).
  change (lit "APX_RX_LEN_" ++ upper (opt_text (pt_name (w_ports W' o)))) with (lit "APX_RX_" ++ (lit "LEN_" ++ upper (opt_text (pt_name (w_ports W' o))))).
  rewrite !three_rx. destruct callbacks as [m|]; cbn [made_callbacks] in Gc.
  - apply bind_ok in Gc as (l & Gc & X). injection X as <-. apply create_callbacks_inv in Gc as [-> _].
    assert (ND' : NoDup (map (fun s => upper (opt_text (si_name s))) ins)).
    { rewrite <- (map_map si_name (fun x => upper (opt_text x))), (signals_names _ _ _ _ _ _ _ Gi), map_map. exact ND. }
    pose proof (macro_table m ins ND') as T. rewrite Forall_forall in T. specialize (T s (nth_error_In _ _ Ns)). rewrite Glens, Goff.
    destruct T as [T1 T2]. unfold cb_of at 3 in T1. unfold cb_of at 3 in T2. cbn [cb_offset_define cb_len_define] in T1, T2. rewrite (sg_name _ _ _ _ _ _ _ S) in T1, T2.
    split; [refine (eq_trans T1 _)|refine (eq_trans T2 _)].
    + rewrite (sg_offset _ _ _ _ _ _ _ S), (sum_lens_firstn _ _ i Ll). reflexivity.
    + pose proof (f_equal (fun l => nth_error l i) Ll) as X. cbn beta in X. rewrite !nth_error_map, Ns, Nt in X. exact X.
  - injection Gc as <-. rewrite Glens, Goff. split; reflexivity.
Qed.
Print Assumptions constants_in_text.

(** The function of the text that is told about new input calls the callbacks of exactly
    the ports concerned (as C62, for the text). *)
Theorem notify_in_text version fuel sfx W nd name callbacks direct synced W' nd' c tin tout us buf old off n :
  generate fuel sfx W nd name callbacks direct synced = Ok (W', nd', c) -> ~ In 42 version ->
  node_fits sfx W' nd' (c_name c) (the_callbacks callbacks) tin tout -> is_c (source_lines version c) us ->
  NoDup (macro_names W' (n_require nd')) -> Forall (fun t => 0 < tlen t) tin -> 0 < total tin < 2 ^ 32 ->
  bytes_ok buf -> len buf = total tin ->
  (forall i o t, nth_error (n_require nd') i = Some o -> nth_error tin i = Some t -> shape sfx t (old (opt_text (pt_name (w_ports W' o))))) ->
  0 <= off -> 0 <= n -> off + n <= total tin ->
  (exists i, (i <= length tin)%nat /\ off = port_start tin i) \/
  (forall i o, nth_error (n_require nd') i = Some o -> callback_for (the_callbacks callbacks) (pt_name (w_ports W' o)) <> None -> off < port_start tin i) ->
  notify_text (source_lines version c) us (c_name c ++ lit "_inPortDataWritten") buf old off n =
  Some (flat_map (fun i => match nth_error (n_require nd') i, nth_error tin i with
                           | Some o, Some t =>
                             match callback_for (the_callbacks callbacks) (pt_name (w_ports W' o)) with
                             | Some f => [(f, loaded t (old (opt_text (pt_name (w_ports W' o)))) (part_of tin buf i))]
                             | None => []
                             end
                           | _, _ => []
                           end) (affected tin off n)).
Proof.
  intros E V Fi C ND Lo [T0 T1] Bo Lb Sh O1 O2 O3 St. destruct (fits_good _ _ _ _ _ _ _ _ _ _ _ _ _ _ E V Fi) as (ds & G).
  rewrite (is_c_unique _ _ _ C (source_reads c ds version (go_file _ _ _ _ _ G))). clear us C.
  assert (c_inlen c = total tin) as Ti.
  { apply generate_inv in E as (W1 & nm & ins & outs & text' & cbs & _ & _ & _ & E). rewrite (gd_inlen _ _ _ _ _ _ _ _ _ _ _ _ E).
    exact (sum_lens_total _ _ (signals_lens _ _ _ _ _ _ _ _ (gd_ins _ _ _ _ _ _ _ _ _ _ _ _ E) (nf_ins _ _ _ _ _ _ _ Fi))). }
  pose proof (go_notifier _ _ _ _ _ G) as N. rewrite Ti in N. replace (0 <? total tin) with true in N by lia.
  refine (eq_trans (notify_is c ds (go_names _ _ _ _ _ G) _ buf old off n (go_macros _ _ _ _ _ G) N) _). clear N.
  destruct callbacks as [m|].
  - exact (callbacks_called_right _ _ _ _ _ _ _ _ _ _ _ _ _ _ _ _ E (nf_ins _ _ _ _ _ _ _ Fi) ND Lo T1 Bo Lb Sh O1 O2 O3 St).
  - assert (c_notifier c = Ignores) as X.
    { apply generate_inv in E as (W1 & nm & ins & outs & text' & cbs & _ & _ & _ & E). pose proof (gd_notifier _ _ _ _ _ _ _ _ _ _ _ _ E) as Gn. pose proof (gd_cbs _ _ _ _ _ _ _ _ _ _ _ _ E) as Gc. injection Gc as <-.
      rewrite <- (gd_inlen _ _ _ _ _ _ _ _ _ _ _ _ E), Ti in Gn. unfold gen_notifier in Gn. replace (total tin =? 0) with false in Gn by lia. injection Gn as <-. reflexivity. }
    unfold callbacks_called. rewrite X. f_equal. symmetry. induction (affected tin off n) as [|i l IH]; [reflexivity|]. cbn [flat_map]. rewrite IH, app_nil_r.
    destruct (nth_error (n_require nd') i) as [o|], (nth_error tin i); try reflexivity. unfold the_callbacks, callback_for. destruct (pt_name (w_ports W' o)); reflexivity.
Qed.
Print Assumptions notify_in_text.

(** ** Examples *)

(** Checks for the conditions on names. *)
Definition c_identb (s : str) : bool :=
  (match s with [] => false | c :: _ => letter c end) && forallb name_char s && negb (existsb (fun p => str_eqb s (lit (fst p))) keywords).
Lemma c_identb_ok s : c_identb s = true -> c_ident s.
Proof.
  unfold c_identb. intros E. apply andb_prop in E as [E K]. apply andb_prop in E as [A B]. split; [destruct s; [discriminate|exact A]|]. split; [exact B|].
  intros I. apply in_map_iff in I as (p & <- & I). apply negb_true_iff in K. rewrite <- not_true_iff_false in K. apply K, existsb_exists. exists p. split; [exact I|apply str_eqb_refl].
Qed.
Fixpoint members_fitb (sfx : str) (t : ty) : bool :=
  match t with
  | TRec ms => (fix all l := match l with [] => true | (nm, t) :: r => (c_identb (nm ++ sfx) && members_fitb [] t) && all r end) ms
  | _ => true
  end.
Lemma members_fitb_ok : forall t sfx, members_fitb sfx t = true -> members_fit sfx t.
Proof.
  fix IH 1. intros [k|k n| |n|ms] sfx; try (intros _; exact Logic.I). cbn [members_fitb members_fit]. induction ms as [|[nm t] r IHr]; [intros _; exact Logic.I|].
  intros E. apply andb_prop in E as [E E3]. apply andb_prop in E as [E1 E2]. split; [split; [exact (c_identb_ok _ E1)|exact (IH _ _ E2)]|exact (IHr E3)].
Qed.
Definition fitsb (sfx : str) (W : world) (nd : node) (name : str) (m : list (str * option str)) (ins outs : list ty) : bool :=
  c_identb (opt_text (n_name nd)) && c_identb name && (match context_dumps false W [nd] with Ok text => negb (existsb (Z.eqb 92) text) | Err _ => true end) &&
  forallb (fun o => forallb name_char (opt_text (pt_name (w_ports W o))) &&
             match pt_elem (w_ports W o) with DRef _ (RObj k) => c_identb (opt_text (dt_name (w_types W k))) | _ => true end) (n_require nd ++ n_provide nd) &&
  forallb (fun o => match callback_for m (pt_name (w_ports W o)) with Some f => c_identb f && c_identb (opt_text (pt_name (w_ports W o))) | None => true end) (n_require nd) &&
  forallb (members_fitb sfx) (ins ++ outs) && distinct (text_names W (n_require nd)) && distinct (text_names W (n_provide nd)).
Lemma fitsb_ok sfx W nd name m ins outs : fitsb sfx W nd name m ins outs = true -> map (port_type W) (n_require nd) = map Some ins -> map (port_type W) (n_provide nd) = map Some outs ->
  node_fits sfx W nd name m ins outs.
Proof.
  intros E I O. unfold fitsb in E. do 7 (apply andb_prop in E as [E ?]). constructor.
  - apply c_identb_ok. assumption.
  - apply c_identb_ok. assumption.
  - intros text T J. rewrite T in *. match goal with H : negb _ = true |- _ => apply negb_true_iff in H; rewrite <- not_true_iff_false in H; apply H end. apply existsb_exists. exists 92. auto.
  - apply Forall_forall. intros o J. match goal with H : forallb _ (n_require nd ++ n_provide nd) = true |- _ => rewrite forallb_forall in H; specialize (H o J); apply andb_prop in H as [A B] end.
    split; [exact A|]. destruct (pt_elem (w_ports W o)) as [| |? [| |k]]; try exact Logic.I. apply c_identb_ok, B.
  - apply Forall_forall. intros o J. match goal with H : forallb _ (n_require nd) = true |- _ => rewrite forallb_forall in H; specialize (H o J); rename H into B end. unfold callback_fits.
    destruct (callback_for m (pt_name (w_ports W o))); [|exact Logic.I]. apply andb_prop in B as [B1 B2]. split; apply c_identb_ok; assumption.
  - apply port_type_sound, I.
  - apply port_type_sound, O.
  - apply Forall_forall. intros t J. match goal with H : forallb _ (ins ++ outs) = true |- _ => rewrite forallb_forall in H; exact (members_fitb_ok _ _ (H t J)) end.
  - apply distinct_nodup. assumption.
  - apply distinct_nodup. assumption.
Qed.

(** The test node of the repository fits, so that the theorems apply to it. *)
Example ex_fits :
  match test_file with Ok (W', nd', c) => node_fits [] W' nd' (c_name c) (the_callbacks (Some test_callbacks)) test_requires test_provides | Err _ => False end.
Proof.
  pose proof ex_supported as S.
  assert (match test_file with Ok (W', nd', c) => fitsb [] W' nd' (c_name c) test_callbacks test_requires test_provides | Err _ => false end = true) as B by (vm_compute; reflexivity).
  destruct test_file as [[[W' nd'] c]|e]; [|destruct S]. destruct S as (S1 & _ & S2 & _). apply fitsb_ok; assumption.
Qed.

(** Reading a file: the number of steps is enough for it. *)
Definition reading (r : res (world * node * cfile)) : option (list str * list unit_) :=
  match r with
  | Ok (_, _, c) => let l := source_lines (lit "0.4.1") c in let? t := words l in let? us := p_file 600 t in Some (l, us)
  | Err _ => None
  end.
(** Its source, read: functions, calls, initial data, macros, callbacks. *)
Example ex_reading :
  match reading test_file with
  | Some (l, us) =>
    length us = 26%nat /\ length (filter (fun u => match u with UFun _ _ => true | _ => false end) us) = 18%nat /\
    option_map m_buf (call_text us (lit "m_outPortdata") (lit "ApxNode_Write_Test_PU16ARPort") (zeros 20) (CArr [1; 258; 65535; 4660])) =
      Some [0; 0; 0; 0; 0; 0; 0; 0; 1; 0; 2; 1; 255; 255; 52; 18; 0; 0; 0; 0] /\
    option_map m_val (call_text us (lit "m_inPortdata") (lit "ApxNode_Read_Test_RS16ARPort") [12; 255; 127; 1; 0; 0; 0; 1; 0; 0; 0; 255; 255; 255; 255; 255; 255; 255; 255; 255; 255; 210] (CArr [0; 0; 0])) =
      Some (CArr [32767; 1; 0]) /\
    option_map (fun m => (md_name m, md_length m, md_in m, md_synced m, len (md_out m), md_handler m)) (init_text l us (lit "Test")) =
      Some (lit "Test", 493, [12; 255; 127; 1; 0; 0; 0; 1; 0; 0; 0; 255; 255; 255; 255; 255; 255; 255; 255; 255; 255; 210], true, 20, Some (lit "Test_inPortDataWritten")) /\
    constant l (lit "APX_RX_OFFSET_RU8PORT") = Some 11 /\
    notify_text l us (lit "Test_inPortDataWritten") [12; 255; 127; 1; 0; 0; 0; 1; 0; 0; 0; 255; 255; 255; 255; 255; 255; 255; 255; 255; 255; 210] blank_object 7 5 =
      Some [(lit "RU8Port_cb_func", CInt 255)] /\
    map (fun p => connected_text us (lit "Test") (fst p) (snd p)) [(true, true); (true, false); (false, true); (false, false)] = [Some true; Some false; Some false; Some false]
  | None => False
  end.
Proof. vm_compute. repeat split. Qed.

(** ** What does not hold *)

Lemma reads_at l us t n : words l = Some t -> (forall k, p_file (n + k) t = Some us) -> is_c l us.
Proof. intros E P. exists t, n. split; [exact E|]. intros k K. replace k with (n + (k - n))%nat by lia. apply P. Qed.
Lemma reads_never l t n : words l = Some t -> (forall k, p_file (n + k) t = None) -> forall us, ~ is_c l us.
Proof. intros E P us (t' & n' & E' & P'). rewrite E in E'. injection E' as <-. specialize (P n'). rewrite (P' (n + n')%nat) in P by lia. discriminate. Qed.

Definition lines_of (r : res (world * node * cfile)) : list str := match r with Ok (_, _, c) => source_lines (lit "0.4.1") c | Err _ => [] end.

(** A record element called like a word of C: the source is not a C file. *)
Theorem member_name_refuted :
  let l := lines_of (gen_of "T""T""{""for""C""to""C}
P""A""T[""T""]:={1,2}
" None) in l <> [] /\ forall us, ~ is_c l us.
Proof.
  cbv zeta. split; [vm_compute; discriminate|].
  refine (reads_never _ _ 600 _ _); [vm_compute; reflexivity|]. intros k. vm_compute. reflexivity.
Qed.
Print Assumptions member_name_refuted.

(** A port whose name has a hyphen: no C file either. *)
Theorem port_name_refuted :
  let l := lines_of (gen_of "R""a-b""C:=1
" None) in l <> [] /\ forall us, ~ is_c l us.
Proof.
  cbv zeta. split; [vm_compute; discriminate|].
  refine (reads_never _ _ 600 _ _); [vm_compute; reflexivity|]. intros k. vm_compute. reflexivity.
Qed.
Print Assumptions port_name_refuted.

(** Files named otherwise than the node: the handler that Init hands over is not a function of the file. *)
Definition renamed : res (world * node * cfile) :=
  do '(W, nd) <- loads empty_world (lit "APX/1.2
N""N""
R""A""C:=1
"); generate 100 [] W nd (Some (lit "M")) (Some [(lit "A", Some (lit "a_func"))]) [] false.
Theorem handler_text_refuted :
  let l := lines_of renamed in
  l <> [] /\ exists us, is_c l us /\ option_map md_handler (init_text l us (lit "M")) = Some (Some (lit "N_inPortDataWritten")) /\
    function us (lit "N_inPortDataWritten") = None /\ function us (lit "M_inPortDataWritten") <> None.
Proof.
  cbv zeta. split; [vm_compute; discriminate|]. eexists. split.
  - eapply (reads_at _ _ _ 600); [vm_compute; reflexivity|]. intros k. vm_compute. reflexivity.
  - vm_compute. repeat split. discriminate.
Qed.
Print Assumptions handler_text_refuted.
