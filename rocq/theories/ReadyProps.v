(** Property C70: every supported definition gives working node data and a client. *)
From Coq Require Import ZifyBool ZifyNat Lia.
From Verif Require Import Py PyLemmas TypesModel CompilerModel VmModel TypesSpec TypesProofs CompilerProofs CompilerProps VmProps
  TextModel SigModel AttrModel NodeModel ParserModel FilesModel SigSpec NodeSpec ParserSpec MergeSpec FilesSpec TextProofs SigProofs
  NodeProofs ElemTextProofs ParserProofs LoadProofs RoundTripProofs FinalizeProofs ExtendProofs FilesProofs FilesProofs2
  RmfModel FileModel FileProofs FileMapSpec VmProofs VmPackProofs VmUnpackProofs NodeDataModel NodeDataSpec NodeDataProofs NodeInitProofs NodeDataProps
  ManagerModel ClientModel ClientSpec ClientProofs ParserProps ClientProps ToolsProps ReadySpec ReadyProofs.
Ltac Zify.zify_post_hook ::= Z.div_mod_to_equations.

Lemma Forall2_through {A B C} (P : A -> B -> Prop) (Q : B -> C -> Prop) (R : A -> C -> Prop) l m n :
  (forall a b c, P a b -> Q b c -> R a c) -> Forall2 P l m -> Forall2 Q m n -> Forall2 R l n.
Proof. intros T F. revert n. induction F as [|a b l m X F IH]; intros n G; inversion G; subst; constructor; eauto. Qed.
Lemma tags_unshort W nd : untagged W nd \/ tagged W nd -> unshort W nd.
Proof. intros [U|U] o O; [apply U; exact O|]. apply In_nth_error in O as (i & O). apply (U i o O). Qed.

(** Node data can be built for every supported definition, in all states of the file
    heap, and all that was proved about node data applies; the files hold the
    initial values. *)
Theorem supported_builds W nd D ins outs : represents W nd D -> linked D -> NodeSpec.numbered W nd -> untagged W nd \/ tagged W nd ->
  supported D ins outs -> Forall pleasant ins ->
  exists K, forall fuel F k, (K <= fuel)%nat -> exists W' F' k' Dt, good fuel W nd F k W' F' k' Dt ins outs /\
    initialised W (n_require nd) ins (in_data F' Dt) /\ initialised W (n_provide nd) outs (out_data F' Dt).
Proof.
  intros R L N TG SP PL. destruct (node_ready W nd D ins outs R L N (tags_unshort _ _ TG) SP) as (text & K & _ & H). exists K. intros fuel F k LE.
  destruct (H fuel F k LE) as (W' & F' & k' & Dt & E & MI & MO). exists W', F', k', Dt.
  assert (good fuel W nd F k W' F' k' Dt ins outs) as G.
  { constructor; auto; [eapply rep_separate; eauto|exact (sp_rins _ _ _ SP)|exact (sp_routs _ _ _ SP)]. }
  split; [exact G|]. destruct (initial_contents _ _ _ _ _ _ _ _ _ _ _ G) as [A B]. split; [apply A|apply B].
  - eapply Forall2_through; [|exact (rp_require _ _ _ R)|exact (sp_iins _ _ _ SP)]. cbn. intros o p t (_ & _ & PA & _) Q. unfold init_of. rewrite PA. exact Q.
  - eapply Forall2_through; [|exact (rp_provide _ _ _ R)|exact (sp_iouts _ _ _ SP)]. cbn. intros o p t (_ & _ & PA & _) Q. unfold init_of. rewrite PA. exact Q.
Qed.
Print Assumptions supported_builds.

(** Only nodes with a name, all of whose ports have a supported type. *)
Theorem built_is_supported W nd D fuel F k r : represents W nd D -> linked D -> node_data fuel W nd F k = Ok r ->
  df_name D <> None /\ (forall p, In p (df_provide D ++ df_require D) -> exists t, port_typed D p t) /\
  exists text, context_dumps false W [nd] = Ok text /\ ascii text.
Proof.
  intros R L E. destruct (node_built W nd D fuel F k r R L E) as (A & B). split; [exact A|]. split; [exact B|].
  unfold node_data in E. apply bind_ok in E as (text & Et & E). apply bind_ok in E as ([[W1 ins] fin] & E1 & E). apply bind_ok in E as ([[W2 outs] fout] & E2 & E).
  apply bind_ok in E as (fdef & Ed & _). exists text. split; [exact Et|]. unfold create_definition in Ed. destruct (n_name nd); [|discriminate].
  apply bind_ok in Ed as (f & _ & Ed). apply bind_ok in Ed as (b & Eb & _). unfold encode_ascii in Eb. destruct (forallb _ text) eqn:FB; [|discriminate]. apply ascii_lit. exact FB.
Qed.
Print Assumptions built_is_supported.

(** ** Clients *)

Lemma attach_fits fuel W nd W' F' k' Dt outs text : separate nd -> node_data fuel W nd no_files 0 = Ok (W', F', k', Dt) ->
  Forall2 (port_means W') (n_provide nd) outs -> Forall regular outs -> context_dumps false W [nd] = Ok text ->
  (total outs <= 0x4000000 -> len text <= 0x1C000000 -> exists c, attach_node fuel (new_client W) nd = Ok c /\ c_world c = W') /\
  (0x4000000 < total outs \/ 0x1C000000 < len text -> attach_node fuel (new_client W) nd = Err ValueError).
Proof.
  intros SEP E MO RO TX.
  pose proof (node_data_files _ _ _ _ _ _ _ _ _ E) as (_ & OD & _ & _ & DA & DK & DL & _ & _).
  pose proof E as E'. apply node_data_inv in E' as (_ & _ & (maps & progs & inits & LA & _ & _ & FO) & _ & _ & _ & _ & _ & text' & b & TX' & EB & DD & _ & name & NM & FN); [|exact SEP].
  rewrite TX in TX'. injection TX' as <-.
  assert (b = text) as -> by (unfold encode_ascii in EB; destruct (forallb _ text); [injection EB as <-; reflexivity|discriminate]).
  destruct (laid_tlaid _ _ _ _ _ _ _ _ _ _ LA MO RO) as (_ & SL). rewrite SL in FO. rewrite DD in DL.
  assert (ends_with (lit ".in") (f_name (F' (d_def Dt))) = false /\ ends_with (lit ".out") (f_name (F' (d_def Dt))) = false /\ ends_with (lit ".apx") (f_name (F' (d_def Dt))) = true) as (N1 & N2 & N3).
  { rewrite FN. unfold ends_with. rewrite !rev_app_distr. cbn. auto. }
  set (s0 := mk_fm F' k' empty_map empty_map [] []).
  assert (exists s1, match d_in Dt with Some i => requestRemoteFile s0 i | None => fine s0 end = fine s1 /\ fm_heap s1 = F' /\ fm_local s1 = empty_map) as (s1 & E1 & H1 & L1).
  { destruct (d_in Dt); eexists; split; try reflexivity; auto. }
  assert (attach_node fuel (new_client W) nd =
    match then_ (match d_out Dt with Some i => attachLocalFile s1 i | None => fine s1 end) (fun s => attachLocalFile s (d_def Dt)) with
    | (s, _, None) => Ok (mk_client W' (mk_sys s WNew []) (Some (nd, with_client Dt true)) false [] false)
    | (_, _, Some e) => Err e
    end) as AT.
  { unfold attach_node. change (fm_heap (c_fm (new_client W))) with no_files. change (fm_next (c_fm (new_client W))) with 0%nat. change (c_world (new_client W)) with W.
    rewrite E. cbn [bind]. change (mk_fm F' k' (fm_local (c_fm (new_client W))) (fm_remote (c_fm (new_client W))) (fm_requested (c_fm (new_client W))) (fm_queue (c_fm (new_client W)))) with s0.
    rewrite E1. unfold fine at 1. cbn [then_]. 
    destruct (match d_out Dt with Some i => attachLocalFile s1 i | None => fine s1 end) as [[sa la] ea]. destruct ea; cbn [then_]; [reflexivity|].
    destruct (attachLocalFile sa (d_def Dt)) as [[sb lb] eb]. reflexivity. }
  assert (forall H m, f_address (H (d_def Dt)) = None -> f_kind (H (d_def Dt)) = KOutput -> f_name (H (d_def Dt)) = f_name (F' (d_def Dt)) -> f_length (H (d_def Dt)) = len text ->
    (m = empty_map \/ exists o, m = mk_fmap [0] [o] /\ f_address (H o) = Some 0) ->
    if 0x4000000 + len text <=? 0x20000000 then exists r, insert H m (d_def Dt) = Ok r else insert H m (d_def Dt) = Err ValueError) as ID.
  { intros H m A K Nm Ln Hm. unfold insert, is_apx_file. rewrite K, A. cbn [negb]. unfold assignFileAddressDefault. rewrite Nm, N1, N2, N3. cbn [orb].
    assert (assignFileAddress H m (H (d_def Dt)) DEFINITION_START USER_DATA_START DEFINITION_BOUNDARY =
      if DEFINITION_START + len text <=? USER_DATA_START then Ok DEFINITION_START else Err ValueError) as ->.
    { unfold assignFileAddress. rewrite Ln. destruct Hm as [-> |(o & -> & Ao)]; [reflexivity|].
      change (negb (DEFINITION_START =? 0) && negb (Z.land DEFINITION_START (DEFINITION_START - 1) =? 0)) with false. cbn [len m_keys length].
      change (USER_DATA_START <? DEFINITION_START) with false. change (negb (Z.land DEFINITION_BOUNDARY (DEFINITION_BOUNDARY - 1) =? 0)) with false.
      change (Z.of_nat 1 =? 0) with false. cbv iota. change (bisect_left [0] USER_DATA_START) with 1%nat. cbn [Nat.leb Nat.sub m_items firstn rev app placement_loop]. rewrite Ao.
      change (0 <? DEFINITION_START) with true. reflexivity. }
    unfold DEFINITION_START, USER_DATA_START. destruct (0x4000000 + len text <=? 0x20000000); [eexists; reflexivity|reflexivity]. }
  pose proof (len_nonneg text) as LT. pose proof (total_nonneg _ RO) as TN.
  destruct (d_out Dt) as [o|] eqn:DO.
  - destruct FO as (TP & (FK & _ & FL & _ & _ & FA) & _ & nm' & _ & FNO).
    assert (o <> d_def Dt) as NE by congruence.
    assert (insert F' empty_map o = if total outs <=? 0x4000000 then Ok (upd F' o (with_address (F' o) (Some 0)), mk_fmap [0] [o]) else Err ValueError) as IO.
    { unfold insert, is_apx_file. rewrite FK, FA. cbn [negb]. unfold assignFileAddressDefault.
      assert (ends_with (lit ".in") (f_name (F' o)) || ends_with (lit ".out") (f_name (F' o)) = true) as -> by (rewrite FNO; unfold ends_with; rewrite !rev_app_distr; cbn; reflexivity).
      unfold assignFileAddress. rewrite FL. change DEFINITION_START with 0x4000000.
      change (negb (PORT_DATA_START =? 0) && negb (Z.land PORT_DATA_START (PORT_DATA_START - 1) =? 0)) with false. change (0x4000000 <? PORT_DATA_START) with false.
      change (negb (Z.land PORT_DATA_BOUNDARY (PORT_DATA_BOUNDARY - 1) =? 0)) with false. cbn [len empty_map m_keys length]. change (@len Z [] =? 0) with true. cbn [bind].
      change (PORT_DATA_START + total outs) with (total outs). destruct (total outs <=? 0x4000000); reflexivity. }
    unfold attachLocalFile at 1 in AT. rewrite H1, L1, IO in AT. destruct (total outs <=? 0x4000000) eqn:TO.
    + unfold fine in AT. cbn [then_] in AT. 
      set (H2 := upd (upd F' o (with_address (F' o) (Some 0))) o (with_managed (upd F' o (with_address (F' o) (Some 0)) o) true)) in *.
      assert (H2 (d_def Dt) = F' (d_def Dt)) as HD by (unfold H2; rewrite !FileMapProofs.upd_other by auto; reflexivity).
      specialize (ID H2 (mk_fmap [0] [o])). rewrite HD in ID. specialize (ID DA DK eq_refl DL).
      assert (f_address (H2 o) = Some 0) as HO by (unfold H2; rewrite !FileMapProofs.upd_same; reflexivity).
      specialize (ID ltac:(right; exists o; auto)). unfold attachLocalFile in AT. cbn [with_local fm_heap fm_local] in AT.
      destruct (0x4000000 + len text <=? 0x20000000) eqn:TT.
      * split; [|intros [X|X]; lia]. intros _ _. destruct ID as ((H3 & m3) & ID). rewrite ID in AT. unfold fine in AT. cbn [app] in AT. rewrite AT. eexists. split; reflexivity.
      * split; [lia|]. intros _. rewrite ID in AT. exact AT.
    + split; [lia|]. intros _. exact AT.
  - rewrite FO. unfold fine in AT. cbn [then_] in AT. unfold attachLocalFile in AT. rewrite H1, L1 in AT.
    specialize (ID F' empty_map DA DK eq_refl DL (or_introl eq_refl)). destruct (0x4000000 + len text <=? 0x20000000) eqn:TT.
    + split; [|intros [X|X]; lia]. intros _ _. destruct ID as ((H3 & m3) & ID). rewrite ID in AT. unfold fine in AT. cbn [app] in AT. rewrite AT. eexists. split; reflexivity.
    + split; [lia|]. intros _. rewrite ID in AT. exact AT.
Qed.

(** A text that is read as a supported definition gives a client for it, if the
    output data and the definition fit into their parts of the address space;
    otherwise a ValueError. *)
Theorem supported_text_gives_client W text W1 nd D ins outs : loads W text = Ok (W1, nd) -> represents W1 nd D -> supported D ins outs -> Forall pleasant ins ->
  exists deftext K, context_dumps false W1 [nd] = Ok deftext /\ forall fuel, (K <= fuel)%nat ->
    (total outs <= 0x4000000 -> len deftext <= 0x1C000000 ->
     exists c, create_node fuel (new_client W) text = Ok c /\ fresh_client fuel W1 nd ins outs c) /\
    (0x4000000 < total outs \/ 0x1C000000 < len deftext -> create_node fuel (new_client W) text = Err ValueError).
Proof.
  intros E R SP PL. destruct (accepted_text_has_body _ _ _ _ E) as (body & TB). destruct (loads_inv W text body W1 nd TB E) as (cs & D' & _ & (R' & L & N & U)).
  rewrite (represents_unique _ _ _ _ R' R) in *. clear R' D'.
  destruct (node_ready W1 nd D ins outs R L N (tags_unshort _ _ (or_introl U)) SP) as (dt & K & TX & H). exists dt, K. split; [exact TX|]. intros fuel LE.
  destruct (H fuel no_files 0%nat LE) as (W' & F' & k' & Dt & ND & MI & MO).
  assert (create_node fuel (new_client W) text = attach_node fuel (new_client W1) nd) as CN.
  { unfold create_node. change (c_world (new_client W)) with W. rewrite E. reflexivity. }
  destruct (attach_fits fuel W1 nd W' F' k' Dt outs dt (rep_separate _ _ _ R) ND MO (sp_routs _ _ _ SP) TX) as (A & B).
  rewrite CN. split; [|exact B]. intros T1 T2. destruct (A T1 T2) as (c & C & CW). exists c. split; [exact C|].
  constructor; auto; try (rewrite CW; auto); try (exact (sp_rins _ _ _ SP)); try exact (sp_routs _ _ _ SP).
  - eapply rep_separate; eauto.
  - split; intros o O; apply In_nth_error in O as (i & O).
    + destruct (Forall2_nth _ _ _ _ _ (rp_require _ _ _ R) O) as (p & _ & (X & _)). exact X.
    + destruct (Forall2_nth _ _ _ _ _ (rp_provide _ _ _ R) O) as (p & _ & (X & _)). exact X.
Qed.
Print Assumptions supported_text_gives_client.

(** ** Examples *)

Definition ex_ready : str := text_of ["APX/1.2"; "N""Ready"""; "T""Flags_T""C(0,3)"; "T""Point_T""{""x""S""flags""T[""Flags_T""]}";
  "P""Pos""T[1]:={1,2}"; "P""Own""{""p""T[""Point_T""]""n""a[4]}:={{3,1},""ab""}"; "R""In""C[3]:={1,2,3}"; ""]%string.
Definition ex_attr (v : ivalue) (s : String.string) : option pattr := Some (mk_pattr false false None v (lit s)).
Definition ex_def : ndef := mk_ndef (Some (lit "Ready"))
  [mk_tdef (Some (lit "Flags_T")) (DPrim None CU8 (Some 0) (Some 3) None) None;
   mk_tdef (Some (lit "Point_T")) (DRec None [DPrim (Some (lit "x")) CU16 None None None; DRef (Some (lit "flags")) (RInt 0)]) None]
  [mk_pdef (Some (lit "Pos")) (DRef None (RInt 1)) (ex_attr (IVList [IVInt 1; IVInt 2]) "={1,2}");
   mk_pdef (Some (lit "Own")) (DRec None [DRef (Some (lit "p")) (RName (lit "Point_T")); DPrim (Some (lit "n")) CSTR None None (Some 4)])
     (ex_attr (IVList [IVList [IVInt 3; IVInt 1]; IVStr (lit "ab")]) "={{3,1},""ab""}")]
  [mk_pdef (Some (lit "In")) (DPrim None CU8 None None (Some 3)) (ex_attr (IVList [IVInt 1; IVInt 2; IVInt 3]) "={1,2,3}")].
Definition ex_point : ty := TRec [(lit "x", TInt U16); (lit "flags", TInt U8)].
Definition ex_outs : list ty := [ex_point; TRec [(lit "p", ex_point); (lit "n", TStr 4)]].
Definition ex_ins : list ty := [TArr U8 3].

Lemma ex_typed_point : typed (df_types ex_def) (DRec None [DPrim (Some (lit "x")) CU16 None None None; DRef (Some (lit "flags")) (RInt 0)]) ex_point.
Proof.
  assert (bytes_ok (lit "x") /\ bytes_ok (lit "flags")) as [A B] by (split; repeat constructor; cbn; lia).
  constructor. apply tys_cons; [reflexivity|exact A| |].
  - apply ty_int; [reflexivity|cbn; tauto].
  - apply tys_cons; [reflexivity|exact B| |constructor]. apply (ty_ref (df_types ex_def) _ 0%nat _ _ eq_refl); [cbn; auto|]. apply ty_int; [reflexivity|cbn; tauto].
Qed.

Example ex_supported : supported ex_def ex_ins ex_outs /\ Forall pleasant ex_ins.
Proof.
  assert (bytes_ok (lit "p") /\ bytes_ok (lit "n")) as [A B] by (split; repeat constructor; cbn; lia).
  split; [constructor|].
  - discriminate.
  - intros w Iw. apply ascii_lit. revert w Iw. apply forallb_forall. vm_compute. reflexivity.
  - constructor; [|constructor]. apply (py_own _ _ _ (DPrim None CU8 None None (Some 3))); cbn; auto; try constructor; try reflexivity; cbn; tauto.
  - constructor; [|constructor; [|constructor]].
    + apply (py_ref _ _ _ (DRec None [DPrim (Some (lit "x")) CU16 None None None; DRef (Some (lit "flags")) (RInt 0)])); [exact Logic.I| |exact ex_typed_point].
      apply (ld_ref (df_types ex_def) _ 1%nat _ _ eq_refl). constructor. cbn. auto.
    + apply (py_own _ _ _ (DRec None [DRef (Some (lit "p")) (RInt 1); DPrim (Some (lit "n")) CSTR None None (Some 4)])); [cbn; auto| | |].
      * repeat constructor.
      * constructor. constructor; [|repeat constructor]. apply (rf_name _ _ _ 1%nat). vm_compute. reflexivity.
      * constructor. apply tys_cons; [reflexivity|exact A| |apply tys_cons; [reflexivity|exact B|constructor|constructor]].
        apply (ty_ref (df_types ex_def) _ 1%nat _ _ eq_refl); [cbn; auto|exact ex_typed_point].
  - constructor; [|constructor]. split; cbn; lia.
  - assert (forall n, forallb (fun c => (0 <? c) && (c <? 128)) n = true -> name_ok n) as NO by (intros n E; apply Forall_forall; intros c Ic; pose proof (proj1 (forallb_forall _ _) E c Ic); cbn beta in *; lia).
    assert (regular ex_point) as P by (split; [split; [discriminate|cbn; repeat split; apply NO; reflexivity]|reflexivity]).
    constructor; [exact P|]. constructor; [|constructor]. split; [|reflexivity]. split; [discriminate|]. split; [apply NO; reflexivity|]. split; [exact (proj1 P)|]. split; [apply NO; reflexivity|]. split; [cbn; lia|exact Logic.I].
  - repeat constructor; vm_compute; discriminate.
  - repeat constructor; vm_compute; discriminate.
  - constructor; [|constructor]. left. exact Logic.I.
Qed.

Lemma map_of_two (n1 n2 : option str) o1 o2 : opt_eqb n1 n2 = false ->
  forall nm o, map_find nm [(n1, o1); (n2, o2)] = Some o <-> exists i, nth_error [o1; o2] i = Some o /\ nth_error [n1; n2] i = Some nm.
Proof.
  intros NE nm o. unfold map_find. cbn [find fst]. destruct (opt_eqb n1 nm) eqn:E1.
  - apply opt_eqb_eq in E1. subst n1. cbn [option_map snd]. split; [intros E; injection E as <-; exists 0%nat; auto|].
    intros ([|[|i]] & A & B); cbn in A, B; [congruence| |destruct i; discriminate]. injection B as ->. apply opt_eqb_neq in NE; congruence.
  - destruct (opt_eqb n2 nm) eqn:E2; cbn [option_map snd].
    + apply opt_eqb_eq in E2. subst n2. split; [intros E; injection E as <-; exists 1%nat; auto|].
      intros ([|[|i]] & A & B); cbn in A, B; [|congruence|destruct i; discriminate]. injection B as ->. apply opt_eqb_neq in E1; congruence.
    + split; [discriminate|]. intros ([|[|i]] & A & B); cbn in A, B; [| |destruct i; discriminate]; injection B as ->; apply opt_eqb_neq in E1, E2; congruence.
Qed.

Example ex_loaded : exists W nd, loads empty_world ex_ready = Ok (W, nd) /\ represents W nd ex_def.
Proof.
  destruct (loads empty_world ex_ready) as [[W nd]|] eqn:E; vm_compute in E; [|discriminate]. injection E as <- <-.
  do 2 eexists. split; [reflexivity|]. constructor; cbn [n_name n_types n_provide n_require n_map w_ntypes w_nports w_types w_ports].
  - reflexivity.
  - constructor; [|constructor; [|constructor]]; (split; [reflexivity|split; [reflexivity|]]); [constructor|].
    apply st_rec. constructor; [constructor|]. constructor; [|constructor]. apply (st_ref _ _ _ 0%nat). reflexivity.
  - constructor; [|constructor; [|constructor]]; (split; [reflexivity|split; [reflexivity|split; [reflexivity|]]]).
    + apply ps_ref. apply (st_ref _ _ _ 1%nat). reflexivity.
    + apply ps_own. cbn. auto.
  - constructor; [|constructor]. split; [reflexivity|split; [reflexivity|split; [reflexivity|]]]. apply ps_own. cbn. auto.
  - apply (map_of_two (Some (lit "Flags_T")) (Some (lit "Point_T"))). reflexivity.
  - repeat constructor; cbn; intuition discriminate.
  - repeat constructor; cbn; intuition discriminate.
  - cbn. intuition lia.
  - cbn. intuition lia.
Qed.

(** What the theorem says about it, and what running it gives. *)
Example ex_client : exists W nd K, loads empty_world ex_ready = Ok (W, nd) /\ forall fuel, (K <= fuel)%nat ->
  exists c, create_node fuel (new_client empty_world) ex_ready = Ok c /\ fresh_client fuel W nd ex_ins ex_outs c.
Proof.
  destruct ex_loaded as (W & nd & E & R). destruct ex_supported as (SP & PL).
  destruct (supported_text_gives_client _ _ _ _ _ _ _ E R SP PL) as (dt & K & TX & H). exists W, nd, K. split; [exact E|].
  intros fuel LE. destruct (H fuel LE) as (A & _). apply A; [vm_compute; discriminate|].
  pose proof E as E2. vm_compute in E2. injection E2 as <- <-. vm_compute in TX. injection TX as <-. vm_compute. discriminate.
Qed.
Example ex_client_data : match create_node 100 (new_client empty_world) ex_ready with
  | Ok c => match c_node c with
            | Some (_, Dt) => option_map (fun o => f_data (fm_heap (c_fm c) o)) (d_out Dt) = Some ([1; 0; 2] ++ [3; 0; 1; 97; 98; 0; 0]) /\
                              option_map (fun o => f_data (fm_heap (c_fm c) o)) (d_in Dt) = Some [1; 2; 3]
            | None => False
            end
  | Err _ => False
  end.
Proof. vm_compute. auto. Qed.

(** ** What is not supported *)

Definition with_port (ty line : String.string) : str := text_of ["APX/1.2"; "N""n"""; ty; line]%string.
Definition makes_client (text : str) : option exn := match create_node 100 (new_client empty_world) text with Ok _ => None | Err e => Some e end.
Definition written_back (text : str) : option exn :=
  match loads empty_world text with Ok (W, nd) => match context_dumps false W [nd] with Ok _ => None | Err e => Some e end | Err e => Some e end.
Definition accepted (text : str) : Prop := exists r, loads empty_world text = Ok r.

(** A reference by number inside the record of a port is accepted, but then neither
    the text of the node can be written nor its data be built; by name both work. *)
Theorem number_in_own_record_refuted :
  accepted (with_port "T""t""C" "P""b""{""x""T[0]}:={1}") /\
  written_back (with_port "T""t""C" "P""b""{""x""T[0]}:={1}") = Some RuntimeError /\ makes_client (with_port "T""t""C" "P""b""{""x""T[0]}:={1}") = Some RuntimeError /\
  written_back (with_port "T""t""C" "P""b""{""x""T[""t""]}:={1}") = None /\ makes_client (with_port "T""t""C" "P""b""{""x""T[""t""]}:={1}") = None.
Proof. split; [eexists|repeat split]; vm_compute; reflexivity. Qed.
Print Assumptions number_in_own_record_refuted.

(** A member that refers to an array type, 64 bit numbers and characters are accepted
    and written, but no data can be built for them; a port may refer to an array type. *)
Theorem array_member_refuted :
  (forall s, In s [with_port "T""t""C[2]" "P""b""{""x""T[""t""]}:={{1,1}}"; with_port "T""t""C" "P""b""U:=1"; with_port "T""t""C" "P""b""a:=1"] ->
     accepted s /\ written_back s = None /\ makes_client s = Some NotImplementedError) /\
  makes_client (with_port "T""t""C[2]" "P""b""T[""t""]:={1,1}") = None.
Proof.
  split; [|vm_compute; reflexivity]. intros s [<-|[<-|[<-|[]]]]; (split; [eexists; vm_compute; reflexivity|]); split; vm_compute; reflexivity.
Qed.
Print Assumptions array_member_refuted.
