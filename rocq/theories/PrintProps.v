(** Property C71: the exact text of a definition. *)
From Coq Require Import ZifyBool ZifyNat Lia.
From Verif Require Import Py PyLemmas TypesModel TextModel SigModel AttrModel NodeModel ParserModel SigSpec NodeSpec ParserSpec MergeSpec FilesModel ToolsModel FilesSpec ToolsSpec
  TextProofs SigProofs NodeProofs MirrorProofs ElemTextProofs FinalizeProofs RoundTripProofs FilesProofs FilesProofs2 ParserProps FilesProps ToolsProofs ToolsProofs2 ToolsProofs3 ToolsProps PrintSpec PrintProofs.
Ltac Zify.zify_post_hook ::= Z.div_mod_to_equations.

Lemma join_lines ls : forall x, join [NEWLINE] (x :: ls) ++ [NEWLINE] = concat (map (fun l => l ++ [10]) (x :: ls)).
Proof.
  induction ls as [|y ls IH]; intros x; [cbn; rewrite app_nil_r; reflexivity|]. change (join [NEWLINE] (x :: y :: ls)) with (x ++ [NEWLINE] ++ join [NEWLINE] (y :: ls)).
  rewrite <- !app_assoc, (IH y). cbn [map concat]. rewrite <- !app_assoc. reflexivity.
Qed.
Lemma file_lines ls : file_text ls = text_lines ls ++ [10].
Proof. unfold file_text, text_lines. cbn [map concat]. rewrite <- !app_assoc. reflexivity. Qed.
Lemma dump_lines ls : (exists x r, ls = x :: r) -> lit "APX/1.2" ++ [NEWLINE] ++ join [NEWLINE] ls ++ [NEWLINE] = text_lines ls.
Proof. intros (x & r & ->). unfold text_lines. rewrite join_lines. cbn [map concat]. rewrite <- !app_assoc. reflexivity. Qed.
Lemma good_ports D : linked D -> linked_ports D.
Proof. intros L p P. apply (ln_ports _ L p P). Qed.

(** Context.dumps gives exactly the lines of the definitions of its nodes, and nothing
    if one of them has no lines.  Types without ids are named. *)
Theorem dumped_lines normalized (numbers : bool) W nodes Ds :
  Forall2 (fun nd D => represents W nd D /\ linked D /\ if numbers then tagged W nd else untagged W nd) nodes Ds ->
  forall text, context_dumps normalized W nodes = Ok text <->
    exists lss, Forall2 (def_lines (if numbers then Numbers else Names) (if numbers && negb normalized then Numbers else Names)) Ds lss /\ text = text_lines (concat lss).
Proof.
  intros F text. assert (forall lss, Forall2 (def_lines (tag_style numbers) (tag_style (numbers && negb normalized))) Ds lss <-> map_res (lines normalized W) nodes = Ok lss) as M.
  { apply map_res_iff. eapply Forall2_imp; [|exact F]. intros nd D _ _ (R & L & T) ls. apply lines_printed; auto. apply good_ports. exact L. }
  unfold context_dumps. split.
  - intros E. apply bind_ok in E as (lss & E1 & E). exists lss. split; [apply M; exact E1|]. injection E as <-. apply join_lines.
  - intros (lss & FL & ->). apply M in FL. rewrite FL. cbn [bind]. f_equal. apply join_lines.
Qed.
Print Assumptions dumped_lines.

(** Node.dumps and Node.save_apx write the sorted definition, types and ports referring
    by number, the ports by name when normalized. *)
Definition saved_style (normalized : bool) : style := if normalized then Names else Numbers.
Lemma saved_lines normalized W nd D ls : represents W nd D -> linked D -> tagged W nd -> lines normalized W nd = Ok ls -> def_lines Numbers (saved_style normalized) D ls.
Proof.
  intros R L T E. pose proof (proj2 (lines_printed normalized true W nd D R (good_ports _ L) T ls) E) as X. destruct normalized; exact X.
Qed.
Theorem saved_text normalized out d W nd D D' path : represents W nd D -> linked D -> n_final nd = false -> untagged W nd -> writable_def D -> crless D ->
  sorted_def true D D' -> ordered D' -> path_for out D path ->
  exists W' nd' ls, def_lines Numbers (saved_style normalized) D' ls /\
    node_dumps normalized W nd = Ok (W', nd', text_lines ls) /\
    save_apx normalized out d W nd = (put_file d path (text_lines ls ++ [10]), Ok (W', nd')).
Proof.
  intros R L NF U WD CR SD OD PF. destruct (save_rep normalized out d W nd D D' path R L NF U WD CR SD OD PF) as (W' & nd' & ls & E & EL & SL & TA & SE & DE & R' & T').
  exists W', nd', ls. split; [exact (saved_lines _ _ _ _ _ R' (linked_sorted _ _ _ L SD OD) T' EL)|]. rewrite <- file_lines. split; [|exact SE].
  rewrite DE, (dump_lines ls (lines_cons _ _ _ _ EL)). reflexivity.
Qed.
Print Assumptions saved_text.

(** The tools: apx_finalize refers by number, apx_normalize in the ports by name. *)
Definition tool_writes (a : args) (out : str) (d : disk) (t : str) : disk * outcome := if a_pipe a then (d, Printed t) else (put_file d out t, Printed []).
Lemma tool_lines normalized D' t Wx ndx : text_for normalized D' t -> represents Wx ndx D' -> tagged Wx ndx -> linked D' ->
  exists ls, def_lines Numbers (saved_style normalized) D' ls /\ t = text_lines ls ++ [10].
Proof.
  intros (ls & -> & S) R T L. exists ls. split; [|apply file_lines]. exact (saved_lines _ _ _ _ _ R L T (S _ _ R T)).
Qed.
Theorem tools_text a stdin d D D' out : given a stdin d D -> goes_to a out -> writable_def D -> sorted_def true D D' -> ordered D' ->
  (exists ls, apx_finalize a stdin d = tool_writes a out d (text_lines ls ++ [10]) /\ def_lines Numbers Numbers D' ls) /\
  (exists ls, apx_normalize a stdin d = tool_writes a out d (text_lines ls ++ [10]) /\ def_lines Numbers Names D' ls).
Proof.
  intros G O WD SD OD. apply goes_output in O. pose proof (linked_sorted _ _ _ (linked_given _ _ _ _ G) SD OD) as L'. split.
  - destruct (rewrite_done false a stdin d D D' out G O WD SD OD) as (t & Wx & ndx & TF & _ & R & T & E). destruct (tool_lines _ _ _ _ _ TF R T L') as (ls & DL & ->). exists ls. auto.
  - destruct (rewrite_done true a stdin d D D' out G O WD SD OD) as (t & Wx & ndx & TF & _ & R & T & E). destruct (tool_lines _ _ _ _ _ TF R T L') as (ls & DL & ->). exists ls. auto.
Qed.
Print Assumptions tools_text.
(** Without a file and without --pipe they print their help. *)
Theorem tools_help a stdin d : a_inputs a = [] -> a_pipe a = false -> apx_finalize a stdin d = (d, Usage) /\ apx_normalize a stdin d = (d, Usage).
Proof. intros I P. unfold apx_finalize, apx_normalize, rewrite_tool. rewrite I, P. auto. Qed.
Print Assumptions tools_help.

Theorem mirror_text a stdin d D D' out : given a stdin d D -> goes_to a out -> writable_def D -> sorted_def true D D' -> ordered D' ->
  (forall s, a_name a = Some s -> plain_name s /\ ~ In 13 s) ->
  exists ls, apx_mirror a stdin d = tool_writes a out d (text_lines ls ++ [10]) /\ def_lines Numbers (saved_style (a_normalize a)) (mirrored (a_name a) D') ls.
Proof.
  intros G O WD SD OD NM. apply goes_output in O. destruct (mirror_done a stdin d D D' out G O WD SD OD NM) as (t & Wx & ndx & TF & _ & R & T & E).
  pose proof (linked_sorted _ _ _ (linked_given _ _ _ _ G) SD OD) as L'. assert (linked (mirrored (a_name a) D')) as LM.
  { destruct L' as [A B C E1 E2 P]. constructor; cbn [mirrored df_types]; auto. intros p I. destruct (P p) as (P1 & P2); [cbn [mirrored df_provide df_require] in I; apply in_or_app; apply in_app_or in I; tauto|]. split; [exact P1|exact P2]. }
  destruct (tool_lines _ _ _ _ _ TF R T LM) as (ls & DL & ->). exists ls. auto.
Qed.
Print Assumptions mirror_text.

(** apx_join and apx_split: by number, in the ports by name where they normalize; the
    head and the tail always normalize. *)
Lemma written_lines normalized D t : text_for normalized D t -> text_as t D -> exists ls, def_lines Numbers (saved_style normalized) D ls /\ t = text_lines ls ++ [10].
Proof.
  intros TF TA. destruct (read_as_sound _ _ _ empty_world (put_read_as (fun _ => None) [] t D TA)) as (W & nd & _ & (R & L & _ & U) & _).
  set (g := fun d i => with_tid d (Some i)). apply (tool_lines normalized D t (number_types g W 0 (n_types nd)) nd TF); [|intros i o O|exact L].
  - apply number_rep; [exact R|]. intros. repeat split.
  - destruct (number_types_spec g (n_types nd) W 0 (rp_tdup _ _ _ R)) as (_ & _ & _ & _ & G). rewrite (G i o O). cbn [g with_tid dt_id dt_short]. split; [reflexivity|].
    apply U. eapply nth_error_In; eauto.
Qed.
Theorem joined_text fuel inputs name sort normalize d Ds d' out : Forall2 (read_as d) inputs Ds -> Forall writable_def Ds -> plain_name name -> ~ In 13 name ->
  apx_join fuel inputs name sort normalize d = (d', Printed out) ->
  exists D D', join_of Ds D /\ df_name D = Some name /\ sorted_def sort D D' /\
    (ordered D' -> exists ls, def_lines Numbers (saved_style normalize) D' ls /\ d' = put_file d (name ++ lit ".apx") (text_lines ls ++ [10])).
Proof.
  intros F WD PN NC E. destruct (join_done _ _ _ _ _ _ _ _ _ F WD PN NC E) as (_ & _ & D & D' & J & N & (SD & _) & X). exists D, D'. split; [exact J|]. split; [exact N|]. split; [exact SD|].
  intros OD. destruct (X OD) as (t & TF & TA & ->). destruct (written_lines _ _ _ TF TA) as (ls & DL & ->). eauto.
Qed.
Print Assumptions joined_text.
Theorem split_text fuel a d D names nh nt d' text : read_as d (s_input a) D -> writable_def D -> NoDup (port_names D) -> wanted a d names ->
  node_name (s_head a) (s_head_name a) nh -> plain_name nh -> ~ In 13 nh ->
  (forall p, s_tail a = Some p -> named_by p nt /\ plain_name nt /\ ~ In 13 nt) ->
  apx_split fuel a d = (d', Printed text) ->
  (exists pick Dh Dh', (forall pr, asked D names pr (pick pr)) /\ part_of D pick Dh /\ df_name Dh = Some nh /\
    sorted_def (s_sort a) (if s_mirror a then mirrored None Dh else Dh) Dh' /\
    (ordered Dh' -> exists ls, def_lines Numbers Names Dh' ls /\
       match s_head a with Some p => s_tail a <> Some p -> d' p = Some (text_lines ls ++ [10]) | None => text = text_lines ls ++ [10] end)) /\
  (forall p, s_tail a = Some p -> exists Dt, part_of D (others D names) Dt /\ df_name Dt = Some nt /\
    forall Dt', sorted_def true Dt Dt' -> ordered Dt' -> exists ls, def_lines Numbers Names Dt' ls /\ d' p = Some (text_lines ls ++ [10])).
Proof.
  intros RA WD ND WA NH PH CH NT E. destruct (split_done _ _ _ _ _ _ _ _ _ RA WD ND WA NH PH CH NT E) as (_ & (pick & Dh & Dh' & B1 & B2 & B3 & (B4 & _) & B5) & C). split.
  - exists pick, Dh, Dh'. split; [exact B1|]. split; [exact B2|]. split; [exact B3|]. split; [exact B4|]. intros OD. destruct (B5 OD) as (t & TF & TA & X).
    destruct (written_lines _ _ _ TF TA) as (ls & DL & ->). exists ls. split; [exact DL|]. destruct (s_head a); [apply X|exact X].
  - intros p P. destruct (C p P) as (Dt & C1 & (C2 & _) & C3). exists Dt. split; [exact C1|]. split; [exact C2|]. intros Dt' SD OD. destruct (C3 Dt' SD OD) as (t & TF & TA & X).
    destruct (written_lines _ _ _ TF TA) as (ls & DL & ->). eauto.
Qed.
Print Assumptions split_text.
(** Without names, given or in a file, apx_split prints its help and writes nothing. *)
Theorem split_help fuel a d : s_names a = [] -> s_file a = None -> apx_split fuel a d = (d, Usage).
Proof. intros N F. unfold apx_split. rewrite N, F. reflexivity. Qed.
Print Assumptions split_help.

(** The docstring of save_apx (node.py 206-207) says the opposite: that normalized=True
    refers by number. *)
Definition ex_two : str := text_of ["APX/1.2"; "N""n"""; "T""b""C(-1,12)"; "T""a""{""x""T[0]""y""S[10]}"; "P""q""T[1]"; "R""p""T[""b""]:=1"]%string.
Definition ex_dump (normalized : bool) : option str := match loads empty_world ex_two with Ok (W, nd) => match node_dumps normalized W nd with Ok (_, _, t) => Some t | Err _ => None end | Err _ => None end.
Theorem normalized_docstring_refuted :
  ex_dump true = Some (text_of ["APX/1.2"; "N""n"""; "T""a""{""x""T[1]""y""S[10]}"; "T""b""C(-1,12)"; "P""q""T[""a""]"; "R""p""T[""b""]:=1"; ""]%string) /\
  ex_dump false = Some (text_of ["APX/1.2"; "N""n"""; "T""a""{""x""T[1]""y""S[10]}"; "T""b""C(-1,12)"; "P""q""T[0]"; "R""p""T[1]:=1"; ""]%string).
Proof. split; vm_compute; reflexivity. Qed.
Print Assumptions normalized_docstring_refuted.

Definition ex_two_def : ndef := mk_ndef (Some (lit "n"))
  [mk_tdef (Some (lit "b")) (DPrim None CU8 (Some (-1)) (Some 12) None) None;
   mk_tdef (Some (lit "a")) (DRec None [DRef (Some (lit "x")) (RInt 0); DPrim (Some (lit "y")) CU16 None None (Some 10)]) None]
  [mk_pdef (Some (lit "q")) (DRef None (RInt 1)) None] [mk_pdef (Some (lit "p")) (DRef None (RInt 0)) (Some (mk_pattr false false None (IVInt 1) (lit "=1")))].
Example ex_two_lines : def_lines Names Names ex_two_def
  (map lit ["N""n"""; "T""b""C(-1,12)"; "T""a""{""x""T[""b""]""y""S[10]}"; "P""q""T[""a""]"; "R""p""T[""b""]:=1"]%string).
Proof.
  assert (number_text (-1) (lit "-1") /\ number_text 12 (lit "12") /\ number_text 10 (lit "10")) as (N1 & N2 & N3) by (repeat split; apply number_dec; reflexivity).
  apply (dl_lines Names Names ex_two_def (map lit ["T""b""C(-1,12)"; "T""a""{""x""T[""b""]""y""S[10]}"]%string) [lit "P""q""T[""a""]"] [lit "R""p""T[""b""]:=1"]).
  - constructor; [|constructor; [|constructor]].
    + apply (tl_line _ _ (mk_tdef (Some (lit "b")) _ None) (lit "C(-1,12)")). apply (et_prim _ _ None CU8 (Some (-1)) (Some 12) None (lit "(-1,12)") []); [apply (lt_both (-1) 12 (lit "-1") (lit "12") N1 N2)|constructor].
    + apply (tl_line _ _ (mk_tdef (Some (lit "a")) _ None) (lit "{""x""T[""b""]""y""S[10]}")). apply (et_rec _ _ None _ (lit """x""T[""b""]""y""S[10]")).
      apply (mt_cons _ _ (DRef (Some (lit "x")) (RInt 0)) _ (lit "T[""b""]") (lit """y""S[10]")); [apply (et_ref _ _ _ _ (lit """b""")); apply (rt_name _ 0%nat (Some (lit "b"))); reflexivity|].
      apply (mt_cons _ _ (DPrim (Some (lit "y")) CU16 None None (Some 10)) [] (lit "S[10]") []); [|constructor].
      apply (et_prim _ _ _ CU16 None None (Some 10) [] (lit "[10]")); [constructor; auto|apply (gt_some 10 (lit "10") N3)].
  - constructor; [|constructor]. apply (pl_line _ _ (lit "P") (mk_pdef (Some (lit "q")) (DRef None (RInt 1)) None) (lit "T[""a""]")); [|cbn; tauto].
    intros _. apply (et_ref _ _ None _ (lit """a""")). apply (rt_name _ 1%nat (Some (lit "a"))). reflexivity.
  - constructor; [|constructor]. apply (pl_line _ _ (lit "R") (mk_pdef (Some (lit "p")) (DRef None (RInt 0)) (Some (mk_pattr false false None (IVInt 1) (lit "=1")))) (lit "T[""b""]")); [|cbn; tauto].
    intros _. apply (et_ref _ _ None _ (lit """b""")). apply (rt_name _ 0%nat (Some (lit "b"))). reflexivity.
Qed.
