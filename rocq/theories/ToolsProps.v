(** Properties of the command line tools. *)
From Coq Require Import ZifyBool ZifyNat Lia.
From Verif Require Import Py PyLemmas TypesModel TextModel SigModel AttrModel NodeModel ParserModel FileModel NodeDataModel FilesModel ToolsModel.
From Verif Require Import SigSpec NodeSpec ParserSpec MergeSpec FilesSpec ToolsSpec TextProofs NodeProofs ParserProofs LoadProofs.
From Verif Require Import MirrorProofs FinalizeProofs ExtendProofs FilesProofs FilesProofs2 ToolsProofs ToolsProofs2 ToolsProofs3 ToolsProofs4.
From Verif Require Import NodeInitProofs NodeDataProps FilesProps.
Ltac Zify.zify_post_hook ::= Z.div_mod_to_equations.

Definition one_file (path : String.string) (text : list String.string) : disk := put_file no_files (lit path) (text_of text).
Definition two_files (p1 : String.string) (t1 : list String.string) (p2 : String.string) (t2 : list String.string) : disk :=
  put_file (one_file p1 t1) (lit p2) (text_of t2).

(** ** apx_size (C64) *)

Definition size_line (i o : Z) : str := lit "in:" ++ [9] ++ dec_str i ++ [9] ++ lit "out:" ++ [9] ++ dec_str o ++ [10].
Lemma printed_size i o : print (lit "in:" ++ [9] ++ dec_str i ++ [9] ++ lit "out:" ++ [9] ++ dec_str o) = size_line i o.
Proof. unfold print, size_line. rewrite <- !app_assoc. reflexivity. Qed.

(** The tool prints the bytes that the require ports and the provide ports take. *)
Theorem size_printed fuel d path D ins outs : read_as d path D ->
  Forall2 (port_takes D fuel) (df_require D) ins -> Forall2 (port_takes D fuel) (df_provide D) outs ->
  apx_size fuel d path = (d, Printed (size_line (total ins) (total outs))).
Proof.
  intros RA FI FO. destruct (RA empty_world) as (W & nd & E & R). unfold apx_size. rewrite E. cbn [bind].
  rewrite (total_sized _ _ _ _ (ports_sized _ _ _ _ _ R _ _ _ (rp_require _ _ _ R) FI)). cbn [bind].
  rewrite (total_sized _ _ _ _ (ports_sized _ _ _ _ _ R _ _ _ (rp_provide _ _ _ R) FO)). unfold finish_with. cbn [bind]. rewrite printed_size. reflexivity.
Qed.
Print Assumptions size_printed.
(** It prints nothing else. *)
Theorem size_only fuel d path D d' s : read_as d path D -> apx_size fuel d path = (d', Printed s) ->
  d' = d /\ exists ins outs, Forall2 (fun p n => exists k, port_takes D k p n) (df_require D) ins /\
    Forall2 (fun p n => exists k, port_takes D k p n) (df_provide D) outs /\ s = size_line (total ins) (total outs).
Proof.
  intros RA E. destruct (read_as_sound _ _ _ empty_world RA) as (W & nd & P & (R & L & _) & _). unfold apx_size in E. rewrite P in E. cbn [bind] in E.
  destruct (total_len fuel (w_types W) W (n_require nd)) as [i|] eqn:TI; [|discriminate]. cbn [bind] in E.
  destruct (total_len fuel (w_types W) W (n_provide nd)) as [o|] eqn:TO; [|discriminate]. unfold finish_with in E. cbn [bind] in E. rewrite printed_size in E.
  destruct (ports_total _ _ _ false _ _ _ _ R L (fun p I => I) (rp_require _ _ _ R) TI) as (ins & FI & ->).
  destruct (ports_total _ _ _ true _ _ _ _ R L (fun p I => I) (rp_provide _ _ _ R) TO) as (outs & FO & ->).
  assert (d' = d /\ s = size_line (total ins) (total outs)) as (-> & ->) by (split; congruence). split; [reflexivity|].
  exists ins, outs. auto.
Qed.
Print Assumptions size_only.

Lemma rep_separate W nd D : represents W nd D -> separate nd.
Proof.
  intros R o I J. pose proof (rp_pdup _ _ _ R) as N. apply in_split in J as (a & b & J). rewrite J, <- app_assoc in N. cbn [app] in N.
  apply NoDup_remove_2 in N. apply N. apply in_or_app. right. apply in_or_app. right. exact I.
Qed.
Lemma take_bound W nd D pr : represents W nd D -> forall l ps ns, Forall2 (port_is W (n_types nd) pr) l ps -> Forall2 (fun p n => exists k, port_takes D k p n) ps ns ->
  exists K, Forall2 (fun o n => sized (w_types W) K (pt_elem (w_ports W o)) n) l ns.
Proof.
  intros R l ps ns F. revert ns. induction F as [|o p l ps PI F IH]; intros ns G; inversion G as [|? n ? ns' (k & T) G']; subst; [exists O; constructor|].
  destruct (IH _ G') as (K & FK). exists (Nat.max k K). constructor.
  - eapply CompilerProps.calcElemSize_more; [eapply port_sized; eauto|lia].
  - eapply Forall2_imp; [|exact FK]. intros x y _ _ S. eapply CompilerProps.calcElemSize_more; [exact S|lia].
Qed.
Lemma total_more fuel fuel' W l m : (fuel <= fuel')%nat -> total_len fuel (w_types W) W l = Ok m -> total_len fuel' (w_types W) W l = Ok m.
Proof.
  intros L. revert m. induction l as [|o l IH]; intros m E; [exact E|]. cbn [total_len] in *. apply bind_ok in E as (n & P & E). apply bind_ok in E as (x & T & E).
  unfold packLen in *. rewrite (CompilerProps.packLen_fuel _ _ _ _ _ _ _ _ L P). cbn [bind]. rewrite (IH _ T). exact E.
Qed.
(** They are the lengths of the files that a node with this definition has. *)
Theorem size_is_data_length fuel d path D d' s W0 W nd fuel' F k W' F' k' ND : read_as d path D -> apx_size fuel d path = (d', Printed s) ->
  parse_file d W0 path = Ok (W, nd) -> node_data fuel' W nd F k = Ok (W', F', k', ND) ->
  s = size_line (len (in_data F' ND)) (len (out_data F' ND)).
Proof.
  intros RA E P ND1. destruct (size_only _ _ _ _ _ _ RA E) as (_ & ins & outs & FI & FO & ->).
  destruct (RA W0) as (W1 & nd1 & P1 & R). rewrite P in P1. injection P1 as <- <-.
  destruct (take_bound _ _ _ _ R _ _ _ (rp_require _ _ _ R) FI) as (K1 & S1). destruct (take_bound _ _ _ _ R _ _ _ (rp_provide _ _ _ R) FO) as (K2 & S2).
  apply total_sized in S1, S2. apply (total_more K1 (Nat.max K1 K2)) in S1; [|lia]. apply (total_more K2 (Nat.max K1 K2)) in S2; [|lia].
  destruct (node_data_total _ _ _ _ _ _ _ _ _ _ _ _ (rep_separate _ _ _ R) S1 S2 ND1) as (<- & <-). reflexivity.
Qed.
Print Assumptions size_is_data_length.

Definition ex_size_file : disk :=
  one_file "a.apx" ["APX/1.2"; "N""n"""; "T""t""{""x""S""y""a[5]}"; "T""u""T[""t""]"; "P""p""C"; "R""q""L[3]"; "R""r""T[""u""]"; "P""s""{""a""l""b""S}"]%string.
Example ex_size : apx_size 5 ex_size_file (lit "a.apx") = (ex_size_file, Printed (lit "in:" ++ [9] ++ lit "19" ++ [9] ++ lit "out:" ++ [9] ++ lit "7" ++ [10])).
Proof. unfold ex_size_file. vm_compute. reflexivity. Qed.
Example ex_size_takes : let D := mk_ndef (Some (lit "n"))
    [mk_tdef (Some (lit "t")) (DRec None [DPrim (Some (lit "x")) CU16 None None None; DPrim (Some (lit "y")) CSTR None None (Some 5)]) None;
     mk_tdef (Some (lit "u")) (DRef None (RInt 0)) None]
    [] [mk_pdef (Some (lit "r")) (DRef None (RInt 1)) None] in
  Forall2 (port_takes D 5) (df_require D) [7].
Proof.
  intros D. constructor; [|constructor]. left. split; [exact I|]. eapply (tk_ref _ _ _ 1%nat); [reflexivity|]. eapply (tk_ref _ _ _ 0%nat); [reflexivity|].
  eapply (tk_rec _ _ _ _ [2; 5]). repeat first [apply tks_cons|apply tks_nil]; [apply (tk_one _ _ _ CU16)|apply (tk_many _ _ _ CSTR)].
Qed.
(** A port with a record of its own that refers to a type has data, but no size here. *)
Theorem size_refuted : exists d W nd W' F' k' ND,
  parse_file d empty_world (lit "a.apx") = Ok (W, nd) /\ node_data 10 W nd (fun _ => NodeDataProps.blank) 0 = Ok (W', F', k', ND) /\ len (out_data F' ND) = 3 /\
  apx_size 10 d (lit "a.apx") = (d, Failed AssertionError).
Proof.
  set (d := one_file "a.apx" ["APX/1.2"; "N""n"""; "T""t""C"; "P""p""{""a""T[""t""]""b""S}"]%string).
  assert (match parse_file d empty_world (lit "a.apx") with
    | Ok (W, nd) =>
      match node_data 10 W nd (fun _ => NodeDataProps.blank) 0 with Ok (_, F', _, ND) => len (out_data F' ND) = 3 | Err _ => False end
    | Err _ => False
    end) as X by (vm_compute; auto).
  destruct (parse_file d empty_world (lit "a.apx")) as [[W nd]|] eqn:P; [|contradiction].
  destruct (node_data 10 W nd (fun _ => NodeDataProps.blank) 0) as [[[[W' F'] k'] ND]|] eqn:N; [|contradiction].
  exists d, W, nd, W', F', k', ND. split; [exact P|]. split; [exact N|]. split; [exact X|].
  change (finish_with d (do '(W, nd) <- parse_file d empty_world (lit "a.apx"); do i <- total_len 10 (w_types W) W (n_require nd); do o <- total_len 10 (w_types W) W (n_provide nd);
    Ok (print (lit "in:" ++ [9] ++ dec_str i ++ [9] ++ lit "out:" ++ [9] ++ dec_str o))) = (d, Failed AssertionError)).
  unfold finish_with. f_equal.
Qed.
Print Assumptions size_refuted.

(** ** apx_finalize and apx_normalize (C65) *)

(** The file that is written is read as the definition sorted by name; other files
    stay. *)
Theorem rewritten_is_read normalized a stdin d D D' out : a_pipe a = false -> given a stdin d D -> goes_to a out -> writable_def D ->
  sorted_def true D D' -> ordered D' ->
  exists d', rewrite_tool normalized a stdin d = (d', Printed []) /\ read_as d' out D' /\ forall p, p <> out -> d' p = d p.
Proof.
  intros NP G O WD SD OD. apply goes_output in O. destruct (rewrite_done normalized a stdin d D D' out G O WD SD OD) as (t & Wx & ndx & _ & TA & _ & _ & E). rewrite NP in E.
  eexists. split; [exact E|]. split; [apply put_read_as; exact TA|]. intros p N. apply put_other. exact N.
Qed.
Print Assumptions rewritten_is_read.
(** As a filter it changes no file, and what it prints would be read as the same. *)
Theorem filtered_is_read normalized a stdin d D D' out : a_pipe a = true -> given a stdin d D -> goes_to a out -> writable_def D ->
  sorted_def true D D' -> ordered D' ->
  exists t, rewrite_tool normalized a stdin d = (d, Printed t) /\ forall d1 p, read_as (put_file d1 p t) p D'.
Proof.
  intros NP G O WD SD OD. apply goes_output in O. destruct (rewrite_done normalized a stdin d D D' out G O WD SD OD) as (t & Wx & ndx & _ & TA & _ & _ & E). rewrite NP in E.
  exists t. split; [exact E|]. intros d1 p. apply put_read_as. exact TA.
Qed.
Print Assumptions filtered_is_read.
(** The text depends on the sorted definition only: two descriptions of the same node,
    whatever the order, the layout and the way they come in, give the same text. *)
Theorem rewritten_alike normalized D' a1 stdin1 d1 D1 out1 a2 stdin2 d2 D2 out2 : ordered D' ->
  given a1 stdin1 d1 D1 -> goes_to a1 out1 -> writable_def D1 -> sorted_def true D1 D' ->
  given a2 stdin2 d2 D2 -> goes_to a2 out2 -> writable_def D2 -> sorted_def true D2 D' ->
  exists t, rewrite_tool normalized a1 stdin1 d1 = (if a_pipe a1 then (d1, Printed t) else (put_file d1 out1 t, Printed [])) /\
    rewrite_tool normalized a2 stdin2 d2 = (if a_pipe a2 then (d2, Printed t) else (put_file d2 out2 t, Printed [])).
Proof.
  intros OD G1 O1 WD1 SD1 G2 O2 WD2 SD2. apply goes_output in O1, O2.
  destruct (rewrite_done normalized a1 stdin1 d1 D1 D' out1 G1 O1 WD1 SD1 OD) as (t & Wx & ndx & TF & _ & R & T & E).
  destruct (rewrite_done normalized a2 stdin2 d2 D2 D' out2 G2 O2 WD2 SD2 OD) as (t2 & _ & _ & TF2 & _ & _ & _ & E2).
  rewrite (text_for_fun _ _ _ _ _ _ R T TF2 TF) in E2. exists t. auto.
Qed.
Print Assumptions rewritten_alike.
Lemma linked_given a stdin d D : given a stdin d D -> linked D.
Proof. intros G. destruct (given_node _ _ _ _ G) as (W & nd & _ & (_ & L & _) & _). exact L. Qed.
(** A second time nothing changes. *)
Theorem rewritten_again normalized a stdin d D D' out d' : a_pipe a = false -> given a stdin d D -> goes_to a out -> writable_def D ->
  sorted_def true D D' -> ordered D' -> rewrite_tool normalized a stdin d = (d', Printed []) ->
  exists d2, rewrite_tool normalized (mk_args [out] None false None false) stdin d' = (d2, Printed []) /\ forall p, d2 p = d' p.
Proof.
  intros NP G O WD SD OD E. apply goes_output in O. destruct (rewrite_done normalized a stdin d D D' out G O WD SD OD) as (t & Wx & ndx & TF & TA & R & T & E'). rewrite NP, E in E'. injection E' as ->.
  pose proof (linked_sorted _ _ _ (linked_given _ _ _ _ G) SD OD) as L'.
  destruct (rewrite_done normalized (mk_args [out] None false None false) stdin (put_file d out t) D' D' out) as (t2 & _ & _ & TF2 & _ & _ & _ & E2).
  - exists out, []. split; [reflexivity|]. apply put_read_as. exact TA.
  - reflexivity.
  - eapply writable_sorted; eauto.
  - eapply sorted_again; eauto.
  - exact OD.
  - cbn [a_pipe] in E2. eexists. split; [exact E2|]. intros p. rewrite (text_for_fun _ _ _ _ _ _ R T TF2 TF). unfold put_file. destruct (str_eqb p out); reflexivity.
Qed.
Print Assumptions rewritten_again.
(** Whatever happens, only the output file changes, and none in a filter. *)
Theorem rewrite_touches_output normalized a stdin d d' r out : rewrite_tool normalized a stdin d = (d', r) -> goes_to a out ->
  (forall p, p <> out -> d' p = d p) /\ (a_pipe a = true -> d' = d).
Proof.
  intros E O. apply goes_output in O. unfold rewrite_tool in E. rewrite O in E. destruct (_ && _); [injection E as <- _; auto|]. cbn [bind] in E.
  destruct (input_node a stdin d) as [[W nd]|]; cbn [bind] in E; [|injection E as <- _; auto]. unfold put_node in E. destruct (a_pipe a).
  - injection E as <- _. auto.
  - destruct (save_apx normalized (Some out) d W nd) as [d1 r1] eqn:S. injection E as <- _. split; [|discriminate]. intros p N. eapply save_touches_one_file; eauto.
Qed.
Print Assumptions rewrite_touches_output.

Definition file_args (p : String.string) : args := mk_args [lit p] None false None false.
Definition ex_rewrite_file : disk := one_file "a.apx" ["APX/1.2"; "N""n"""; "T""b""C(0,3)"; "T""a""S"; "R""z""T[""b""]:=1"; "P""q""T[0]"; "P""p""T[1]"]%string.
Example ex_finalize :
  fst (apx_finalize (file_args "a.apx") [] ex_rewrite_file) (lit "a.apx") =
    Some (text_of ["APX/1.2"; "N""n"""; "T""a""S"; "T""b""C(0,3)"; "P""p""T[0]"; "P""q""T[1]"; "R""z""T[1]:=1"; ""; ""]%string) /\
  snd (apx_finalize (mk_args [] (Some (lit "x")) true None false) (text_of ["APX/1.2"; "N""n"""; "R""b""C"; "R""a""S"]%string) no_files) =
    Printed (text_of ["APX/1.2"; "N""n"""; "R""a""S"; "R""b""C"; ""; ""]%string) /\
  fst (apx_normalize (mk_args [lit "a.apx"] (Some (lit "x")) false None false) [] ex_rewrite_file) (lit "x") =
    Some (text_of ["APX/1.2"; "N""n"""; "T""a""S"; "T""b""C(0,3)"; "P""p""T[""a""]"; "P""q""T[""b""]"; "R""z""T[""b""]:=1"; ""; ""]%string).
Proof. vm_compute. auto. Qed.

(** Sorting may put a type before the one it needs: what the tool writes then is
    not read any more. *)
Theorem rewritten_is_read_refuted : exists d W nd d', parse_file d empty_world (lit "a.apx") = Ok (W, nd) /\
  apx_finalize (file_args "a.apx") [] d = (d', Printed []) /\
  d' (lit "a.apx") = Some (text_of ["APX/1.2"; "N""n"""; "T""a""{""x""T[1]}"; "T""b""C"; "P""p""T[0]"; ""; ""]%string) /\
  parse_file d' empty_world (lit "a.apx") = Err IndexError.
Proof.
  set (d := one_file "a.apx" ["APX/1.2"; "N""n"""; "T""b""C"; "T""a""{""x""T[""b""]}"; "P""p""T[""a""]"]%string).
  eexists d, _, _, _. split; [vm_compute; reflexivity|]. split; [vm_compute; reflexivity|]. split; vm_compute; reflexivity.
Qed.
Print Assumptions rewritten_is_read_refuted.
(** A tool that fails has thrown away what it was given. *)
Theorem failed_rewrite_refuted : exists d d', apx_normalize (file_args "a.apx") [] d = (d', Failed RuntimeError) /\
  d (lit "a.apx") = Some (text_of ["APX/1.2"; "N""n"""; "T""t""C"; "P""a""{""x""T[0]}"; "R""c""S"]%string) /\
  d' (lit "a.apx") = Some (text_of ["APX/1.2"; "N""n"""; "T""t""C"; ""]%string).
Proof.
  set (d := one_file "a.apx" ["APX/1.2"; "N""n"""; "T""t""C"; "P""a""{""x""T[0]}"; "R""c""S"]%string).
  eexists d, _. split; [vm_compute; reflexivity|]. split; vm_compute; reflexivity.
Qed.
Print Assumptions failed_rewrite_refuted.
(** A filter without file arguments needs an output file that it does not use. *)
Theorem filter_needs_output_refuted normalized stdin d a : a_pipe a = true -> a_inputs a = [] -> a_output a = None ->
  rewrite_tool normalized a stdin d = (d, Failed IndexError).
Proof. intros P I O. unfold rewrite_tool, output_of. rewrite P, I, O. reflexivity. Qed.
Print Assumptions filter_needs_output_refuted.

(** ** apx_mirror (C66) *)

Theorem mirrored_is_read a stdin d D D' out : given a stdin d D -> goes_to a out -> writable_def D -> sorted_def true D D' -> ordered D' ->
  (forall s, a_name a = Some s -> plain_name s /\ ~ In 13 s) ->
  if a_pipe a then exists t, apx_mirror a stdin d = (d, Printed t) /\ forall d1 p, read_as (put_file d1 p t) p (mirrored (a_name a) D')
  else exists d', apx_mirror a stdin d = (d', Printed []) /\ read_as d' out (mirrored (a_name a) D') /\ forall p, p <> out -> d' p = d p.
Proof.
  intros G O WD SD OD NM. apply goes_output in O. destruct (mirror_done a stdin d D D' out G O WD SD OD NM) as (t & Wx & ndx & _ & TA & _ & _ & E). destruct (a_pipe a).
  - exists t. split; [exact E|]. intros d1 p. apply put_read_as. exact TA.
  - eexists. split; [exact E|]. split; [apply put_read_as; exact TA|]. intros p N. apply put_other. exact N.
Qed.
Print Assumptions mirrored_is_read.
Lemma mirrored_twice D : mirrored None (mirrored None D) = D.
Proof. destruct D. reflexivity. Qed.
(** Mirroring the mirror gives the file that the definition itself would be given. *)
Theorem mirror_of_mirror normalized a1 a2 a3 stdin d D D' mid out : given a1 stdin d D -> writable_def D -> sorted_def true D D' -> ordered D' ->
  a1 = mk_args (a_inputs a1) (a_output a1) false None normalized -> goes_to a1 mid ->
  a2 = mk_args [mid] (Some out) false None normalized ->
  a3 = mk_args (a_inputs a1) (Some out) false None false ->
  exists d1 d2 d3, apx_mirror a1 stdin d = (d1, Printed []) /\ apx_mirror a2 stdin d1 = (d2, Printed []) /\
    rewrite_tool normalized a3 stdin d = (d3, Printed []) /\ d2 out = d3 out /\ d2 out <> None.
Proof.
  intros G WD SD OD A1 O1 A2 A3. apply goes_output in O1. assert (forall s : str, None = Some s -> plain_name s /\ ~ In 13 s) as NN by discriminate.
  assert (a_pipe a1 = false /\ a_name a1 = None /\ a_normalize a1 = normalized) as (P1 & N1 & M1) by (rewrite A1; auto).
  pose proof (linked_sorted _ _ _ (linked_given _ _ _ _ G) SD OD) as L'.
  destruct (mirror_done a1 stdin d D D' mid G O1 WD SD OD) as (t1 & _ & _ & _ & TA1 & _ & _ & E1); [rewrite N1; exact NN|]. rewrite P1 in E1. rewrite N1 in TA1.
  destruct (mirror_done a2 stdin (put_file d mid t1) (mirrored None D') (mirrored None D') out) as (t2 & _ & _ & TF2 & _ & _ & _ & E2).
  - rewrite A2. exists mid, []. split; [reflexivity|]. apply put_read_as. exact TA1.
  - rewrite A2. reflexivity.
  - apply writable_mirrored; [eapply writable_sorted; eauto|]. discriminate.
  - apply sorted_mirrored. eapply sorted_again; eauto.
  - exact OD.
  - rewrite A2. exact NN.
  - rewrite A2 in TF2, E2. cbn [a_name a_normalize a_pipe] in TF2, E2. rewrite mirrored_twice in TF2.
    destruct (rewrite_done normalized a3 stdin d D D' out) as (t3 & Wx & ndx & TF3 & _ & R & T & E3); auto.
    + rewrite A3. unfold given in *. rewrite P1 in G. exact G.
    + rewrite A3. reflexivity.
    + rewrite A3 in E3. cbn [a_pipe] in E3. rewrite (text_for_fun _ _ _ _ _ _ R T TF2 TF3) in E2. rewrite A2, A3. do 3 eexists. split; [exact E1|]. split; [exact E2|]. split; [exact E3|].
      rewrite !put_same. split; [reflexivity|discriminate].
Qed.
Print Assumptions mirror_of_mirror.

Example ex_mirror :
  fst (apx_mirror (mk_args [lit "a.apx"] (Some (lit "b")) false (Some (lit "m")) false) [] ex_rewrite_file) (lit "b") =
    Some (text_of ["APX/1.2"; "N""m"""; "T""a""S"; "T""b""C(0,3)"; "P""z""T[1]:=1"; "R""p""T[0]"; "R""q""T[1]"; ""; ""]%string) /\
  snd (apx_mirror (mk_args [lit "unused"] None true None true) (text_of ["APX/1.2"; "N""n"""; "T""t""C"; "R""b""T[0]"; "P""a""S"]%string) no_files) =
    Printed (text_of ["APX/1.2"; "N""n"""; "T""t""C"; "P""b""T[""t""]"; "R""a""S"; ""; ""]%string).
Proof. vm_compute. auto. Qed.

(** ** apx_join (C67) *)

(** [extend] adds the new ports behind the old ones in the order of the other node. *)
Theorem extend_keeps_order fuel W nd D other D2 W' nd' D' :
  represents W nd D -> linked D -> copyable D -> tidy_types D -> (forall o, In o (n_types nd) -> dt_short (w_types W o) = None) ->
  represents W other D2 -> linked D2 -> copyable D2 -> tidy_types D2 -> untagged W other \/ tagged W other ->
  extend fuel W nd other = Ok (W', nd') -> represents W' nd' D' ->
  forall pr, names_of pr D' = names_of pr D ++ firsts (names_of pr D) (names_of pr D2).
Proof.
  intros R L C T U R2 L2 C2 T2 TG E R'. assert (inv W nd D) as IN by (repeat (split; [assumption|]); exact U).
  assert (src W other D2) as SR by (repeat (split; [assumption|]); exact TG).
  destruct (extend_rep _ _ _ _ _ _ _ _ IN SR E) as (D1 & _ & IN1 & _). rewrite (represents_unique _ _ _ _ R' (proj1 IN1)).
  exact (extend_order _ _ _ _ _ _ _ _ _ IN SR E IN1).
Qed.
Print Assumptions extend_keeps_order.

(** The file that is written has the ports of all files, in order, each once; nothing
    else is written. *)
Theorem joined_is_read fuel inputs name sort normalize d Ds d' out : Forall2 (read_as d) inputs Ds -> Forall writable_def Ds -> plain_name name -> ~ In 13 name ->
  apx_join fuel inputs name sort normalize d = (d', Printed out) ->
  out = [] /\ (forall p, p <> name ++ lit ".apx" -> d' p = d p) /\
  exists D D', join_of Ds D /\ df_name D = Some name /\ sorted_def sort D D' /\ (ordered D' -> read_as d' (name ++ lit ".apx") D').
Proof.
  intros F WD PN NC E. destruct (join_done _ _ _ _ _ _ _ _ _ F WD PN NC E) as (A & B & D & D' & J & N & (SD & _) & X). split; [exact A|]. split; [exact B|].
  exists D, D'. split; [exact J|]. split; [exact N|]. split; [exact SD|]. intros OD. destruct (X OD) as (t & _ & TA & ->). apply put_read_as. exact TA.
Qed.
Print Assumptions joined_is_read.

Definition ex_join_files : disk := two_files
  "a" ["APX/1.2"; "N""a"""; "T""t""C"; "R""z""S"; "P""y""T[""t""]"]%string
  "b" ["APX/1.2"; "N""b"""; "T""u""L"; "T""t""C"; "P""x""T[""t""]"; "P""y""T[""t""]"; "R""w""T[""u""]"; "R""z""S"]%string.
Example ex_join :
  fst (apx_join 20 [lit "a"; lit "b"] (lit "j") false true ex_join_files) (lit "j.apx") =
    Some (text_of ["APX/1.2"; "N""j"""; "T""t""C"; "T""u""L"; "P""y""T[""t""]"; "P""x""T[""t""]"; "R""z""S"; "R""w""T[""u""]"; ""; ""]%string) /\
  snd (apx_join 20 [lit "a"; lit "b"] (lit "j") false true ex_join_files) = Printed [] /\
  fst (apx_join 20 [lit "a"; lit "b"] (lit "j") true false ex_join_files) (lit "j.apx") =
    Some (text_of ["APX/1.2"; "N""j"""; "T""t""C"; "T""u""L"; "P""x""T[0]"; "P""y""T[0]"; "R""w""T[1]"; "R""z""S"; ""; ""]%string).
Proof. vm_compute. auto. Qed.
(** A file without a node is taken for the one before. *)
Theorem join_blank_file_refuted : exists d d', parse_file d empty_world (lit "b") = Err AttributeError /\
  apx_join 20 [lit "a"; lit "b"] (lit "j") false false d = (d', Printed []).
Proof.
  exists (two_files "a" ["APX/1.2"; "N""a"""; "P""y""C"]%string "b" ["APX/1.2"; ""]%string). eexists. split; vm_compute; reflexivity.
Qed.
Print Assumptions join_blank_file_refuted.

(** ** apx_split (C68) *)

(** The head has the ports asked for, in the order of the names, the tail has all
    others, in their order; other files stay. *)
Theorem split_is_read fuel a d D names nh nt d' text : read_as d (s_input a) D -> writable_def D -> NoDup (port_names D) -> wanted a d names ->
  node_name (s_head a) (s_head_name a) nh -> plain_name nh -> ~ In 13 nh ->
  (forall p, s_tail a = Some p -> named_by p nt /\ plain_name nt /\ ~ In 13 nt) ->
  apx_split fuel a d = (d', Printed text) ->
  (forall p, s_head a <> Some p -> s_tail a <> Some p -> d' p = d p) /\
  (exists pick Dh Dh', (forall pr, asked D names pr (pick pr)) /\ part_of D pick Dh /\ df_name Dh = Some nh /\
    sorted_def (s_sort a) (if s_mirror a then mirrored None Dh else Dh) Dh' /\
    (ordered Dh' -> match s_head a with
                    | Some p => text = [] /\ (s_tail a <> Some p -> read_as d' p Dh')
                    | None => forall d1 p, read_as (put_file d1 p text) p Dh'
                    end)) /\
  (forall p, s_tail a = Some p -> exists Dt, part_of D (others D names) Dt /\ df_name Dt = Some nt /\
    forall Dt', sorted_def true Dt Dt' -> ordered Dt' -> read_as d' p Dt').
Proof.
  intros RA WD ND WA NH PH CH NT E. destruct (split_done _ _ _ _ _ _ _ _ _ RA WD ND WA NH PH CH NT E) as (A & (pick & Dh & Dh' & B1 & B2 & B3 & (B4 & _) & B5) & C).
  assert (forall d0 p t D0, text_as t D0 -> d0 p = Some t -> read_as d0 p D0) as PR.
  { intros d0 p t D0 TA X W0. destruct (put_read_as d0 p t D0 TA W0) as (W & nd & E1 & R). exists W, nd. split; [|exact R]. rewrite <- E1.
    unfold parse_file, parse_with, read_file. rewrite put_same, X. reflexivity. }
  split; [exact A|]. split.
  - exists pick, Dh, Dh'. split; [exact B1|]. split; [exact B2|]. split; [exact B3|]. split; [exact B4|]. intros OD. destruct (B5 OD) as (t & _ & TA & X). destruct (s_head a) as [p|].
    + destruct X as (-> & X). split; [reflexivity|]. intros N. eapply PR; eauto.
    + subst t. intros d1 p. apply put_read_as. exact TA.
  - intros p P. destruct (C p P) as (Dt & C1 & (C2 & _) & C3). exists Dt. split; [exact C1|]. split; [exact C2|]. intros Dt' SD OD. destruct (C3 Dt' SD OD) as (t & _ & TA & X). eapply PR; eauto.
Qed.
Print Assumptions split_is_read.
(** Whatever stands in a file of names, it asks for one list of names. *)
Theorem names_in_file text : exists ls names, file_lines text ls /\ lines_name ls names /\
  forall ls' names', file_lines text ls' -> lines_name ls' names' -> names' = names.
Proof.
  destruct (file_lines_of text) as (ls & FL). destruct (lines_name_of ls) as (names & L). exists ls, names. split; [exact FL|]. split; [exact L|].
  intros ls' names' FL' L'. rewrite <- (name_file _ _ _ FL L). symmetry. exact (name_file _ _ _ FL' L').
Qed.
Print Assumptions names_in_file.
Example ex_names : lines_name [lit "  a b # first"; lit "# none"; lit " "; lit "c"] [lit "a b"; lit "c"] /\
  name_lines (text_of ["  a b # first"; "# none"; " "; "c"]%string) = [lit "a b"; lit "c"].
Proof.
  assert (forall l, Forall (fun c => is_space c = true) l -> ToolsSpec.blank l) as BL by (intros l F c I; rewrite Forall_forall in F; auto).
  split; [|vm_compute; reflexivity].
  apply ln_name.
  { exists (lit "  "), (lit " "), (lit "# first"). split; [reflexivity|]. split; [apply BL; repeat constructor|]. split; [apply BL; repeat constructor|].
    split; [right; eexists; reflexivity|]. split; [vm_compute; intuition discriminate|]. split; [exists (ch "a"), (lit " b"); split; reflexivity|exists (lit "a "), (ch "b"); split; reflexivity]. }
  eapply (ln_none _ [] (lit "# none")); [reflexivity|intros c []|right; eexists; reflexivity|].
  eapply (ln_none _ (lit " ") []); [reflexivity|apply BL; repeat constructor|left; reflexivity|].
  apply ln_name; [|constructor].
  exists [], [], []. split; [reflexivity|]. split; [intros c []|]. split; [intros c []|].
  split; [left; reflexivity|]. split; [vm_compute; intuition discriminate|]. split; [exists (ch "c"), []; split; reflexivity|exists [], (ch "c"); split; reflexivity].
Qed.

Definition ex_split_text : list String.string :=
  ["APX/1.2"; "N""n"""; "T""t""C"; "T""u""S"; "P""a""T[""t""]"; "P""b""T[""u""]"; "R""c""T[""u""]"; "R""d""L"]%string.
Definition ex_split_files : disk := two_files "in.apx" ex_split_text "names" ["c # first"; ""; " a"; "none"; "a"]%string.
Definition ex_split_args : split_args := mk_split_args (lit "in.apx") [] (Some (lit "out/h.apx")) (Some (lit "out/t.apx")) (lit "Head") (lit "Tail") (Some (lit "names")) true false.
Example ex_split :
  fst (apx_split 20 ex_split_args ex_split_files) (lit "out/h.apx") =
    Some (text_of ["APX/1.2"; "N""h"""; "T""t""C"; "T""u""S"; "P""a""T[""t""]"; "R""c""T[""u""]"; ""; ""]%string) /\
  fst (apx_split 20 ex_split_args ex_split_files) (lit "out/t.apx") =
    Some (text_of ["APX/1.2"; "N""t"""; "T""u""S"; "P""b""T[""u""]"; "R""d""L"; ""; ""]%string) /\
  snd (apx_split 20 ex_split_args ex_split_files) = Printed [] /\
  snd (apx_split 20 (mk_split_args (lit "in.apx") [lit "d"; lit "a"] None None (lit "Head") (lit "Tail") None false true) ex_split_files) =
    Printed (text_of ["APX/1.2"; "N""Head"""; "T""t""C"; "P""d""L"; "R""a""T[""t""]"; ""; ""]%string).
Proof. vm_compute. auto. Qed.

(** --mirror is for head and tail, but the tail is not mirrored, and --tail_name is
    never used. *)
Theorem tail_mirrored_refuted : exists d', apx_split 20 (mk_split_args (lit "in.apx") [lit "d"] (Some (lit "h.apx")) (Some (lit "t.apx")) (lit "Head") (lit "New") None false true) ex_split_files = (d', Printed []) /\
  d' (lit "h.apx") = Some (text_of ["APX/1.2"; "N""h"""; "P""d""L"; ""; ""]%string) /\
  d' (lit "t.apx") = Some (text_of ["APX/1.2"; "N""t"""; "T""t""C"; "T""u""S"; "P""a""T[""t""]"; "P""b""T[""u""]"; "R""c""T[""u""]"; ""; ""]%string).
Proof. eexists. split; [vm_compute; reflexivity|]. split; vm_compute; reflexivity. Qed.
Print Assumptions tail_mirrored_refuted.
Theorem tail_name_unused fuel a n d : apx_split fuel (mk_split_args (s_input a) (s_names a) (s_head a) (s_tail a) (s_head_name a) n (s_file a) (s_sort a) (s_mirror a)) d = apx_split fuel a d.
Proof. destruct a as [i ns h [t|] hn tn f so m]; reflexivity. Qed.
Print Assumptions tail_name_unused.
(** Where a provide port and a require port have the same name, one is lost. *)
Theorem split_double_name_refuted : exists d d', d (lit "in.apx") = Some (text_of ["APX/1.2"; "N""n"""; "P""a""C"; "R""a""S"; "R""b""S"]%string) /\
  apx_split 20 (mk_split_args (lit "in.apx") [lit "a"] (Some (lit "h.apx")) (Some (lit "t.apx")) [] [] None false false) d = (d', Printed []) /\
  d' (lit "h.apx") = Some (text_of ["APX/1.2"; "N""h"""; "R""a""S"; ""; ""]%string) /\
  d' (lit "t.apx") = Some (text_of ["APX/1.2"; "N""t"""; "R""b""S"; ""; ""]%string).
Proof.
  set (d := one_file "in.apx" ["APX/1.2"; "N""n"""; "P""a""C"; "R""a""S"; "R""b""S"]%string).
  eexists d, _. split; [vm_compute; reflexivity|]. split; [vm_compute; reflexivity|]. split; vm_compute; reflexivity.
Qed.
Print Assumptions split_double_name_refuted.
(** A name that is also the name of a type ends the tool. *)
Theorem split_type_name_refuted : exists d, d (lit "in.apx") = Some (text_of ["APX/1.2"; "N""n"""; "T""a""C"; "P""a""T[""a""]"]%string) /\
  apx_split 20 (mk_split_args (lit "in.apx") [lit "a"] None None (lit "Head") (lit "Tail") None false false) d = (d, Failed ValueError).
Proof.
  exists (one_file "in.apx" ["APX/1.2"; "N""n"""; "T""a""C"; "P""a""T[""a""]"]%string). split; vm_compute; reflexivity.
Qed.
Print Assumptions split_type_name_refuted.
