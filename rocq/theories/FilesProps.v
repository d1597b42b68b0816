(** Properties of definition files: what a file says, and that saved files can be read. *)
From Coq Require Import ZifyBool ZifyNat Lia.
From Verif Require Import Py PyLemmas TypesModel TextModel SigModel AttrModel NodeModel ParserModel FilesModel.
From Verif Require Import SigSpec NodeSpec ParserSpec MergeSpec FilesSpec TextProofs SigProofs NodeProofs ElemTextProofs ParserProofs RoundTripProofs LoadProofs.
From Verif Require Import MirrorProofs FinalizeProofs ExtendProofs FilesProofs FilesProofs2.
From Verif Require ParserProps.
Ltac Zify.zify_post_hook ::= Z.div_mod_to_equations.

Definition text_of := ParserProps.text_of.
Definition no_files : disk := fun _ => None.
Definition shown_file (d : disk) (path : String.string) := ParserProps.shown (parse_file d empty_world (lit path)).

(** ** Reading (C63) *)

(** A new parser makes of a file what its lines say, whatever
    their ends, and all earlier nodes stay what they are. *)
Theorem parsed_file_says d W path W' nd : parse_file d W path = Ok (W', nd) ->
  exists text D, d path = Some text /\ file_says None text D /\ represents W' nd D /\ linked D /\ numbered W' nd /\ untagged W' nd /\
    forall nd0 D0, represents W nd0 D0 -> represents W' nd0 D0.
Proof.
  intros E. destruct (parse_sound _ _ _ _ _ E) as (text & D & T & FS & (R & L & N & U) & _ & _ & WL). exists text, D. repeat (split; [assumption|]).
  intros nd0 D0 R0. eapply rep_wle; eauto.
Qed.
Print Assumptions parsed_file_says.
(** A node stands for one definition only. *)
Theorem one_definition W nd D1 D2 : represents W nd D1 -> represents W nd D2 -> D1 = D2.
Proof. exact (represents_unique W nd D1 D2). Qed.
Print Assumptions one_definition.
(** A parser that has read other files reads a file as a new one does. *)
Theorem parser_reused old d W path r : parse_file d W path = Ok r -> parse_with old d W path = Ok r.
Proof.
  intros E. destruct r as [W' nd]. unfold parse_file, parse_with in *. inv_bind E. rewrite Ha. cbn [bind]. apply load_old. exact E.
Qed.
Print Assumptions parser_reused.
(** Not the other way round: an empty file gives the node of the file before. *)
Theorem parser_reused_refuted : exists d W nd W' , parse_file d empty_world (lit "a") = Ok (W, nd) /\
  parse_with (Some nd) d W (lit "b") = Ok (W', nd) /\ parse_file d W (lit "b") = Err AttributeError.
Proof.
  set (d := put_file (put_file no_files (lit "b") (lit "APX/1.2")) (lit "a") (text_of ["APX/1.2"; "N""n"""]%string)).
  eexists d, _, _, _. split; [vm_compute; reflexivity|]. split; vm_compute; reflexivity.
Qed.
Print Assumptions parser_reused_refuted.

Definition ex_crlf : str := lit "APX/1.2" ++ [13; 10] ++ lit "N""n""" ++ [13] ++ lit "T""t""C" ++ [10] ++ lit "P""p""T[""t""]:=3" ++ [13; 10].
Example ex_parse : shown_file (put_file no_files (lit "a.apx") ex_crlf) "a.apx" =
    Ok (Some (lit "n"), [(Some (lit "t"), DPrim None CU8 None None None, None)],
        [(Some (lit "p"), DRef None (RObj 0%nat), Some (lit "=3"), Some 0)], []) /\
  shown_file (put_file no_files (lit "a.apx") ex_crlf) "b.apx" = Err OSError.
Proof. vm_compute. auto. Qed.

(** ** Saving (C63) *)

(** A saved node can be read again: it is the definition sorted by name.  Nothing but
    the file changes; its text is that of [dumps] and one more line feed. *)
Theorem saved_file_is_read normalized out d W nd D D' path : represents W nd D -> linked D -> n_final nd = false -> untagged W nd ->
  writable_def D -> crless D -> sorted_def true D D' -> ordered D' ->
  (out = Some path \/ (out = None /\ exists s, df_name D = Some s /\ path = s ++ lit ".apx")) ->
  exists d' W' nd' text, save_apx normalized out d W nd = (d', Ok (W', nd')) /\ read_as d' path D' /\ represents W' nd' D' /\
    (forall p, p <> path -> d' p = d p) /\ node_dumps normalized W nd = Ok (W', nd', text) /\ d' path = Some (text ++ [10]).
Proof.
  intros R L NF U WD CR SD OD PO. assert (path_for out D path) as PF by (destruct PO as [-> |[-> X]]; [reflexivity|exact X]).
  destruct (save_rep normalized out d W nd D D' path R L NF U WD CR SD OD PF) as (W' & nd' & ls & E & EL & _ & TA & SE & DE & R' & TG).
  eexists _, W', nd', _. split; [exact SE|]. split; [apply put_read_as; exact TA|]. split; [exact R'|]. split; [|split; [exact DE|]].
  - intros p N. unfold put_file. apply str_eqb_neq in N. rewrite N. reflexivity.
  - unfold put_file. rewrite str_eqb_refl. destruct (lines_cons _ _ _ _ EL) as (x & r & ->). f_equal. symmetry. apply (printed_text (x :: r)). discriminate.
Qed.
Print Assumptions saved_file_is_read.

(** Whatever happens, other files stay as they are. *)
Theorem save_touches_one_file normalized path d W nd d' r : save_apx normalized (Some path) d W nd = (d', r) ->
  (forall p, p <> path -> d' p = d p) /\ (forall e, finalize true false W nd = Err e -> d' = d /\ r = Err e).
Proof.
  intros E. unfold save_apx in E. destruct (finalize true false W nd) as [[W1 nd1]|e].
  - unfold write_node in E. destruct (written normalized W1 nd1) as [t oe]. injection E as <- <-. split; [|discriminate].
    intros p N. unfold put_file. apply str_eqb_neq in N. rewrite N. reflexivity.
  - injection E as <- <-. split; [reflexivity|]. intros e' X. injection X as <-. auto.
Qed.
Print Assumptions save_touches_one_file.

(** A node can be saved to the file it came from only if all its lines have a text:
    otherwise the file loses the line that has none and all lines after it, and what
    is left may well be read. *)
Theorem failed_save_keeps_file_refuted : exists d W nd d' r,
  parse_file d empty_world (lit "a.apx") = Ok (W, nd) /\ save_apx false (Some (lit "a.apx")) d W nd = (d', Err RuntimeError) /\
  d' (lit "a.apx") = Some (text_of ["APX/1.2"; "N""n"""; "T""t""C"; "P""a""C"; ""]%string) /\
  parse_file d' empty_world (lit "a.apx") = Ok r.
Proof.
  set (d := put_file no_files (lit "a.apx") (text_of ["APX/1.2"; "N""n"""; "T""t""C"; "P""a""C"; "P""b""{""x""T[0]}"; "R""c""S"; ""]%string)).
  eexists d, _, _, _, _. split; [vm_compute; reflexivity|]. split; [vm_compute; reflexivity|]. split; vm_compute; reflexivity.
Qed.
Print Assumptions failed_save_keeps_file_refuted.

Definition ex_save (normalized : bool) (out : option str) (text : list String.string) (path : String.string) : res (option str) :=
  let d := put_file no_files (lit "in") (text_of text) in
  do '(W, nd) <- parse_file d empty_world (lit "in");
  Ok (fst (save_apx normalized out d W nd) (lit path)).
Example ex_saved :
  ex_save false None ["APX/1.2"; "N""n"""; "T""b""C"; "T""a""S"; "P""q""T[0]"; "P""p""T[1]"]%string "n.apx" =
    Ok (Some (text_of ["APX/1.2"; "N""n"""; "T""a""S"; "T""b""C"; "P""p""T[0]"; "P""q""T[1]"; ""; ""]%string)) /\
  ex_save true (Some (lit "in")) ["APX/1.2"; "N""n"""; "T""b""C"; "T""a""S"; "P""q""T[0]"; "P""p""T[1]"]%string "in" =
    Ok (Some (text_of ["APX/1.2"; "N""n"""; "T""a""S"; "T""b""C"; "P""p""T[""a""]"; "P""q""T[""b""]"; ""; ""]%string)).
Proof. vm_compute. auto. Qed.

(** ** A context (C63) *)

Definition file_of (D : ndef) : str := opt_text (df_name D) ++ lit ".apx".

(** Every node of a context gets a file of its own, which can be read again; here the
    definition is not sorted. *)
Theorem context_saved normalized W nodes Ds : Forall2 (fun nd D => represents W nd D /\ linked D /\ (untagged W nd \/ tagged W nd) /\ writable_def D /\ crless D) nodes Ds ->
  NoDup (map df_name Ds) -> forall d, exists d', context_save normalized d W nodes = (d', Ok (map file_of Ds)) /\
    (forall D, In D Ds -> read_as d' (file_of D) D) /\ (forall p, ~ In p (map file_of Ds) -> d' p = d p).
Proof.
  intros F. induction F as [|nd D nodes Ds (R & L & TG & WD & CR) F IH]; intros N d.
  - exists d. split; [reflexivity|]. split; [intros D []|reflexivity].
  - cbn [map] in N. inversion N as [|? ? NI N']; subst. destruct (written_as normalized W nd D R L TG WD CR) as (ls & EL & TA).
    destruct (wd_name _ WD) as (s & NM & _). cbn [context_save map]. rewrite (rp_name _ _ _ R), NM. cbn [default_path]. rewrite (write_node_lines _ _ _ _ _ _ EL).
    destruct (IH N' (put_file d (s ++ lit ".apx") (file_text ls))) as (d' & E & RA & O). rewrite E. cbn [bind].
    assert (file_of D = s ++ lit ".apx") as FD by (unfold file_of; rewrite NM; reflexivity).
    assert (~ In (file_of D) (map file_of Ds)) as NF.
    { intros I. apply in_map_iff in I as (D2 & E2 & I2). apply NI. apply in_map_iff. exists D2. split; [|exact I2].
      unfold file_of in E2. apply app_inv_tail in E2. rewrite NM in *. cbn [opt_text] in E2.
      assert (exists s2, df_name D2 = Some s2) as (s2 & S2).
      { apply In_nth_error in I2 as (i & I2). destruct (Forall2_nth_r _ _ _ _ _ F I2) as (nd2 & _ & (_ & _ & _ & WD2 & _)). destruct (wd_name _ WD2) as (s2 & S2 & _). eauto. }
      rewrite S2 in *. cbn [opt_text] in E2. congruence. }
    exists d'. split; [rewrite FD; reflexivity|]. split.
    + intros D2 [<- |I]; [|apply RA; exact I]. intros W0. destruct (put_read_as d (file_of D) _ _ TA W0) as (W1 & nd1 & P1 & R1). exists W1, nd1. split; [|exact R1].
      rewrite <- P1. unfold parse_file, parse_with, read_file. rewrite (O _ NF), FD. reflexivity.
    + intros p NP. cbn [In] in NP. rewrite O by tauto. unfold put_file. assert (p <> s ++ lit ".apx") as NE by (intros X; apply NP; left; congruence).
      apply str_eqb_neq in NE. rewrite NE. reflexivity.
Qed.
Print Assumptions context_saved.
(** Of two nodes with the same name one is lost. *)
Theorem context_saved_refuted : exists W a b d' l,
  context_save false no_files W [a; b] = (d', Ok l) /\ l = [lit "n.apx"; lit "n.apx"] /\
  d' (lit "n.apx") = Some (text_of ["APX/1.2"; "N""n"""; "R""q""S"; ""; ""]%string) /\
  context_dumps false W [a] = Ok (text_of ["APX/1.2"; "N""n"""; "P""p""C"; ""]%string).
Proof.
  assert (match (do '(W, a) <- loads empty_world (text_of ["N""n"""; "P""p""C"]%string); do '(W, b) <- loads W (text_of ["N""n"""; "R""q""S"]%string); Ok (W, a, b)) with
    | Ok (W, a, b) => snd (context_save false no_files W [a; b]) = Ok [lit "n.apx"; lit "n.apx"] /\
        fst (context_save false no_files W [a; b]) (lit "n.apx") = Some (text_of ["APX/1.2"; "N""n"""; "R""q""S"; ""; ""]%string) /\
        context_dumps false W [a] = Ok (text_of ["APX/1.2"; "N""n"""; "P""p""C"; ""]%string)
    | Err _ => False
    end) as X by (vm_compute; auto).
  match type of X with match ?t with _ => _ end => destruct t as [[[W a] b]|]; [|contradiction] end. destruct X as (X1 & X2 & X3).
  exists W, a, b. destruct (context_save false no_files W [a; b]) as [d' l]. cbn [fst snd] in *. subst l. exists d'. eexists. split; [reflexivity|]. auto.
Qed.
Print Assumptions context_saved_refuted.

(** If the text of a node cannot be made, saving ends with that exception, and only
    the files of the nodes up to that one are touched. *)
Definition path_of (nd : node) : str := opt_text (n_name nd) ++ lit ".apx".
Theorem context_save_stops normalized W nd after e : n_name nd <> None -> context_dumps normalized W [nd] = Err e ->
  forall before d, (forall x, In x before -> n_name x <> None /\ exists t, context_dumps normalized W [x] = Ok t) ->
  exists d', context_save normalized d W (before ++ nd :: after) = (d', Err e) /\
    (forall p, ~ In p (map path_of (before ++ [nd])) -> d' p = d p) /\
    forall x, In x (before ++ [nd]) -> d' (path_of x) <> None.
Proof.
  intros N E before.
  assert (forall x : node, n_name x <> None -> default_path (n_name x) = Ok (path_of x)) as DP by (intros x; unfold path_of; destruct (n_name x); [reflexivity|congruence]).
  assert (forall d p t q, d q <> None -> put_file d p t q <> None) as PN by (intros d p t q Q; unfold put_file; destruct (str_eqb q p); [discriminate|exact Q]).
  assert (forall d p t, put_file d p t p <> None) as PS by (intros d p t; unfold put_file; rewrite str_eqb_refl; discriminate).
  assert (forall d p t q, q <> p -> put_file d p t q = d q) as PO by (intros d p t q Q; unfold put_file; apply str_eqb_neq in Q; rewrite Q; reflexivity).
  assert (forall d, exists t, context_save normalized d W (nd :: after) = (put_file d (path_of nd) t, Err e)) as H0.
  { intros d. cbn [context_save]. rewrite (DP nd N). unfold context_dumps in E. cbn [map_res] in E.
    destruct (lines normalized W nd) as [ls|e'] eqn:EL; cbn [bind] in E; [discriminate|]. injection E as ->.
    destruct (written_fails _ _ _ _ EL) as (t & WF). unfold write_node. rewrite WF. eexists. reflexivity. }
  assert (forall d nodes d' r q, context_save normalized d W nodes = (d', r) -> d q <> None -> d' q <> None) as KEEP.
  { intros d nodes. revert d. induction nodes as [|x nodes IH]; intros d d' r q X Q; cbn [context_save] in X; [congruence|].
    destruct (default_path (n_name x)); [|congruence]. unfold write_node in X. destruct (written normalized W x) as [t [e'|]]; [injection X as <- _; auto|].
    destruct (context_save normalized _ W nodes) as [d1 l1] eqn:E1. injection X as <- _. eapply IH; [exact E1|]. auto. }
  induction before as [|x before IH]; intros d G.
  - cbn [app]. destruct (H0 d) as (t & ->). eexists. split; [reflexivity|]. split.
    + intros p NP. apply PO. intros ->. apply NP. left. reflexivity.
    + intros x [<-|[]]. apply PS.
  - destruct (G x (or_introl eq_refl)) as (Nx & tx & Tx). cbn [app context_save]. rewrite (DP x Nx). unfold context_dumps in Tx. cbn [map_res] in Tx.
    destruct (lines normalized W x) as [ls|e'] eqn:EL; cbn [bind] in Tx; [|discriminate]. rewrite (write_node_lines _ _ _ _ _ _ EL).
    destruct (IH (put_file d (path_of x) (file_text ls)) ltac:(intros y Iy; apply G; right; exact Iy)) as (d' & E' & O & S'). rewrite E'. cbn [bind].
    exists d'. split; [reflexivity|]. split.
    + intros p NP. cbn [map In] in NP. rewrite O by tauto. apply PO. intros ->. tauto.
    + intros y [<-|Iy]; [|apply S'; exact Iy]. eapply KEEP; [exact E'|]. apply PS.
Qed.
Print Assumptions context_save_stops.
Example ex_save_stops : match (do '(W, a) <- loads empty_world (text_of ["N""a"""; "P""p""C"]%string); do '(W, b) <- loads W (text_of ["N""b"""; "T""t""S"; "P""q""{""x""T[0]}"]%string);
    do '(W, c) <- loads W (text_of ["N""c"""; "P""p""C"]%string); Ok (W, a, b, c)) with
  | Ok (W, a, b, c) => let r := context_save false no_files W [a; b; c] in
      snd r = Err RuntimeError /\ map (fst r) [lit "a.apx"; lit "b.apx"; lit "c.apx"] =
        [Some (text_of ["APX/1.2"; "N""a"""; "P""p""C"; ""; ""]%string); Some (text_of ["APX/1.2"; "N""b"""; "T""t""S"; ""]%string); None]
  | Err _ => False
  end.
Proof. vm_compute. auto. Qed.

(** A node without a name is only saved if the file is named. *)
Theorem nameless_not_saved normalized d W nd : n_name nd = None ->
  (forall d' r, save_apx normalized None d W nd = (d', r) -> d' = d /\ exists e, r = Err e) /\
  (forall rest, context_save normalized d W (nd :: rest) = (d, Err TypeError)).
Proof.
  intros N. split; [|intros rest; cbn [context_save]; rewrite N; reflexivity].
  intros d' r E. unfold save_apx in E. destruct (finalize true false W nd) as [[W' nd']|e] eqn:F; [|injection E as <- <-; eauto].
  assert (n_name nd' = None) as N'.
  { unfold finalize in F. destruct (n_final nd); [congruence|]. apply bind_ok in F as (n1 & F1 & F). apply bind_ok in F as (W1 & _ & F). injection F as _ <-. cbn [n_name].
    unfold sort_elements in F1. apply bind_ok in F1 as (ts & _ & F1). apply bind_ok in F1 as (rs & _ & F1). apply bind_ok in F1 as (ps & _ & F1). injection F1 as <-. exact N. }
  rewrite N' in E. cbn [default_path] in E. injection E as <- <-. eauto.
Qed.
Print Assumptions nameless_not_saved.
Example ex_nameless : exists W nd, loads empty_world (text_of ["APX/1.2"; "N"]%string) = Ok (W, nd) /\ n_name nd = None /\
  snd (save_apx false None no_files W nd) = Err TypeError /\ fst (save_apx false (Some (lit "x")) no_files W nd) (lit "x") = Some (text_of ["APX/1.2"; "N""None"""; ""; ""]%string).
Proof. do 2 eexists. split; [vm_compute; reflexivity|]. repeat split; vm_compute; reflexivity. Qed.
