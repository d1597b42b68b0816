(** Properties of definition texts: what a text that is accepted says, that its layout
    does not matter, that every port line counts, that files and texts agree, and that
    the text written for a node can be read back. *)
From Coq Require Import ZifyBool ZifyNat Lia.
From Verif Require Import Py PyLemmas TypesModel TextModel SigModel AttrModel NodeModel ParserModel.
From Verif Require Import SigSpec NodeSpec ParserSpec TextProofs SigProofs NodeProofs ElemTextProofs ParserProofs RoundTripProofs LoadProofs.
Ltac Zify.zify_post_hook ::= Z.div_mod_to_equations.

(** What one sees of a node. *)
Definition shown_port (W : world) (o : nat) :=
  let p := w_ports W o in (pt_name p, pt_elem p, option_map pa_str (pt_attr p), pt_id p).
Definition shown (r : res (world * node)) :=
  do '(W, nd) <- r;
  Ok (n_name nd, map (fun o => let d := w_types W o in (dt_name d, dt_elem d, dt_attr d)) (n_types nd),
      map (shown_port W) (n_provide nd), map (shown_port W) (n_require nd)).
Definition text_of (l : list String.string) : str := join [NEWLINE] (map lit l).

Definition ex_text : str := text_of [
  "APX/1.2"; "N""Engine"""; "T""Speed_T""S(0,32767)"; "T""Status_T""{""id""C""speed""T[""Speed_T""]}";
  "P""Status""T[1]:={0,7}"; "P""Direct""{""x""T[0]}"; "R""Speed""T[""Speed_T""]:=65535"; "R""Name""a[8]"; ""]%string.
Definition u16 := DPrim None CU16 (Some 0) (Some 32767) None.
Example ex_loads : shown (loads empty_world ex_text) = Ok
  (Some (lit "Engine"),
   [(Some (lit "Speed_T"), u16, None);
    (Some (lit "Status_T"), DRec None [DPrim (Some (lit "id")) CU8 None None None; DRef (Some (lit "speed")) (RObj 0%nat)], None)],
   [(Some (lit "Status"), DRef None (RObj 1%nat), Some (lit "={0,7}"), Some 0);
    (Some (lit "Direct"), DRec None [DRef (Some (lit "x")) (RInt 0)], None, Some 1)],
   [(Some (lit "Speed"), DRef None (RObj 0%nat), Some (lit "=65535"), Some 0);
    (Some (lit "Name"), DPrim None CSTR None None (Some 8), None, Some 1)]).
Proof. vm_compute. reflexivity. Qed.

(** ** What a text that is accepted says (C38, C39) *)

Theorem accepted_text_has_body W text W' nd : loads W text = Ok (W', nd) -> exists body, text_body text body.
Proof.
  intros E. destruct (body_of text) as [B|(first & rest & -> & F & H & V)]; [exact B|].
  rewrite loads_other in E by auto. discriminate.
Qed.
Print Assumptions accepted_text_has_body.

(** The node is what its lines say, one after the other. *)
Theorem loaded_node_is_what_is_said W text body W' nd : text_body text body -> loads W text = Ok (W', nd) ->
  exists cs D, reads_lines (START, None) body (cs, Some D) /\ represents W' nd D.
Proof. intros TB E. destruct (loads_inv W text body W' nd TB E) as (cs & D & R & S1 & _). exists cs, D. auto. Qed.
Print Assumptions loaded_node_is_what_is_said.

(** Every reference of a type goes to a type before it and every reference of a port
    to a type of the node; following them ends at an element that is no reference. *)
Theorem loaded_references_resolve W text W' nd : loads W text = Ok (W', nd) ->
  (forall i o, nth_error (n_types nd) i = Some o ->
     (forall o', mentions (dt_elem (w_types W' o)) o' -> exists j, (j < i)%nat /\ nth_error (n_types nd) j = Some o') /\
     exists d, resolve_data_element (w_types W') (dt_elem (w_types W' o)) = Ok d /\ ~ is_ref d) /\
  (forall o, In o (n_provide nd ++ n_require nd) -> is_ref (pt_elem (w_ports W' o)) ->
     (exists o', pt_elem (w_ports W' o) = DRef None (RObj o') /\ In o' (n_types nd)) /\
     exists d, resolve_data_element (w_types W') (pt_elem (w_ports W' o)) = Ok d /\ ~ is_ref d).
Proof.
  intros E. destruct (accepted_text_has_body _ _ _ _ E) as (body & TB).
  destruct (loads_inv W text body W' nd TB E) as (cs & D & _ & R & L & _).
  assert (forall e a, stands (n_types nd) e a -> reaches (df_types D) 10 a ->
    exists d, resolve_data_element (w_types W') e = Ok d /\ ~ is_ref d) as FO.
  { intros e a ST RC. destruct (proj2 (follow _ _ _ (rp_types _ _ _ R) 10 _ _ ST) RC) as (d & RD). exists d.
    unfold resolve_data_element, MAX_RECURSE_DEPTH. split; [exact RD|]. eapply resolve_loop_end; eauto. }
  split.
  - intros i o O. destruct (Forall2_nth _ _ _ _ _ (rp_types _ _ _ R) O) as (t & T & _ & _ & ST). split.
    + intros o' M. eapply stands_mentions; eauto. apply (ln_below _ L i t T).
    + eapply FO; eauto. apply (ln_ends _ L). eapply nth_error_In; eauto.
  - intros o I IR.
    assert (exists pr p, port_is W' (n_types nd) pr o p /\ In p (df_provide D ++ df_require D)) as (pr & p & (_ & _ & _ & PS) & IP).
    { apply in_app_or in I as [O|O]; apply In_nth_error in O as [i O].
      - destruct (Forall2_nth _ _ _ _ _ (rp_provide _ _ _ R) O) as (p & Pn & PI). exists true, p. split; [exact PI|].
        apply in_or_app. left. eapply nth_error_In; eauto.
      - destruct (Forall2_nth _ _ _ _ _ (rp_require _ _ _ R) O) as (p & Pn & PI). exists false, p. split; [exact PI|].
        apply in_or_app. right. eapply nth_error_In; eauto. }
    destruct (ln_ports _ L p IP) as (G1 & _ & G3 & _). inversion PS as [n r a ST E1 E2|e NR E1 E2]; [|congruence].
    rewrite <- E1 in *. assert (is_ref (pd_elem p)) as IRp by (apply (stands_ref _ _ _ ST); exact IR). split.
    + inversion ST as [|n' o' i N X Y|]; subst. exists o'. split; [|eapply nth_error_In; eauto].
      match goal with X : DRef _ _ = pd_elem p |- _ => rewrite <- X in G3 end. cbn in G3. congruence.
    + eapply FO; eauto. apply G1, IRp.
Qed.
Print Assumptions loaded_references_resolve.
Example ex_references : exists W nd, loads empty_world ex_text = Ok (W, nd) /\ n_types nd = [0%nat; 1%nat] /\
  mentions (dt_elem (w_types W 1%nat)) 0 /\ resolve_data_element (w_types W) (pt_elem (w_ports W 2%nat)) = Ok u16.
Proof.
  do 2 eexists. split; [vm_compute; reflexivity|]. split; [reflexivity|]. split; [|vm_compute; reflexivity].
  cbn. eapply mt_rec; [right; left; reflexivity|]. constructor.
Qed.

(** Appending a port declaration adds that port behind the others (C38, C39). *)
Theorem append_adds_port W nd D item W' nd' : ~ In NEWLINE item ->
  represents W nd D -> linked D -> numbered W nd -> untagged W nd -> append_text W nd item = Ok (W', nd') ->
  exists (pr : bool) n s attr D', line_says item (Some [Some [if pr then 80 else 82]; n; Some s; attr]) /\
    declares_port pr D n s attr D' /\ represents W' nd' D' /\ linked D' /\ numbered W' nd'.
Proof.
  intros N R L NB U E. destruct (append_inv W nd D item W' nd' N) as (pr & n & s & attr & D' & SY & DP & S'); [split; auto|exact E|].
  exists pr, n, s, attr, D'. destruct S' as (A & B & C & _). auto.
Qed.
Print Assumptions append_adds_port.

Theorem loaded_port_ids W text W' nd : loads W text = Ok (W', nd) -> numbered W' nd.
Proof.
  intros E. destruct (accepted_text_has_body _ _ _ _ E) as (body & TB).
  destruct (loads_inv W text body W' nd TB E) as (cs & D & _ & _ & _ & N & _). exact N.
Qed.
Print Assumptions loaded_port_ids.

(** Not so after [finalize], which sorts the ports without giving them new ids, nor
    after [mirror], which gives none. *)
Definition ex_unsorted : str := text_of ["N""n"""; "P""b""C"; "P""a""S"]%string.
Theorem ids_after_finalize_refuted : exists W nd W' nd', loads empty_world ex_unsorted = Ok (W, nd) /\
  finalize true false W nd = Ok (W', nd') /\ ~ numbered W' nd'.
Proof.
  destruct (loads empty_world ex_unsorted) as [[W nd]|] eqn:E; [|vm_compute in E; discriminate].
  vm_compute in E. injection E as <- <-. do 4 eexists. split; [reflexivity|]. split; [vm_compute; reflexivity|].
  intros [N _]. specialize (N 0%nat 1%nat eq_refl). vm_compute in N. discriminate.
Qed.
Print Assumptions ids_after_finalize_refuted.
Theorem ids_after_mirror_refuted : exists W nd W' nd', loads empty_world ex_unsorted = Ok (W, nd) /\
  mirror W nd None = Ok (W', nd') /\ ~ numbered W' nd'.
Proof.
  destruct (loads empty_world ex_unsorted) as [[W nd]|] eqn:E; [|vm_compute in E; discriminate].
  vm_compute in E. injection E as <- <-. do 4 eexists. split; [reflexivity|]. split; [vm_compute; reflexivity|].
  intros [_ N]. specialize (N 0%nat 2%nat eq_refl). vm_compute in N. discriminate.
Qed.
Print Assumptions ids_after_mirror_refuted.

(** ** Layout (C43) *)

Theorem layout_does_not_matter W text body text' body' : text_body text body -> text_body text' body' ->
  same_lines body body' -> loads W text = loads W text'.
Proof. intros A B S. rewrite (loads_body W text body A), (loads_body W text' body' B), (process_same _ _ S). reflexivity. Qed.
Print Assumptions layout_does_not_matter.

Definition ex_plain : str := text_of ["APX/1.2"; "N""n"""; "P""a""C:=1"]%string.
Definition ex_laid_out : str :=
  join [NEWLINE] [lit "APX/1.2" ++ [13]; lit "# nodes"; lit "N""n""  # the node" ++ [13]; []; lit "   " ++ [13]; lit "P""a""C:=1 " ++ [13]; []].
Example ex_layout : exists body body', text_body ex_plain body /\ text_body ex_laid_out body' /\ same_lines body body' /\
  exists W nd, loads empty_world ex_laid_out = Ok (W, nd) /\ n_provide nd <> [].
Proof.
  assert (forall l : list Z, forallb (fun c => negb (c =? 10)) l = true -> ~ In NEWLINE l) as NN.
  { intros l F I. rewrite forallb_forall in F. apply F in I. discriminate. }
  assert (forall b, forallb (fun c => negb (c =? 35)) b = true -> is_eol (last b 0) = false -> body_text b) as BT.
  { intros b F L. split; [intros I; rewrite forallb_forall in F; apply F in I; discriminate|].
    intros p c -> B. rewrite last_last in L. apply blank_eol in B. congruence. }
  assert (forall bl c, forallb is_eol bl = true -> forallb (fun c => negb (c =? 10)) c = true -> trailing (bl ++ 35 :: c)) as TC.
  { intros bl c F G. exists bl, (35 :: c). split; [reflexivity|]. split; [|right; exists c; split; [reflexivity|apply NN, G]].
    rewrite forallb_forall in F. apply Forall_forall. intros x I. apply blank_eol, F, I. }
  assert (forall bl, forallb is_eol bl = true -> trailing bl) as TB.
  { intros bl F. exists bl, []. rewrite app_nil_r. split; [reflexivity|]. split; [|auto].
    rewrite forallb_forall in F. apply Forall_forall. intros x I. apply blank_eol, F, I. }
  do 2 eexists. split; [|split; [|split]].
  - exists (lit "APX/1.2"), [lit "N""n"""; lit "P""a""C:=1"]. split; [reflexivity|]. split.
    + repeat (constructor; [apply NN; reflexivity|]). constructor.
    + left. split; [exists []; reflexivity|reflexivity].
  - eexists (lit "APX/1.2" ++ [13]), [_; _; _; _; _; _]. split; [reflexivity|]. split.
    + repeat (constructor; [apply NN; reflexivity|]). constructor.
    + left. split; [exists [13]; reflexivity|reflexivity].
  - apply sl_right; [apply (TC [] (lit " nodes")); reflexivity|].
    apply (sl_both (lit "N""n""") [] (lit "  # the node" ++ [13])); [apply BT; reflexivity|apply TB; reflexivity|apply (TC (lit "  ") (lit " the node" ++ [13])); reflexivity|].
    apply sl_right; [apply TB; reflexivity|]. apply sl_right; [apply TB; reflexivity|].
    apply (sl_both (lit "P""a""C:=1") [] (lit " " ++ [13])); [apply BT; reflexivity|apply TB; reflexivity|apply TB; reflexivity|].
    apply sl_right; [apply TB; reflexivity|]. constructor.
  - do 2 eexists. split; [vm_compute; reflexivity|discriminate].
Qed.

(** A comment before the header line makes it no header, and an error. *)
Theorem comment_before_header_refuted :
  (exists r, loads empty_world ex_plain = Ok r) /\
  loads empty_world (lit "# comment" ++ [NEWLINE] ++ ex_plain) = Err ParseError.
Proof. split; [eexists|]; vm_compute; reflexivity. Qed.
Print Assumptions comment_before_header_refuted.

(** ** Every port line counts (C44) *)

Theorem every_port_line_counts W text body W' nd : text_body text body -> loads W text = Ok (W', nd) ->
  names_said (lit "P") body (map (fun o => pt_name (w_ports W' o)) (n_provide nd)) /\
  names_said (lit "R") body (map (fun o => pt_name (w_ports W' o)) (n_require nd)).
Proof.
  intros TB E. destruct (loads_inv W text body W' nd TB E) as (cs & D & RL & R & _).
  assert (forall pr os ps, Forall2 (port_is W' (n_types nd) pr) os ps -> map (fun o => pt_name (w_ports W' o)) os = map pd_name ps) as NM.
  { intros pr os ps F. induction F as [|o p os ps (_ & N & _) F IH]; [reflexivity|]. cbn [map]. rewrite N, IH. reflexivity. }
  rewrite (NM _ _ _ (rp_provide _ _ _ R)), (NM _ _ _ (rp_require _ _ _ R)). split.
  - destruct (ports_said true body _ _ RL) with (D' := D) as (ns & NS & ->); auto.
  - destruct (ports_said false body _ _ RL) with (D' := D) as (ns & NS & ->); auto.
Qed.
Print Assumptions every_port_line_counts.
Example ex_port_lines : exists W nd, loads empty_world ex_text = Ok (W, nd) /\
  map (fun o => pt_name (w_ports W o)) (n_provide nd) = [Some (lit "Status"); Some (lit "Direct")].
Proof. do 2 eexists. split; [vm_compute; reflexivity|]. vm_compute. reflexivity. Qed.

(** Type lines, and lines of any other kind, behind a provide port are dropped. *)
Theorem no_line_dropped_refuted :
  shown (loads empty_world (text_of ["N""n"""; "P""a""C"; "T""t""S"; "anything"; "R""b""C"]%string)) =
  shown (loads empty_world (text_of ["N""n"""; "P""a""C"; "R""b""C"]%string)) /\
  (exists r, loads empty_world (text_of ["N""n"""; "P""a""C"; "R""b""C"]%string) = Ok r).
Proof. split; [vm_compute; reflexivity|]. eexists. vm_compute. reflexivity. Qed.
Print Assumptions no_line_dropped_refuted.

(** ** Texts and files (C45) *)

(** With a header line both readers agree; a text without node is refused by both,
    with different exceptions. *)
Theorem load_agrees_with_loads W text first rest :
  text = join [NEWLINE] (first :: rest) -> Forall (fun l => ~ In NEWLINE l) (first :: rest) -> is_header first ->
  load W text = loads W text \/ (load W text = Err AttributeError /\ loads W text = Err RuntimeError).
Proof.
  intros -> F H. destruct (load_header W first rest F H) as [E|(W' & P & _ & _ & A & B)]; auto.
Qed.
Print Assumptions load_agrees_with_loads.
Theorem load_accepts_what_loads_accepts W text first rest r :
  text = join [NEWLINE] (first :: rest) -> Forall (fun l => ~ In NEWLINE l) (first :: rest) -> is_header first ->
  (load W text = Ok r <-> loads W text = Ok r).
Proof.
  intros E F H. destruct (load_agrees_with_loads W text first rest E F H) as [-> |[-> ->]]; [tauto|]. split; discriminate.
Qed.
Print Assumptions load_accepts_what_loads_accepts.
Example ex_load : shown (load empty_world ex_text) = shown (loads empty_world ex_text) /\
  shown (load empty_world ex_laid_out) = shown (loads empty_world ex_plain) /\
  loads empty_world (lit "APX/1.2") = Err RuntimeError /\ load empty_world (lit "APX/1.2") = Err AttributeError.
Proof. vm_compute. auto. Qed.
(** Without a header the first line is lost. *)
Theorem headerless_load_refuted :
  (exists r, loads empty_world ex_unsorted = Ok r) /\ load empty_world ex_unsorted = Err ParseError.
Proof. split; [eexists|]; vm_compute; reflexivity. Qed.
Print Assumptions headerless_load_refuted.

(** ** Definition text round trip (C40) *)

(** The text that [Context.dumps] writes for a node is read as a node with the same
    definition, whether its types have ids or not. *)
Theorem definition_round_trip normalized W nd D : represents W nd D -> linked D -> untagged W nd \/ tagged W nd -> writable_def D ->
  exists text, context_dumps normalized W [nd] = Ok text /\
    forall W0, exists W' nd', loads W0 text = Ok (W', nd') /\ represents W' nd' D /\ linked D /\ numbered W' nd' /\ untagged W' nd'.
Proof.
  intros R L TG WD. destruct (lines_written normalized W nd D R L TG WD) as (n & tls & pls & rls & N1 & N2 & E & A).
  unfold context_dumps. cbn [map_res]. rewrite E. cbn [bind concat]. rewrite app_nil_r. eexists. split; [reflexivity|].
  intros W0. destruct A as (A1 & A2 & A3 & A4 & A5). destruct (text_read n tls pls rls D W0 N1 N2 A1 A2 A3 A4 A5) as (W' & nd' & E' & S').
  exists W', nd'. split; [exact E'|]. exact S'.
Qed.
Print Assumptions definition_round_trip.

(** So a text that is read, written and read again gives the same definition. *)
Theorem reading_again_gives_the_same W text W' nd : loads W text = Ok (W', nd) ->
  exists D, represents W' nd D /\ (writable_def D -> exists text2, context_dumps false W' [nd] = Ok text2 /\
    forall W0, exists W2 nd2, loads W0 text2 = Ok (W2, nd2) /\ represents W2 nd2 D).
Proof.
  intros E. destruct (accepted_text_has_body _ _ _ _ E) as (body & TB).
  destruct (loads_inv W text body W' nd TB E) as (cs & D & _ & R & L & _ & U). exists D. split; [exact R|]. intros WD.
  destruct (definition_round_trip false W' nd D R L (or_introl U) WD) as (t2 & E2 & X). exists t2. split; [exact E2|].
  intros W0. destruct (X W0) as (W2 & nd2 & Y & Z & _). eauto.
Qed.
Print Assumptions reading_again_gives_the_same.

Definition ex_def : ndef := mk_ndef (Some (lit "n"))
  [mk_tdef (Some (lit "A_T")) (DPrim None CU8 None None None) None;
   mk_tdef (Some (lit "B[2]")) (DRec None [DRef (Some (lit "a")) (RInt 0); DPrim (Some (lit "b c")) CSTR None None (Some 4)]) None]
  [mk_pdef (Some (lit "p")) (DRef None (RInt 1)) None]
  [mk_pdef (Some (lit "r:1")) (DRec None [DRef (Some (lit "x")) (RName (lit "A_T"))]) None].
Ltac spelt := intros ? ?; cbn in *; intuition (subst; try discriminate).
Example ex_writable : writable_def ex_def /\ linked ex_def.
Proof.
  split.
  - constructor.
    + exists (lit "n"). split; [reflexivity|spelt].
    + intros t [<- |[<- |[]]]; cbn [td_name td_elem td_attr].
      * split; [exists (lit "A_T"); split; [reflexivity|]; split; [spelt|]|repeat split; auto].
        cbn. repeat (apply bk_char; [discriminate|discriminate|]). constructor.
      * split; [exists (lit "B[2]"); split; [reflexivity|]; split; [spelt|]|split; [|exact I]].
        -- cbn. apply bk_char; [discriminate|discriminate|]. apply (bk_pair [50] []); [|constructor]. apply bk_char; [discriminate|discriminate|constructor].
        -- cbn. split; [exists (lit "a"); split; [reflexivity|spelt]|]. split; [reflexivity|].
           split; [exists (lit "b c"); split; [reflexivity|spelt]|]. repeat split; auto; lia.
    + intros p [<- |[<- |[]]]; cbn [pd_name pd_elem pd_attr option_map tidy_attr].
      * split; [exists (lit "p"); split; [reflexivity|spelt]|]. split; [exact I|]. split; [intros _; reflexivity|]. intros N. destruct (N I).
      * split; [exists (lit "r:1"); split; [reflexivity|spelt]|]. split; [exact I|]. split; [intros []|]. intros _. cbn.
        split; [exists (lit "x"); split; [reflexivity|spelt]|]. split; [|exact I]. split; [reflexivity|]. split; [spelt|].
        repeat (apply bk_char; [discriminate|discriminate|]). constructor.
  - constructor.
    + cbn. constructor; [intros [X|[]]; discriminate|]. constructor; [intros []|constructor].
    + intros [|[|[|i]]] t E; cbn in E; try discriminate; injection E as <-; cbn; repeat constructor. apply (bl_ref 1 _ 0). lia.
    + intros t [<- |[<- |[]]]; apply rc_here; auto.
    + intros t [<- |[<- |[]]]; reflexivity.
    + intros t a [<- |[<- |[]]] E; discriminate.
    + intros p [<- |[<- |[]]]; unfold good_port; cbn [pd_elem pd_attr].
      * split; [intros _; split; [apply (bl_ref 2 _ 1); lia|]|]; [|split; [intros N; destruct (N I)|split; [reflexivity|discriminate]]].
        change 1 with (Z.of_nat 1). eapply rc_step; [reflexivity|]. apply rc_here. auto.
      * split; [intros []|]. split; [|split; [reflexivity|discriminate]]. intros _. cbn. split; [intros [X|[]]; discriminate|]. split; [|exact I].
        split; [intros X; cbn in X; intuition discriminate|]. repeat (apply bk_char; [discriminate|discriminate|]). constructor.
Qed.
Definition ex_def_text : str := text_of [
  "APX/1.2"; "N""n"""; "T""A_T""C"; "T""B[2]""{""a""T[""A_T""]""b c""a[4]}"; "P""p""T[""B[2]""]"; "R""r:1""{""x""T[""A_T""]}"; ""]%string.
Example ex_round_trip : (do '(W, nd) <- loads empty_world ex_def_text; context_dumps false W [nd]) = Ok ex_def_text.
Proof. vm_compute. reflexivity. Qed.

(** A node whose types were sorted may write a text that cannot be read: here type [a]
    refers to type [b], which comes behind it. *)
Definition ex_forward : str := text_of ["APX/1.2"; "N""n"""; "T""b""C"; "T""a""{""x""T[""b""]}"; "P""p""T[1]"; ""]%string.
Theorem sorted_round_trip_refuted : exists W nd W' nd' text,
  loads empty_world ex_forward = Ok (W, nd) /\ node_dumps false W nd = Ok (W', nd', text) /\
  exists e, loads empty_world text = Err e.
Proof.
  destruct (loads empty_world ex_forward) as [[W nd]|] eqn:E; [|vm_compute in E; discriminate].
  vm_compute in E. injection E as <- <-. do 5 eexists. split; [reflexivity|]. split; [vm_compute; reflexivity|].
  eexists. vm_compute. reflexivity.
Qed.
Print Assumptions sorted_round_trip_refuted.
(** A record declared by a port keeps its references as indices, which have no text. *)
Theorem index_in_own_record_refuted : exists W nd,
  loads empty_world (text_of ["N""n"""; "T""t""C"; "P""p""{""x""T[0]}"]%string) = Ok (W, nd) /\
  context_dumps false W [nd] = Err RuntimeError.
Proof.
  match goal with |- exists W nd, ?t = _ /\ _ => destruct t as [[W nd]|] eqn:E; [|vm_compute in E; discriminate] end.
  vm_compute in E. injection E as <- <-. do 2 eexists. split; [reflexivity|]. vm_compute. reflexivity.
Qed.
Print Assumptions index_in_own_record_refuted.
