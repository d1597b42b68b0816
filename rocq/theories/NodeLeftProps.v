(** What calls on a node that raise leave behind (C80). *)
From Coq Require Import ZifyBool ZifyNat Lia String.
From Coq Require Import Permutation.
From Verif Require Import Py PyLemmas TypesModel TextModel SigModel AttrModel NodeModel ParserModel NodeLeftModel.
From Verif Require Import SigSpec NodeSpec ParserSpec MergeSpec NodeLeftSpec.
From Verif Require Import TextProofs SigProofs NodeProofs ElemTextProofs ParserProofs LoadProofs MirrorProofs FinalizeProofs ExtendProofs NodeLeftProofs.
From Verif Require Import ParserProps NodeProps.
Ltac Zify.zify_post_hook ::= Z.div_mod_to_equations.

(** ** The calls are those of the model *)

(** A call raises what the model says, and what it leaves when it returns is what the
    model says. *)
Theorem left_type_call W nd o : as_model (add_type_left W nd o) (add_type W nd o).
Proof. apply add_type_left_as. Qed.
Print Assumptions left_type_call.
Theorem left_port_call W nd o : as_model (add_port_left W nd o) (with_tt (add_port W nd o)).
Proof. apply add_port_left_as. Qed.
Print Assumptions left_port_call.
Theorem left_append_call W nd item : as_model (append_text_left W nd item) (with_tt (append_text W nd item)).
Proof. apply append_text_left_as. Qed.
Print Assumptions left_append_call.
Theorem left_extend_call fuel W nd other : as_model (extend_left fuel W nd other) (with_tt (extend fuel W nd other)).
Proof. apply add_ports_from_left_as. Qed.
Print Assumptions left_extend_call.
Theorem left_finalize_call sort compact W nd : as_model (finalize_left sort compact W nd) (with_tt (finalize sort compact W nd)).
Proof. apply finalize_left_as. Qed.
Print Assumptions left_finalize_call.

(** ** Refused declarations *)

(** A type that is refused leaves the node and its text as they were.  Nothing but the
    element of the refused object has changed: some of its references may be bound. *)
Theorem refused_type_changes_nothing W nd D o W' nd' x : represents W nd D -> linked D -> untagged W nd \/ tagged W nd -> ~ In o (n_types nd) ->
  add_type_left W nd o = (W', nd', Err x) ->
  nd' = nd /\ represents W' nd D /\ (forall normalized, lines normalized W' nd = lines normalized W nd) /\ only_type o W W' /\
  exists e, w_types W' o = mk_dtype (dt_name (w_types W o)) e (dt_attr (w_types W o)) (dt_id (w_types W o)) (dt_short (w_types W o)) /\
    bound (n_types nd) (type_names D) (dt_elem (w_types W o)) e.
Proof.
  intros R L TG NI E. destruct (refused_type _ _ _ _ _ _ _ R E) as (-> & OT & e & EO & B). pose proof (rep_only_type _ _ _ _ _ R NI OT) as R'.
  split; [reflexivity|]. split; [exact R'|]. split; [|split; [exact OT|exists e; split; [exact EO|exact B]]].
  intros normalized. symmetry. apply (lines_same normalized W nd W' nd D R R'); [intros p I; apply (ln_ports _ L p I)|]. eapply tags_only_type; eauto.
Qed.
Print Assumptions refused_type_changes_nothing.

(** So does a port that is refused.  Its object has got the number it would have had. *)
Theorem refused_port_changes_nothing W nd D o W' nd' x : represents W nd D -> linked D -> untagged W nd \/ tagged W nd ->
  ~ In o (n_provide nd ++ n_require nd) -> add_port_left W nd o = (W', nd', Err x) ->
  nd' = nd /\ represents W' nd D /\ (forall normalized, lines normalized W' nd = lines normalized W nd) /\ only_port o W W' /\
  exists e, w_ports W' o = mk_port (pt_provide (w_ports W o)) (pt_name (w_ports W o)) e (pt_attr (w_ports W o))
                             (Some (len (ports (pt_provide (w_ports W o)) D))) /\
    bound (n_types nd) (type_names D) (pt_elem (w_ports W o)) e.
Proof.
  intros R L TG NI E. destruct (refused_port _ _ _ _ _ _ _ R E) as (-> & OT & e & EO & B). pose proof (rep_only_port _ _ _ _ _ R NI OT) as R'.
  split; [reflexivity|]. split; [exact R'|]. split; [|split; [exact OT|exists e; split; [|exact B]]].
  - intros normalized. symmetry. apply (lines_same normalized W nd W' nd D R R'); [intros p I; apply (ln_ports _ L p I)|]. eapply tags_only_port; eauto.
  - rewrite EO. unfold with_pelem, with_pid. cbn [pt_provide pt_name pt_elem pt_attr pt_id]. do 2 f_equal. unfold len. f_equal.
    destruct (pt_provide (w_ports W o)); [exact (Forall2_len _ _ _ (rp_provide _ _ _ R))|exact (Forall2_len _ _ _ (rp_require _ _ _ R))].
Qed.
Print Assumptions refused_port_changes_nothing.

(** ** Trying again *)

(** Declared again later, when all that it mentions is there, the object becomes what its
    declaration says in the definition of then. *)
Theorem refused_type_can_be_added_later W nd D o W1 nd1 x W2 nd2 D2 a : represents W nd D -> add_type_left W nd o = (W1, nd1, Err x) ->
  as_parsed (dt_elem (w_types W o)) -> forward (dt_elem (w_types W o)) ->
  represents W2 nd2 D2 -> linked D2 -> (exists more, n_types nd2 = n_types nd ++ more) -> (exists ts, df_types D2 = df_types D ++ ts) ->
  w_types W2 o = w_types W1 o -> (o < w_ntypes W2)%nat -> ~ In o (n_types nd2) ->
  ~ In (dt_name (w_types W o)) (type_names D2) -> refers (type_names D2) (dt_elem (w_types W o)) a -> reaches (df_types D2) 10 a ->
  exists W3 nd3, add_type W2 nd2 o = Ok (W3, nd3, o) /\ only_type o W2 W3 /\
    represents W3 nd3 (plus_type D2 (mk_tdef (dt_name (w_types W o)) a (dt_attr (w_types W o)))).
Proof. intros R E AP FW R2 L2 G1 G2. apply (retry_type W nd D o W1 nd1 x W2 nd2 D2 a R E AP FW R2 L2 (conj G1 G2)). Qed.
Print Assumptions refused_type_can_be_added_later.
Theorem refused_port_can_be_added_later W nd D o W1 nd1 x W2 nd2 D2 a : represents W nd D -> add_port_left W nd o = (W1, nd1, Err x) ->
  forward (pt_elem (w_ports W o)) ->
  represents W2 nd2 D2 -> linked D2 -> (exists more, n_types nd2 = n_types nd ++ more) -> (exists ts, df_types D2 = df_types D ++ ts) ->
  w_ports W2 o = w_ports W1 o -> (o < w_nports W2)%nat -> ~ In o (n_provide nd2 ++ n_require nd2) ->
  is_ref (pt_elem (w_ports W o)) -> refers (type_names D2) (pt_elem (w_ports W o)) a -> reaches (df_types D2) 10 a ->
  exists W3 nd3, add_port W2 nd2 o = Ok (W3, nd3) /\ only_port o W2 W3 /\ (numbered W2 nd2 -> numbered W3 nd3) /\
    represents W3 nd3 (plus_port (pt_provide (w_ports W o)) D2 (mk_pdef (pt_name (w_ports W o)) a (pt_attr (w_ports W o)))).
Proof. intros R E FW R2 L2 G1 G2. apply (retry_port W nd D o W1 nd1 x W2 nd2 D2 a R E FW R2 L2 (conj G1 G2)). Qed.
Print Assumptions refused_port_can_be_added_later.

Local Open Scope string_scope.
(** The texts of a node after a type was tried, [more] was declared, and it was tried
    again; and the texts where it was tried only then. *)
Definition add_type_text (W : world) (nd : node) (n s : string) : left nat :=
  match make_type (Some (lit n)) (lit s) None with
  | Err x => (W, nd, Err x)
  | Ok d => let '(W, o) := new_type W d in match add_type_left W nd o with (W, nd, r) => (W, nd, do _ <- r; Ok o) end
  end.
Definition twice (first : list string) (n s n2 s2 : string) : res (res nat * list str * list str) :=
  do '(W, nd) <- loads empty_world (text_of first);
  do d <- make_type (Some (lit n)) (lit s) None;
  let '(W, o) := new_type W d in
  let '(W1, nd1, r) := add_type_left W nd o in
  let '(W2, nd2, _) := add_type_text W1 nd1 n2 s2 in
  do '(W3, nd3, _) <- add_type W2 nd2 o;
  do ls <- lines false W3 nd3;
  let '(W2, nd2, _) := add_type_text W nd n2 s2 in
  do '(W3, nd3, _) <- add_type W2 nd2 o;
  do ls2 <- lines false W3 nd3;
  Ok (r, ls, ls2).
(** The record mentions [A_T], which is there, and [B_T], which comes only later. *)
Example ex_twice :
  twice ["N""n"""; "T""A_T""C"] "R_T" "{""a""T[""A_T""]""b""T[""B_T""]}" "B_T" "S" =
  let ls := map lit ["N""n"""; "T""A_T""C"; "T""B_T""S"; "T""R_T""{""a""T[""A_T""]""b""T[""B_T""]}"] in
  Ok (Err ApxTypeError, ls, ls).
Proof. vm_compute. reflexivity. Qed.
Example ex_refused_type : exists W nd D W1 o W' nd' e, loads empty_world (text_of ["N""n"""; "T""A_T""C"]) = Ok (W, nd) /\ represents W nd D /\ linked D /\ untagged W nd /\
  (do d <- make_type (Some (lit "R_T")) (lit "{""a""T[""A_T""]""b""T[""B_T""]}") None; Ok (new_type W d)) = Ok (W1, o) /\
  add_type_left W1 nd o = (W', nd', Err ApxTypeError) /\ w_types W' o = mk_dtype (Some (lit "R_T")) e None None None /\
  e = DRec None [DRef (Some (lit "a")) (RObj 0%nat); DRef (Some (lit "b")) (RName (lit "B_T"))].
Proof.
  destruct (loads empty_world (text_of ["N""n"""; "T""A_T""C"])) as [[W nd]|] eqn:E; [|vm_compute in E; discriminate].
  destruct (accepted_text_has_body _ _ _ _ E) as (body & TB). destruct (loads_inv _ _ _ _ _ TB E) as (cs & D & _ & R & L & _ & U).
  vm_compute in E. injection E as <- <-. do 2 eexists. exists D. do 5 eexists. split; [reflexivity|]. split; [exact R|]. split; [exact L|]. split; [exact U|].
  split; [vm_compute; reflexivity|]. split; [vm_compute; reflexivity|]. split; reflexivity.
Qed.
(** Positions counted from the end are an exception: the first attempt has bound [-1] to
    the type that was the last one then. *)
Theorem refused_type_later_refuted : exists first n s n2 s2 r ls ls2, twice first n s n2 s2 = Ok (Err r, ls, ls2) /\ ls <> ls2.
Proof.
  exists ["N""n"""; "T""A_T""C"], "R_T", "{""a""T[-1]""b""T[""B_T""]}", "B_T", "S". do 3 eexists. split; [vm_compute; reflexivity|]. vm_compute. discriminate.
Qed.
Print Assumptions refused_type_later_refuted.

(** ** A caller that goes on after refused lines *)

(** Exactly the lines that declare a port of the definition so far are taken, and the node
    is the one that the lines that were taken would have made alone. *)
Theorem refused_lines_leave_no_trace W nd D items : Forall (fun s => ~ In NEWLINE s) items ->
  represents W nd D -> linked D -> numbered W nd -> untagged W nd -> exists W' nd' rs taken D', append_each W nd items = (W', nd', rs) /\
  Forall2 (fun r b => r = Ok tt <-> b = true) rs taken /\ List.length taken = List.length items /\ accepts D (combine items taken) D' /\
  represents W' nd' D' /\ linked D' /\ numbered W' nd' /\ untagged W' nd' /\
  exists W2 nd2 rs2, append_each W nd (map fst (filter snd (combine items taken))) = (W2, nd2, rs2) /\ Forall (eq (Ok tt)) rs2 /\
    forall normalized, lines normalized W2 nd2 = lines normalized W' nd'.
Proof.
  intros F R L N U. assert (sound W nd D) as S0 by (unfold sound; auto).
  destruct (append_each_ok W nd D items F S0) as (W' & nd' & rs & D' & E & LE & AC & S').
  set (taken := map (fun r : res unit => match r with Ok _ => true | Err _ => false end) rs) in *.
  exists W', nd', rs, taken, D'. split; [exact E|]. split.
  { unfold taken. clear. induction rs as [|r rs IH]; constructor; [destruct r as [[]|]; split; congruence|exact IH]. }
  split; [unfold taken; rewrite map_length; exact LE|]. split; [exact AC|]. pose proof S' as (R' & L' & N' & U'). repeat (split; [assumption|]).
  destruct (append_taken _ _ _ AC) with (W := W) (nd := nd) as (W2 & nd2 & rs2 & E2 & ALL & (R2 & _ & _ & U2)); [|exact S0|].
  - apply Forall_forall. intros [s b] I. apply in_combine_l in I. rewrite Forall_forall in F. apply F. exact I.
  - exists W2, nd2, rs2. split; [exact E2|]. split; [exact ALL|]. intros normalized. apply (lines_same normalized W2 nd2 W' nd' D' R2 R'); [|left; auto].
    intros p I. apply (ln_ports _ L' p I).
Qed.
Print Assumptions refused_lines_leave_no_trace.
Example ex_each : exists W nd, loads empty_world (text_of ["N""n"""; "T""A_T""C"]) = Ok (W, nd) /\
  let '(W, nd, rs) := append_each W nd (map lit ["P""p""T[""A_T""]"; "P""q""T[""B_T""]"; "R""r""S:=7"; "T""B_T""S"; "P""s"; "R""q""a[4]"]) in
  rs = [Ok tt; Err ApxTypeError; Ok tt; Err ValueError; Err ValueError; Ok tt] /\
  lines false W nd = Ok (map lit ["N""n"""; "T""A_T""C"; "P""p""T[""A_T""]"; "R""r""S:=7"; "R""q""a[4]"]).
Proof. do 2 eexists. split; [vm_compute; reflexivity|]. vm_compute. auto. Qed.

(** ** Refused merges *)

(** What is left is the node joined with those ports of the other node that came before
    the one that was refused, perhaps with types that the refused port needs; it is
    still a sound node, and the other node is as it was. *)
Theorem refused_extend fuel W nd D other D2 W' nd' x : settled W nd D -> settled W other D2 -> extend_left fuel W nd other = (W', nd', Err x) ->
  exists done p rest D', in_turn D2 = (done ++ p :: rest)%list /\ joined D D2 done p D' /\ represents W' nd' D' /\ linked D' /\ represents W' other D2 /\
    (numbered W nd -> numbered W' nd').
Proof.
  intros S1 S2 E. destruct (refused_merge fuel W nd D other D2 W' nd' x (settled_inv _ _ _ S1) S2 E) as (done & p & rest & D' & EQ & J & (R & L & _) & WL & NU).
  exists done, p, rest, D'. repeat (split; [assumption|]). split; [|exact NU]. eapply rep_wle; [exact WL|apply S2].
Qed.
Print Assumptions refused_extend.
Definition extend_left_texts (a b : list string) : res (res unit * list str * list str) :=
  do '(W, nd) <- loads empty_world (text_of a);
  do '(W, other) <- loads W (text_of b);
  let '(W, nd, r) := extend_left 20 W nd other in
  do l1 <- lines false W nd; do l2 <- lines false W other; Ok (r, l1, l2).
Example ex_refused_extend :
  let b := ["N""b"""; "T""S_T""S"; "T""A_T""C"; "T""U_T""{""a""T[""A_T""]""b""T[""S_T""]}"; "T""V_T""T[""S_T""]"; "T""W_T""{""c""T[""A_T""]""d""T[""V_T""]}";
            "P""u""T[""U_T""]"; "P""w""T[""W_T""]"; "P""z""C"; "R""q""S"] in
  exists x, extend_left_texts ["N""a"""; "P""p""C"] b =
  Ok (Err x, map lit ["N""a"""; "T""A_T""C"; "T""S_T""S"; "T""U_T""{""a""T[""A_T""]""b""T[""S_T""]}"; "P""p""C"; "P""u""T[""U_T""]"; "R""q""S"],
      map lit b).
Proof. eexists. vm_compute. reflexivity. Qed.
(** So a merge that raises is not undone, and may leave a type behind that nothing uses. *)
Theorem extend_all_or_nothing_refuted : exists a b x l1 l2 W nd, extend_left_texts a b = Ok (Err x, l1, l2) /\
  loads empty_world (text_of a) = Ok (W, nd) /\ lines false W nd <> Ok l1 /\ n_types nd = [] /\ l1 = [lit "N""a"""; lit "T""A_T""C"].
Proof.
  exists ["N""a"""], ["N""b"""; "T""A_T""C"; "T""V_T""T[""A_T""]"; "T""W_T""{""c""T[""A_T""]""d""T[""V_T""]}"; "P""w""T[""W_T""]"]. do 5 eexists.
  split; [vm_compute; reflexivity|]. split; [vm_compute; reflexivity|]. split; [vm_compute; discriminate|]. split; reflexivity.
Qed.
Print Assumptions extend_all_or_nothing_refuted.

(** ** A failing [finalize] *)

(** [finalize] fails only for a definition with something nameless, and never for its
    types; what is left is a node that is not final, with the same contents in perhaps
    another order. *)
Theorem refused_finalize_reorders sort compact W nd D W' nd' x : represents W nd D -> linked D -> finalize_left sort compact W nd = (W', nd', Err x) ->
  x = TypeError /\ W' = W /\ n_final nd' = false /\ (In None (type_names D) \/ (sort = true /\ In None (port_names D))) /\
  n_name nd' = n_name nd /\ Permutation (n_types nd) (n_types nd') /\ Permutation (n_provide nd) (n_provide nd') /\ Permutation (n_require nd) (n_require nd') /\
  forall normalized h l, lines normalized W nd = Ok (h :: l) -> exists l', lines normalized W' nd' = Ok (h :: l') /\ Permutation l l'.
Proof.
  intros R L E. destruct (refused_finalize _ _ _ _ _ _ _ _ R L E) as (-> & -> & NF & RO & C). split; [reflexivity|]. split; [reflexivity|].
  pose proof RO as (A & B & _ & P1 & P2 & P3). split; [congruence|]. split.
  { destruct C as [(o & O & NO)|(-> & o & O & NO)]; [left|right; split; [reflexivity|]].
    - apply In_nth_error in O as (i & O). destruct (Forall2_nth _ _ _ _ _ (rep_names _ _ _ R) O) as (nm & NM & Q). rewrite NO in Q. subst nm. eapply nth_error_In; eauto.
    - destruct (port_obj _ _ _ _ R O) as (pr & q & (_ & PN & _) & _ & I). unfold port_names. rewrite <- NO, PN. apply in_map. exact I. }
  repeat (split; [assumption|]). intros normalized h l LN. eapply reordered_lines; eauto.
Qed.
Print Assumptions refused_finalize_reorders.
Example ex_refused_finalize : exists W nd W' nd' l, loads empty_world (text_of ["N""n"""; "T""B_T""C"; "T""A_T""S"; "R""y""C"; "R""x""C"; "P""b""C"; "Pa[4]"]) = Ok (W, nd) /\
  finalize_left true false W nd = (W', nd', Err TypeError) /\ n_types nd' <> n_types nd /\ n_require nd' <> n_require nd /\ lines false W' nd' = Ok l /\ lines false W nd <> Ok l.
Proof. do 5 eexists. split; [vm_compute; reflexivity|]. split; [vm_compute; reflexivity|]. split; [vm_compute; discriminate|]. split; [vm_compute; discriminate|]. split; [vm_compute; reflexivity|vm_compute; discriminate]. Qed.
