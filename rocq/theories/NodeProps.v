(** Properties of operations on whole nodes: mirroring, sorting and merging. *)
From Coq Require Import ZifyBool ZifyNat Lia.
From Coq Require Permutation Sorted.
From Verif Require Import Py PyLemmas TypesModel TextModel SigModel AttrModel NodeModel ParserModel.
From Verif Require Import SigSpec NodeSpec ParserSpec MergeSpec TextProofs SigProofs NodeProofs ElemTextProofs ParserProofs RoundTripProofs LoadProofs.
From Verif Require Import MirrorProofs FinalizeProofs ExtendProofs ParserProps.
Ltac Zify.zify_post_hook ::= Z.div_mod_to_equations.

(** ** Mirroring (C41) *)

(** Every provide port becomes a require port and the other way around; names, types,
    attributes and order stay, and the node that is mirrored is not changed. *)
Theorem mirror_swaps W nd D name : represents W nd D -> linked D -> untagged W nd \/ tagged W nd -> copyable D ->
  exists W' nd', mirror W nd name = Ok (W', nd') /\ represents W' nd' (mirrored name D) /\ represents W' nd D.
Proof.
  intros R L TG CP. destruct (mirror_rep W nd D name R L TG CP) as (W' & nd' & E & R' & R0 & _). eauto.
Qed.
Print Assumptions mirror_swaps.

Lemma linked_mirrored name D : linked D -> linked (mirrored name D).
Proof.
  intros L. constructor; try (apply L). intros p I. apply (ln_ports _ L). cbn [mirrored df_provide df_require] in I. apply in_app_or in I. apply in_or_app. tauto.
Qed.
Lemma copyable_mirrored name D : copyable D -> copyable (mirrored name D).
Proof.
  intros (A & B). split; [exact A|]. intros p I. apply B. cbn [mirrored df_provide df_require] in I. apply in_app_or in I. apply in_or_app. tauto.
Qed.

(** Mirroring again gives the definition back, and with it all its texts. *)
Theorem mirror_twice W nd D : represents W nd D -> linked D -> untagged W nd \/ tagged W nd -> copyable D ->
  exists W1 nd1 W2 nd2, mirror W nd None = Ok (W1, nd1) /\ mirror W1 nd1 None = Ok (W2, nd2) /\
    represents W2 nd2 D /\
    (forall normalized, context_dumps normalized W2 [nd2] = context_dumps normalized W [nd]) /\
    (forall normalized Wd ndd text, n_final nd = false -> untagged W nd -> node_dumps normalized W nd = Ok (Wd, ndd, text) ->
       exists Wd2 ndd2, node_dumps normalized W2 nd2 = Ok (Wd2, ndd2, text)).
Proof.
  intros R L TG CP. destruct (mirror_rep W nd D None R L TG CP) as (W1 & nd1 & E1 & R1 & R0 & U1 & T1 & F1 & _).
  assert (tagging W1 nd1) as TG1 by (destruct TG; [left|right]; auto).
  destruct (mirror_rep W1 nd1 _ None R1 (linked_mirrored _ _ L) TG1 (copyable_mirrored _ _ CP)) as (W2 & nd2 & E2 & R2 & _ & U2 & T2 & F2 & _).
  assert (mirrored None (mirrored None D) = D) as MM by (destruct D; reflexivity). rewrite MM in R2.
  exists W1, nd1, W2, nd2. split; [exact E1|]. split; [exact E2|]. split; [exact R2|]. split.
  - intros normalized. unfold context_dumps. cbn [map_res].
    rewrite (lines_same normalized W nd W2 nd2 D R R2 (fun p I => proj1 (proj2 (ln_ports _ L p I)))); [reflexivity|].
    destruct TG as [U|T]; [left|right]; split; auto.
  - intros normalized Wd ndd text NF U E. unfold node_dumps in E |- *. inv_bind E. destruct a as [Wa na].
    destruct (finalize_same true W nd W2 nd2 D Wa na R R2 L NF F2 U (U2 (U1 U)) Ha) as (Wb & nb & FB & LB). rewrite FB. cbn [bind]. rewrite LB.
    inv_bind E. injection E as <- <- <-. rewrite Ha0. cbn [bind]. eauto.
Qed.
Print Assumptions mirror_twice.

Definition ex_text2 : str := text_of [
  "APX/1.2"; "N""Engine"""; "T""Speed_T""S(0,32767)"; "T""Status_T""{""id""C""speed""T[""Speed_T""]}";
  "P""Status""T[1]:={0,7}"; "P""Direct""{""x""T[""Speed_T""]}"; "R""Speed""T[""Speed_T""]:=65535"; "R""Name""a[8]"; ""]%string.
Definition ex_text2_lines : list String.string :=
  ["T""Speed_T""S(0,32767)"; "T""Status_T""{""id""C""speed""T[""Speed_T""]}"]%string.
Example ex_mirror :
  (do '(W, nd) <- loads empty_world ex_text2; do '(W, nd) <- mirror W nd None; context_dumps false W [nd]) =
    Ok (text_of (["APX/1.2"; "N""Engine"""]%string ++ ex_text2_lines ++
      ["P""Speed""T[""Speed_T""]:=65535"; "P""Name""a[8]"; "R""Status""T[""Status_T""]:={0,7}"; "R""Direct""{""x""T[""Speed_T""]}"; ""]%string)) /\
  (do '(W, nd) <- loads empty_world ex_text2; do '(W, nd) <- mirror W nd None; do '(W, nd) <- mirror W nd None; context_dumps false W [nd]) =
    Ok (text_of (["APX/1.2"; "N""Engine"""]%string ++ ex_text2_lines ++
      ["P""Status""T[""Status_T""]:={0,7}"; "P""Direct""{""x""T[""Speed_T""]}"; "R""Speed""T[""Speed_T""]:=65535"; "R""Name""a[8]"; ""]%string)).
Proof. vm_compute. auto. Qed.

(** ** Sorting (C39, C40) *)

(** [finalize] sorts the types, and the ports if asked to, by name; references keep
    their targets, types get their positions as ids. *)
Theorem finalize_sorts sort W nd D : represents W nd D -> linked D -> n_final nd = false -> untagged W nd ->
  (forall t, In t (df_types D) -> td_name t <> None) -> (forall p, In p (df_provide D ++ df_require D) -> pd_name p <> None) ->
  exists W' nd' D', finalize sort false W nd = Ok (W', nd') /\ sorted_def sort D D' /\ represents W' nd' D' /\ tagged W' nd'.
Proof.
  intros R L NF U NT NP. destruct (finalize_ok sort false W nd D R L NF (conj NT NP)) as (W' & nd' & E).
  destruct (finalize_rep sort W nd D W' nd' R L NF E) as (D' & SD & R' & _ & TG & _ & IT). exists W', nd', D'. split; [exact E|]. split; [exact SD|]. split; [exact R'|].
  intros i o O. destruct (TG i o O) as [A B]. split; [exact A|]. rewrite B. apply U. apply IT. eapply nth_error_In; eauto.
Qed.
Print Assumptions finalize_sorts.

(** So, where no type comes to stand before one that it refers to, the text that
    [Node.dumps] writes is read as the sorted definition. *)
Theorem dumps_round_trip normalized W nd D D' : represents W nd D -> linked D -> n_final nd = false -> untagged W nd -> writable_def D ->
  sorted_def true D D' -> (forall i t, nth_error (df_types D') i = Some t -> below i (td_elem t)) ->
  exists W' nd' text, node_dumps normalized W nd = Ok (W', nd', text) /\
    forall W0, exists W2 nd2, loads W0 text = Ok (W2, nd2) /\ represents W2 nd2 D'.
Proof.
  intros R L NF U WD SD B.
  assert (forall t, In t (df_types D) -> td_name t <> None) as NT by (intros t I; destruct (wd_types _ WD t I) as ((s & -> & _) & _); discriminate).
  assert (forall p, In p (df_provide D ++ df_require D) -> pd_name p <> None) as NP by (intros p I; destruct (wd_ports _ WD p I) as ((s & -> & _) & _); discriminate).
  destruct (finalize_sorts true W nd D R L NF U NT NP) as (W' & nd' & D1 & E & SD1 & R' & TG).
  assert (D1 = D') as -> by exact (sorted_def_unique _ _ _ _ (ln_names _ L) SD1 SD).
  pose proof (linked_sorted _ _ _ L SD B) as L'. pose proof (writable_sorted _ _ _ SD WD) as WD'.
  destruct (definition_round_trip normalized W' nd' D' R' L' (or_intror TG) WD') as (text & ET & RT).
  unfold node_dumps. rewrite E. cbn [bind]. unfold context_dumps in ET. cbn [map_res] in ET. inv_bind ET. inv_bind Ha. rename a0 into ls. cbn [bind] in Ha. injection Ha as <-.
  rewrite Ha0. cbn [bind]. cbn [concat] in ET. rewrite app_nil_r in ET.
  assert (exists l0 ls0, ls = l0 :: ls0) as (l0 & ls0 & ->).
  { unfold lines in Ha0. inv_bind Ha0. inv_bind Ha0. inv_bind Ha0. injection Ha0 as <-. eauto. }
  assert (text = lit "APX/1.2" ++ [NEWLINE] ++ join [NEWLINE] (l0 :: ls0) ++ [NEWLINE]) as ->.
  { injection ET as <-. reflexivity. }
  eexists _, _, _. split; [reflexivity|]. intros W0. destruct (RT W0) as (W2 & nd2 & LD & R2 & _). eauto.
Qed.
Print Assumptions dumps_round_trip.
Definition ex_unordered : str := text_of ["APX/1.2"; "N""n"""; "T""b""C"; "T""a""S"; "T""c""{""x""T[""b""]}"; "P""q""T[0]"; "P""p""T[2]"; ""]%string.
Definition ex_ordered : str := text_of ["APX/1.2"; "N""n"""; "T""a""S"; "T""b""C"; "T""c""{""x""T[1]}"; "P""p""T[2]"; "P""q""T[1]"; ""]%string.
Example ex_sorted : (do '(W, nd) <- loads empty_world ex_unordered; do '(_, _, text) <- node_dumps false W nd; Ok text) = Ok ex_ordered.
Proof. vm_compute. reflexivity. Qed.

(** ** Merging (C42) *)

(** A node that stands for a definition whose texts say what it is. *)
Definition settled (W : world) (nd : node) (D : ndef) : Prop :=
  represents W nd D /\ linked D /\ copyable D /\ tidy_types D /\ (untagged W nd \/ tagged W nd).
Lemma settled_inv W nd D : settled W nd D -> inv W nd D.
Proof. exact (src_inv W nd D). Qed.

(** Every port of the other node is there once; ports and types that were there before
    stay, and so does the other node; doing it again changes nothing. *)
Theorem extend_merges fuel W nd D other D2 W' nd' : settled W nd D -> settled W other D2 -> extend fuel W nd other = Ok (W', nd') ->
  exists D', merged D D2 D' /\ represents W' nd' D' /\ linked D' /\ represents W' other D2 /\
    (numbered W nd -> numbered W' nd') /\ (untagged W nd -> settled W' nd' D') /\ extend fuel W' nd' other = Ok (W', nd').
Proof.
  intros S S2 E. pose proof S2 as SR. destruct (extend_rep fuel W nd D other D2 W' nd' (settled_inv _ _ _ S) SR E) as (D' & M & (R & L & C & T & US) & WL & NU & ID).
  exists D'. split; [exact M|]. split; [exact R|]. split; [exact L|]. split; [eapply rep_wle; [exact WL|apply S2]|]. split; [exact NU|]. split; [|exact ID].
  intros U. split; [exact R|]. split; [exact L|]. split; [exact C|]. split; [exact T|]. left. intros o O. split; [|apply US; exact O].
  assert (noids W nd) as N by (intros x X; split; [apply U; exact X|apply (rp_tbelow _ _ _ (proj1 S)); exact X]).
  apply (noids_extend _ _ _ _ _ _ N E o O).
Qed.
Print Assumptions extend_merges.

Lemma moved_back names names' more a b : moved names (names' ++ more) a b -> below (length names') b -> moved names names' a b.
Proof.
  revert a b. apply (moved_mind names (names' ++ more) (fun a b _ => below (length names') b -> moved names names' a b) (fun l m _ => belows (length names') m -> moveds names names' l m)).
  - intros. constructor.
  - intros n i j nm A B BL. inversion BL as [|n' j' LT|]; subst. match goal with X : Z.of_nat _ = Z.of_nat _ |- _ => apply Nat2Z.inj in X; subst end. econstructor; [exact A|]. rewrite nth_error_app1 in B; [exact B|exact LT].
  - intros n l m M IH BL. inversion BL. constructor. apply IH. assumption.
  - constructor.
  - intros a b l m M IH Ms IHs BL. inversion BL. constructor; auto.
Qed.
Lemma names_nodup {A} (f : A -> option str) l x y : NoDup (map f l) -> In x l -> In y l -> f x = f y -> x = y.
Proof.
  induction l as [|z l IH]; intros N X Y E; [destruct X|]. cbn [map] in N. inversion N as [|? ? NI N']; subst.
  destruct X as [<- |X], Y as [<- |Y]; [reflexivity|..|apply IH; auto]; exfalso; apply NI; [rewrite E|rewrite <- E]; apply in_map; assumption.
Qed.

(** A port of the other node that the node has with another direction, type or
    attribute is refused. *)
Theorem extend_port_conflict fuel W nd D other D2 pr p pr' q : settled W nd D -> settled W other D2 -> NoDup (port_names D) ->
  In p (ports pr D2) -> In q (ports pr' D) -> pd_name q = pd_name p -> (pr = pr' -> ~ moved_port D2 D p q) ->
  exists e, extend fuel W nd other = Err e.
Proof.
  intros S S2 ND IP IQ NM C. destruct (extend fuel W nd other) as [[W' nd']|e] eqn:E; [exfalso|eauto].
  destruct (extend_merges _ _ _ _ _ _ _ _ S S2 E) as (D' & M & _). destruct (mg_all _ _ _ M pr p IP) as (q' & IQ' & MP).
  destruct (mg_ports _ _ _ M) as (new & PE & _ & NEW). rewrite PE in IQ'.
  assert (In q (df_provide D ++ df_require D)) as IQA by (apply in_or_app; destruct pr'; auto).
  pose proof MP as (N' & A' & M1 & M2). apply in_app_or in IQ' as [IQ'|IQ'].
  - assert (In q' (df_provide D ++ df_require D)) as IQA' by (apply in_or_app; destruct pr; auto).
    assert (q' = q) as -> by (apply (names_nodup pd_name (df_provide D ++ df_require D)); auto; congruence).
    assert (pr = pr') as EP.
    { destruct pr, pr'; try reflexivity; exfalso; cbn [ports] in *; unfold port_names in ND; rewrite map_app in ND;
        apply in_split in IQ as (a & b & X); apply in_split in IQ' as (a' & b' & Y); rewrite X, Y, !map_app in ND; cbn [map] in ND; rewrite <- app_assoc in ND; cbn [app] in ND;
        apply NoDup_remove_2 in ND; apply ND; rewrite !in_app_iff; cbn; auto 10. }
    apply (C EP). split; [exact N'|]. split; [exact A'|]. split; [|exact M2]. intros IR. specialize (M1 IR).
    destruct (mg_types _ _ _ M) as (ts & TE & _). unfold type_names in M1 at 2. rewrite TE, map_app in M1.
    eapply moved_back; [exact M1|]. unfold type_names. rewrite map_length. destruct S as (_ & L & _). destruct (ln_ports _ L q IQA) as (G & _). apply G.
    apply (moved_ref _ _ _ _ M1). exact IR.
  - destruct (NEW pr q' IQ') as (NI & _). apply NI. rewrite N', <- NM. unfold port_names. apply in_map. exact IQA.
Qed.
Print Assumptions extend_port_conflict.

(** So is a new port whose type the node declares in another way. *)
Theorem extend_type_conflict fuel W nd D other D2 pr p n i t2 t : settled W nd D -> settled W other D2 ->
  In p (ports pr D2) -> ~ In (pd_name p) (port_names D) -> pd_elem p = DRef n (RInt (Z.of_nat i)) -> nth_error (df_types D2) i = Some t2 ->
  (forall pr' p', In p' (ports pr' D2) -> pd_name p' = pd_name p -> p' = p) ->
  In t (df_types D) -> td_name t = td_name t2 -> ~ same_type D2 D t2 t ->
  exists e, extend fuel W nd other = Err e.
Proof.
  intros S S2 IP NP PE T2 ONE IT NT C. destruct (extend fuel W nd other) as [[W' nd']|e] eqn:E; [exfalso|eauto].
  destruct (extend_merges _ _ _ _ _ _ _ _ S S2 E) as (D' & M & _ & L' & _). destruct (mg_all _ _ _ M pr p IP) as (q & IQ & MP).
  destruct (mg_ports _ _ _ M) as (new & EP & _ & NEW). rewrite EP in IQ. apply in_app_or in IQ as [IQ|IQ].
  - apply NP. destruct MP as (<- & _). unfold port_names. apply in_map. apply in_or_app. destruct pr; auto.
  - destruct (NEW pr q IQ) as (_ & p' & IP' & MP' & TA).
    assert (p' = p) as -> by (eapply ONE; [exact IP'|]; destruct MP as (<- & _); destruct MP' as (<- & _); reflexivity).
    destruct (TA n i t2 PE T2) as (t' & IT' & ST). destruct (mg_types _ _ _ M) as (ts & TE & _).
    assert (t' = t) as ->.
    { apply (names_nodup td_name (df_types D')); [apply (ln_names _ L')|exact IT'|rewrite TE; apply in_or_app; auto|]. destruct ST as (-> & _). congruence. }
    apply C. destruct ST as (A & B & MV). split; [exact A|]. split; [exact B|]. unfold type_names in MV at 2. rewrite TE, map_app in MV.
    eapply moved_back; [exact MV|]. destruct S as (_ & L & _). apply In_nth_error in IT as (j & J). unfold type_names. rewrite map_length.
    eapply below_more; [|apply (ln_below _ L j t J)]. assert (j < length (df_types D))%nat by (apply nth_error_Some; congruence). lia.
Qed.
Print Assumptions extend_type_conflict.

Local Open Scope string_scope.
Local Open Scope list_scope.
Definition extend_texts (a b : list String.string) : res str :=
  do '(W, nd) <- loads empty_world (text_of a); do '(W, other) <- loads W (text_of b);
  do '(W, nd) <- extend 20 W nd other; context_dumps false W [nd].
Example ex_extend : extend_texts
  ["N""a"""; "T""A_T""C"; "P""p""T[""A_T""]"; "R""q""S"]
  ["N""b"""; "T""X_T""S"; "T""A_T""C"; "T""R_T""{""a""T[""A_T""]""x""T[""X_T""]}"; "P""new""T[""R_T""]"; "P""p""T[""A_T""]"; "R""q""S"; "R""own""{""y""C}"] =
  Ok (text_of ["APX/1.2"; "N""a"""; "T""A_T""C"; "T""X_T""S"; "T""R_T""{""a""T[""A_T""]""x""T[""X_T""]}";
    "P""p""T[""A_T""]"; "P""new""T[""R_T""]"; "R""q""S"; "R""own""{""y""C}"; ""]).
Proof. vm_compute. reflexivity. Qed.
Example ex_extend_conflicts :
  extend_texts ["N""a"""; "P""p""C"] ["N""b"""; "R""p""C"] = Err ValueError /\
  extend_texts ["N""a"""; "P""p""C"] ["N""b"""; "P""p""S"] = Err ValueError /\
  extend_texts ["N""a"""; "P""p""C:=1"] ["N""b"""; "P""p""C"] = Err ValueError /\
  extend_texts ["N""a"""; "T""t""C"; "P""p""T[0]"] ["N""b"""; "T""t""S"; "P""q""T[0]"] = Err ValueError.
Proof. vm_compute. auto. Qed.

(** But the types of ports that both nodes have are not compared: here [p] is a byte
    in one node and a 16 bit number in the other. *)
Theorem extend_type_conflict_refuted : exists W nd W1 other,
  loads empty_world (text_of ["N""a"""; "T""t""C"; "P""p""T[""t""]"]) = Ok (W, nd) /\
  loads W (text_of ["N""b"""; "T""t""S"; "P""p""T[""t""]"]) = Ok (W1, other) /\
  extend 20 W1 nd other = Ok (W1, nd).
Proof.
  match goal with |- exists W nd W1 other, ?t = _ /\ _ => destruct t as [[W nd]|] eqn:E; [|vm_compute in E; discriminate] end.
  vm_compute in E. injection E as <- <-. do 4 eexists. split; [reflexivity|]. split; [vm_compute; reflexivity|]. vm_compute. reflexivity.
Qed.
Print Assumptions extend_type_conflict_refuted.
(** A port of a type that is another name for a type cannot be added. *)
Theorem extend_reference_type_refuted :
  extend_texts ["N""a"""] ["N""b"""; "T""t""S"; "T""u""T[""t""]"; "P""p""T[""u""]"] = Err NotImplementedError.
Proof. vm_compute. reflexivity. Qed.
Print Assumptions extend_reference_type_refuted.

(** Nodes read from texts are such nodes, as far as their names and elements allow. *)
Theorem loaded_settled W text W' nd : loads W text = Ok (W', nd) -> exists D, represents W' nd D /\ (writable_def D -> settled W' nd D).
Proof.
  intros E. destruct (accepted_text_has_body _ _ _ _ E) as (body & TB). destruct (loads_inv W text body W' nd TB E) as (cs & D & _ & R & L & _ & U).
  exists D. split; [exact R|]. intros WD. split; [exact R|]. split; [exact L|]. split; [|split; [|left; exact U]].
  - split; [intros t I; apply (wd_types _ WD t I)|]. intros p I. destruct (wd_ports _ WD p I) as (_ & _ & _ & T). destruct (is_reference (pd_elem p)) eqn:IR.
    + left. apply is_ref_bool. exact IR.
    + right. apply T. apply is_ref_false. exact IR.
  - intros t I. destruct (wd_types _ WD t I) as (A & B & _). auto.
Qed.
Print Assumptions loaded_settled.
