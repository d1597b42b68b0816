(** More lemmas about definition files: what one definition is, what parsing leaves
    alone, and whole savings. *)
From Coq Require Import ZifyBool ZifyNat Lia.
From Verif Require Import Py PyLemmas TypesModel TextModel SigModel AttrModel NodeModel ParserModel FilesModel.
From Verif Require Import SigSpec NodeSpec ParserSpec MergeSpec FilesSpec TextProofs SigProofs NodeProofs ElemTextProofs ParserProofs RoundTripProofs LoadProofs.
From Verif Require Import MirrorProofs FinalizeProofs ExtendProofs FilesProofs.
Ltac Zify.zify_post_hook ::= Z.div_mod_to_equations.

(** ** A node stands for one definition *)

Lemma stands_fun types : NoDup types -> forall e a, stands types e a -> forall b, stands types e b -> a = b.
Proof.
  intros N. apply (stands_mind types (fun e a _ => forall b, stands types e b -> a = b) (fun es l _ => forall m, stands_all types es m -> l = m)).
  - intros n c lo hi k b S. inversion S. reflexivity.
  - intros n o i E b S. inversion S as [|n' o' j E'|]; subst. rewrite (nodup_nth _ _ _ _ N E E'). reflexivity.
  - intros n es l _ IH b S. inversion S; subst. f_equal. auto.
  - intros m S. inversion S. reflexivity.
  - intros e a es l _ IH _ IHs m S. inversion S; subst. f_equal; auto.
Qed.
Lemma port_stands_fun types e a b : NoDup types -> port_stands types e a -> port_stands types e b -> a = b.
Proof.
  intros N A B. inversion A as [n r x S|x NR]; subst; inversion B as [n' r' y S'|y NR']; subst; try reflexivity.
  - eapply stands_fun; eauto.
  - exfalso. apply NR'. exact I.
  - exfalso. apply NR. exact I.
Qed.
Lemma represents_unique W nd D1 D2 : represents W nd D1 -> represents W nd D2 -> D1 = D2.
Proof.
  intros A B. pose proof (rp_tdup _ _ _ A) as ND. destruct D1 as [n1 t1 p1 r1], D2 as [n2 t2 p2 r2].
  pose proof (rp_name _ _ _ A) as A1. pose proof (rp_name _ _ _ B) as B1. cbn [df_name] in A1, B1.
  f_equal; [congruence| | |].
  - eapply Forall2_fun; [exact (rp_types _ _ _ A)|exact (rp_types _ _ _ B)|]. intros o x y _ (X1 & X2 & X3) (Y1 & Y2 & Y3).
    destruct x as [x1 x2 x3], y as [y1 y2 y3]; cbn [td_name td_elem td_attr] in *. f_equal; [congruence|eapply stands_fun; eauto|congruence].
  - eapply Forall2_fun; [exact (rp_provide _ _ _ A)|exact (rp_provide _ _ _ B)|]. intros o x y _ (X0 & X1 & X2 & X3) (Y0 & Y1 & Y2 & Y3).
    destruct x as [x1 x2 x3], y as [y1 y2 y3]; cbn [pd_name pd_elem pd_attr] in *. f_equal; [congruence|eapply port_stands_fun; eauto|congruence].
  - eapply Forall2_fun; [exact (rp_require _ _ _ A)|exact (rp_require _ _ _ B)|]. intros o x y _ (X0 & X1 & X2 & X3) (Y0 & Y1 & Y2 & Y3).
    destruct x as [x1 x2 x3], y as [y1 y2 y3]; cbn [pd_name pd_elem pd_attr] in *. f_equal; [congruence|eapply port_stands_fun; eauto|congruence].
Qed.

(** ** Parsing touches new objects only *)

Definition above (W0 : world) (nd : node) : Prop :=
  (forall o, In o (n_types nd) -> (w_ntypes W0 <= o)%nat) /\ (forall o, In o (n_provide nd ++ n_require nd) -> (w_nports W0 <= o)%nat).
Definition grows (W0 W : world) (P : parser) : Prop := wle W0 W /\ forall nd, p_node P = Some nd -> above W0 nd.
Lemma apply_type_grows W0 W nd parts W' nd' : wle W0 W -> above W0 nd -> apply_type W nd parts = Ok (W', nd') -> wle W0 W' /\ above W0 nd'.
Proof.
  intros L (A1 & A2) E. unfold apply_type in E. inv_bind E. destruct a as [[n s] a]. inv_bind E. destruct (new_type W a0) as [W1 o] eqn:NT.
  destruct (new_type_wle _ _ _ _ NT) as (L1 & ON & _). inv_bind E. destruct a1 as [[W2 nd2] o2]. injection E as <- <-.
  assert (w_ntypes W0 <= o)%nat as OO by (destruct L; lia). pose proof (wle_trans _ _ _ L L1) as L2.
  unfold add_type in Ha1. destruct (map_find _ _); inv_bind Ha1.
  - injection Ha1 as <- <- <-. split; [exact L2|split; assumption].
  - destruct a1 as [e x]. injection Ha1 as <- <- <-. split; [apply set_type_wle; assumption|]. split; cbn [n_types n_provide n_require]; [|exact A2].
    intros o' I. apply in_app_or in I as [I|[<- |[]]]; auto.
Qed.
Lemma add_port_grows W0 W nd o W' nd' : wle W0 W -> above W0 nd -> (w_nports W0 <= o)%nat -> add_port W nd o = Ok (W', nd') -> wle W0 W' /\ above W0 nd'.
Proof.
  intros L (A1 & A2) OO E. unfold add_port in E. inv_bind E. injection E as <- <-. split; [apply set_port_wle; assumption|].
  destruct (pt_provide _); (split; cbn [n_types n_provide n_require]; [exact A1|]); intros x I; rewrite !in_app_iff in I; cbn [In] in I.
  - destruct I as [[I|[<- |[]]]|I]; [|exact OO|]; apply A2; apply in_or_app; auto.
  - destruct I as [I|[I|[<- |[]]]]; [| |exact OO]; apply A2; apply in_or_app; auto.
Qed.
Lemma apply_port_grows W0 pr W nd parts W' nd' : wle W0 W -> above W0 nd -> apply_port pr W nd parts = Ok (W', nd') -> wle W0 W' /\ above W0 nd'.
Proof.
  intros L A E. unfold apply_port in E. inv_bind E. destruct a as [[n s] a]. inv_bind E. destruct (new_port W a0) as [W1 o] eqn:NT.
  destruct (new_port_wle _ _ _ _ NT) as (L1 & ON & _). eapply add_port_grows; [eapply wle_trans; eauto|exact A| |exact E]. destruct L as (_ & L & _). lia.
Qed.
Lemma process_line_grows W0 W P line W' P' : grows W0 W P -> process_line W P line = Ok (W', P') -> grows W0 W' P'.
Proof.
  intros [L F] E. unfold process_line in E. destruct (split_line line) as [parts|]; [|injection E as <- <-; split; assumption].
  set (t := match parts with t :: _ => t | [] => None end) in *. clearbody t.
  assert (forall nd cs, p_node P = Some nd -> (do '(W, nd) <- apply_type W nd parts; Ok (W, mk_parser cs (Some nd))) = Ok (W', P') -> grows W0 W' P') as AT.
  { intros nd cs N X. inv_bind X. destruct a as [W2 nd2]. injection X as <- <-. destruct (apply_type_grows _ _ _ _ _ _ L (F nd N) Ha) as [L2 A2]. split; [exact L2|].
    intros nd3 E3. cbn in E3. injection E3 as <-. exact A2. }
  assert (forall pr nd cs, p_node P = Some nd -> (do '(W, nd) <- apply_port pr W nd parts; Ok (W, mk_parser cs (Some nd))) = Ok (W', P') -> grows W0 W' P') as AP.
  { intros pr nd cs N X. inv_bind X. destruct a as [W2 nd2]. injection X as <- <-. destruct (apply_port_grows _ _ _ _ _ _ _ L (F nd N) Ha) as [L2 A2]. split; [exact L2|].
    intros nd3 E3. cbn in E3. injection E3 as <-. exact A2. }
  destruct (p_cs P).
  - destruct (opt_eqb t (Some [78])); [|discriminate]. inv_bind E. injection E as <- <-. split; [exact L|]. intros nd N. cbn in N. injection N as <-. split; intros o [].
  - destruct (p_node P) as [nd|] eqn:PN; [|discriminate]. repeat (match type of E with (if ?b then _ else _) = _ => destruct b; [first [eapply AT; [reflexivity|exact E]|eapply AP; [reflexivity|exact E]]|] end). discriminate.
  - destruct (p_node P) as [nd|] eqn:PN; [|discriminate]. repeat (match type of E with (if ?b then _ else _) = _ => destruct b; [first [eapply AT; [reflexivity|exact E]|eapply AP; [reflexivity|exact E]]|] end). discriminate.
  - destruct (p_node P) as [nd|] eqn:PN; [|discriminate]. repeat (match type of E with (if ?b then _ else _) = _ => destruct b; [first [eapply AT; [reflexivity|exact E]|eapply AP; [reflexivity|exact E]]|] end). injection E as <- <-. split; [exact L|intros nd0 N0; apply F; rewrite <- N0; symmetry; exact PN].
  - destruct (p_node P) as [nd|] eqn:PN; [|discriminate]. repeat (match type of E with (if ?b then _ else _) = _ => destruct b; [first [eapply AT; [reflexivity|exact E]|eapply AP; [reflexivity|exact E]]|] end). discriminate.
Qed.
Lemma process_lines_grows W0 l : forall W P W' P', grows W0 W P -> process_lines W P l = Ok (W', P') -> grows W0 W' P'.
Proof.
  induction l as [|x l IH]; intros W P W' P' F E; cbn [process_lines] in E; [injection E as <- <-; exact F|].
  inv_bind E. destruct a as [W1 P1]. eapply IH; [|exact E]. eapply process_line_grows; eauto.
Qed.
Lemma resolve_ports_grows W0 types l : forall W W', wle W0 W -> (forall o, In o l -> (w_nports W0 <= o)%nat) -> resolve_ports W types l = Ok W' -> wle W0 W'.
Proof.
  induction l as [|o l IH]; intros W W' L A E; cbn [resolve_ports] in E; [injection E as <-; exact L|]. inv_bind E.
  eapply IH; [|intros x X; apply A; right; exact X|exact E]. apply set_port_wle; [exact L|]. apply A. left. reflexivity.
Qed.
Lemma load_grows W t W' nd : load W t = Ok (W', nd) -> wle W W' /\ above W nd.
Proof.
  intros E. unfold load, load_with in E. inv_bind E. inv_bind E. destruct a0 as [W1 P1].
  assert (grows W W1 P1) as [L F] by (eapply process_lines_grows; [|exact Ha0]; split; [apply wle_refl|discriminate]).
  destruct (p_node P1) as [nd1|] eqn:PN; [|discriminate]. inv_bind E. injection E as <- <-. specialize (F _ eq_refl). split; [|exact F].
  eapply resolve_ports_grows; [exact L| |exact Ha1]. intros o O. apply F. apply in_app_or in O. apply in_or_app. tauto.
Qed.

(** ** A parser used before *)

Lemma process_lines_old l : forall old W W' P, process_lines W (mk_parser START None) l = Ok (W', P) -> p_node P <> None ->
  process_lines W (mk_parser START old) l = Ok (W', P).
Proof.
  induction l as [|x l IH]; intros old W W' P E N; cbn [process_lines] in *; [injection E as <- <-; cbn in N; congruence|].
  unfold process_line at 1 in E. unfold process_line at 1. destruct (split_line x) as [parts|]; cbn [bind] in *; [|eapply IH; eauto].
  cbn [p_cs] in *. exact E.
Qed.
Lemma load_old old W t W' nd : load W t = Ok (W', nd) -> load_with old W t = Ok (W', nd).
Proof.
  intros E. unfold load, load_with in *. inv_bind E. inv_bind E. destruct a0 as [W1 P1]. rewrite Ha. cbn [bind].
  destruct (p_node P1) as [nd1|] eqn:PN; [|discriminate]. rewrite (process_lines_old _ old _ _ _ Ha0) by congruence. cbn [bind]. rewrite PN. exact E.
Qed.

(** ** Reading files *)

Lemma parse_sound d W path W' nd : parse_file d W path = Ok (W', nd) ->
  exists text D, d path = Some text /\ file_says None text D /\ sound W' nd D /\ crless D /\ n_final nd = false /\ wle W W'.
Proof.
  intros E. unfold parse_file, parse_with, read_file in E. inv_bind E. destruct (d path) as [text|]; [|discriminate]. injection Ha as <-.
  destruct (load_says None None W text W' nd I E) as (D & FS & S). exists text, D. split; [reflexivity|]. split; [exact FS|]. split; [exact S|].
  split; [eapply file_says_crless; [exact FS|discriminate]|]. split; [eapply load_fresh; [|exact E]; discriminate|]. apply (load_grows W (universal text) W' nd E).
Qed.
Lemma read_as_sound d path D W0 : read_as d path D ->
  exists W nd, parse_file d W0 path = Ok (W, nd) /\ sound W nd D /\ crless D /\ n_final nd = false /\ wle W0 W.
Proof.
  intros R. destruct (R W0) as (W & nd & E & RP). destruct (parse_sound _ _ _ _ _ E) as (text & D1 & _ & _ & S & C & F & L).
  assert (D1 = D) as -> by (eapply represents_unique; [apply S|exact RP]). exists W, nd. auto.
Qed.

(** ** Saving *)

(** A text that is read as a definition. *)
Definition text_as (t : str) (D : ndef) : Prop :=
  ~ In 13 t /\ forall W0, exists W nd, load W0 t = Ok (W, nd) /\ represents W nd D.
Lemma put_read_as d path t D : text_as t D -> read_as (put_file d path t) path D.
Proof.
  intros [N H] W0. destruct (H W0) as (W & nd & E & R). exists W, nd. split; [|exact R]. unfold parse_file, parse_with, read_file, put_file.
  rewrite str_eqb_refl. cbn [bind]. rewrite universal_id by exact N. exact E.
Qed.
Lemma written_as normalized W nd D : represents W nd D -> linked D -> tagging W nd -> writable_def D -> crless D ->
  exists ls, lines normalized W nd = Ok ls /\ text_as (file_text ls) D.
Proof.
  intros R L TG WD CR. destruct (node_written normalized W nd D R L TG WD CR) as (ls & E & N & _ & H). exists ls. split; [exact E|]. split; [apply nocr_file_text; exact N|].
  intros W0. destruct (H W0) as (W' & nd' & E' & S & _). exists W', nd'. split; [exact E'|apply S].
Qed.

Lemma finalized_tagged sort W nd D W' nd' D' : represents W nd D -> linked D -> n_final nd = false -> untagged W nd -> sorted_def sort D D' ->
  finalize sort false W nd = Ok (W', nd') -> represents W' nd' D' /\ tagged W' nd' /\ n_final nd' = true.
Proof.
  intros R L NF U SD E. destruct (finalize_rep sort W nd D W' nd' R L NF E) as (D1 & SD1 & R' & F' & TG & _ & IT).
  assert (D1 = D') as -> by exact (sorted_def_unique _ _ _ _ (ln_names _ L) SD1 SD). split; [exact R'|]. split; [|exact F'].
  intros i o O. destruct (TG i o O) as [A B]. split; [exact A|]. rewrite B. apply U. apply IT. eapply nth_error_In; eauto.
Qed.
Lemma writable_names D : writable_def D -> names_given D.
Proof.
  intros WD. split.
  - intros t I. destruct (wd_types _ WD t I) as ((s & -> & _) & _). discriminate.
  - intros p I. destruct (wd_ports _ WD p I) as ((s & -> & _) & _). discriminate.
Qed.
Lemma finalized sort W nd D D' : represents W nd D -> linked D -> n_final nd = false -> untagged W nd -> sorted_def sort D D' -> names_given D ->
  exists W' nd', finalize sort false W nd = Ok (W', nd') /\ represents W' nd' D' /\ tagged W' nd' /\ n_final nd' = true.
Proof.
  intros R L NF U SD NG. destruct (finalize_ok sort false W nd D R L NF NG) as (W' & nd' & E). exists W', nd'. split; [exact E|]. eapply finalized_tagged; eauto.
Qed.

Definition path_for (out : option str) (D : ndef) (path : str) : Prop :=
  match out with Some p => path = p | None => exists s, df_name D = Some s /\ path = s ++ lit ".apx" end.
(** What is written for a definition: the same whatever the node. *)
Definition says_lines (normalized : bool) (D : ndef) (ls : list str) : Prop :=
  forall W nd, represents W nd D -> tagged W nd -> lines normalized W nd = Ok ls.
Lemma lines_are normalized W nd D ls : represents W nd D -> tagged W nd -> linked D -> lines normalized W nd = Ok ls -> says_lines normalized D ls.
Proof.
  intros R T L E W' nd' R' T'. rewrite <- E. apply (lines_same normalized W' nd' W nd D); auto; [|right; auto]. intros p P. apply (ln_ports _ L p P).
Qed.
Lemma save_rep normalized out d W nd D D' path : represents W nd D -> linked D -> n_final nd = false -> untagged W nd -> writable_def D -> crless D ->
  sorted_def true D D' -> ordered D' -> path_for out D path ->
  exists W' nd' ls, finalize true false W nd = Ok (W', nd') /\ lines normalized W' nd' = Ok ls /\
    says_lines normalized D' ls /\ text_as (file_text ls) D' /\
    save_apx normalized out d W nd = (put_file d path (file_text ls), Ok (W', nd')) /\
    node_dumps normalized W nd = Ok (W', nd', lit "APX/1.2" ++ [NEWLINE] ++ join [NEWLINE] ls ++ [NEWLINE]) /\ represents W' nd' D' /\ tagged W' nd'.
Proof.
  intros R L NF U WD CR SD OD PF. destruct (finalized true W nd D D' R L NF U SD (writable_names _ WD)) as (W' & nd' & E & R' & TG & F').
  pose proof (linked_sorted _ _ _ L SD OD) as L'. pose proof (writable_sorted _ _ _ SD WD) as WD'. pose proof (crless_sorted _ _ _ SD CR) as CR'.
  destruct (written_as normalized W' nd' D' R' L' (or_intror TG) WD' CR') as (ls & EL & TA). exists W', nd', ls. split; [exact E|]. split; [exact EL|].
  split; [eapply lines_are; eauto|]. split; [exact TA|]. split; [|split; [unfold node_dumps; rewrite E; cbn [bind]; rewrite EL; reflexivity|auto]].
  unfold save_apx. rewrite E. destruct out as [p|]; cbn [path_for] in PF.
  - subst path. rewrite (write_node_lines _ _ _ _ _ _ EL). reflexivity.
  - destruct PF as (s & N & ->). rewrite (rp_name _ _ _ R'), (sd_name _ _ _ SD), N. cbn [default_path]. rewrite (write_node_lines _ _ _ _ _ _ EL). reflexivity.
Qed.
Lemma printed_text ls : ls <> [] -> (lit "APX/1.2" ++ [NEWLINE] ++ join [NEWLINE] ls ++ [NEWLINE]) ++ [NEWLINE] = file_text ls.
Proof.
  intros N. destruct ls as [|x ls]; [congruence|]. unfold file_text. change (map (fun l : list Z => l ++ [NEWLINE]) (x :: ls)) with (map (fun l : str => l ++ [NEWLINE]) (x :: ls)).
  rewrite <- joined. change (x :: ls ++ [[]]) with ((x :: ls) ++ [[]]). rewrite join_last by discriminate. rewrite <- !app_assoc. reflexivity.
Qed.
