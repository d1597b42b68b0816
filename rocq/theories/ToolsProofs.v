(** Lemmas about the command line tools. *)
From Coq Require Import ZifyBool ZifyNat Lia.
From Verif Require Import Py PyLemmas TypesModel TextModel SigModel AttrModel NodeModel ParserModel NodeDataModel FilesModel ToolsModel.
From Verif Require Import SigSpec NodeSpec ParserSpec MergeSpec FilesSpec ToolsSpec TextProofs SigProofs NodeProofs ElemTextProofs ParserProofs RoundTripProofs LoadProofs.
From Verif Require Import MirrorProofs FinalizeProofs ExtendProofs FilesProofs FilesProofs2.
Ltac Zify.zify_post_hook ::= Z.div_mod_to_equations.

Lemma put_other d path t p : p <> path -> put_file d path t p = d p.
Proof. intros N. unfold put_file. apply str_eqb_neq in N. rewrite N. reflexivity. Qed.
Lemma put_same d path t : put_file d path t path = Some t.
Proof. unfold put_file. rewrite str_eqb_refl. reflexivity. Qed.
Lemma read_as_ext d d' p D : d' p = d p -> read_as d p D -> read_as d' p D.
Proof. intros E R W0. destruct (R W0) as (W & nd & P & X). exists W, nd. split; [|exact X]. unfold parse_file, parse_with, read_file in *. rewrite E. exact P. Qed.

(** ** The outcome of writing a node *)

(** The text that stands for a sorted definition. *)
Definition text_for (normalized : bool) (D : ndef) (t : str) : Prop := exists ls, t = file_text ls /\ says_lines normalized D ls.
Lemma text_for_fun normalized D t t' W nd : represents W nd D -> tagged W nd -> text_for normalized D t -> text_for normalized D t' -> t = t'.
Proof. intros R T (ls & -> & S) (ls' & -> & S'). specialize (S _ _ R T). specialize (S' _ _ R T). rewrite S in S'. injection S' as <-. reflexivity. Qed.

Lemma put_node_done a normalized out d W nd D D' : represents W nd D -> linked D -> n_final nd = false -> untagged W nd -> writable_def D -> crless D ->
  sorted_def true D D' -> ordered D' ->
  exists t Wx ndx, text_for normalized D' t /\ text_as t D' /\ represents Wx ndx D' /\ tagged Wx ndx /\
    put_node a normalized out d W nd = if a_pipe a then (d, Printed t) else (put_file d out t, Printed []).
Proof.
  intros R L NF U WD CR SD OD. destruct (save_rep normalized (Some out) d W nd D D' out R L NF U WD CR SD OD eq_refl) as (W' & nd' & ls & E & EL & SL & TA & SE & DE & R' & T').
  exists (file_text ls), W', nd'. split; [exists ls; auto|]. split; [exact TA|]. split; [exact R'|]. split; [exact T'|]. unfold put_node. rewrite DE, SE. destruct (a_pipe a).
  - unfold finish_with. cbn [bind]. unfold print. destruct (lines_cons _ _ _ _ EL) as (x & r & ->). rewrite <- (printed_text (x :: r)) by discriminate. reflexivity.
  - reflexivity.
Qed.

(** ** apx_finalize and apx_normalize *)

Lemma given_node a stdin d D : given a stdin d D ->
  exists W nd, input_node a stdin d = Ok (W, nd) /\ sound W nd D /\ crless D /\ n_final nd = false.
Proof.
  unfold given, input_node. destruct (a_pipe a).
  - intros R. destruct (read_as_sound _ _ _ empty_world R) as (W & nd & E & S & C & F & _). exists W, nd. split; [|auto].
    unfold parse_file, parse_with, read_file in E. rewrite put_same in E. exact E.
  - intros (p & rest & -> & R). destruct (read_as_sound _ _ _ empty_world R) as (W & nd & E & S & C & F & _). exists W, nd. split; [|auto]. exact E.
Qed.
Lemma given_runs a stdin d D : given a stdin d D -> ((len (a_inputs a) =? 0) && negb (a_pipe a)) = false.
Proof.
  unfold given. destruct (a_pipe a); intros G; [apply andb_false_r|]. destruct G as (p & rest & -> & _). unfold len. cbn [length]. lia.
Qed.
Lemma goes_output a out : goes_to a out -> output_of a = Ok out.
Proof. intros [p E|p rest E I]; unfold output_of; rewrite E; [reflexivity|]. rewrite I. reflexivity. Qed.
Lemma rewrite_done normalized a stdin d D D' out : given a stdin d D -> output_of a = Ok out -> writable_def D -> sorted_def true D D' -> ordered D' ->
  exists t Wx ndx, text_for normalized D' t /\ text_as t D' /\ represents Wx ndx D' /\ tagged Wx ndx /\
    rewrite_tool normalized a stdin d = if a_pipe a then (d, Printed t) else (put_file d out t, Printed []).
Proof.
  intros G O WD SD OD. destruct (given_node _ _ _ _ G) as (W & nd & E & (R & L & N & U) & C & F).
  destruct (put_node_done a normalized out d W nd D D' R L F U WD C SD OD) as (t & Wx & ndx & TF & TA & RX & TX & PE). exists t, Wx, ndx. split; [exact TF|]. split; [exact TA|]. split; [exact RX|]. split; [exact TX|].
  unfold rewrite_tool. rewrite (given_runs _ _ _ _ G), O. cbn [bind]. rewrite E. cbn [bind]. exact PE.
Qed.

(** ** apx_mirror *)

Lemma writable_copyable D : writable_def D -> copyable D /\ tidy_types D.
Proof.
  intros WD. split.
  - split; [intros t I; apply (wd_types _ WD t I)|]. intros p I. destruct (wd_ports _ WD p I) as (_ & _ & _ & T). destruct (is_reference (pd_elem p)) eqn:IR.
    + left. apply is_ref_bool. exact IR.
    + right. apply T. apply is_ref_false. exact IR.
  - intros t I. destruct (wd_types _ WD t I) as (A & B & _). auto.
Qed.
Lemma rename_rep W nd D name : represents W nd D -> represents W (rename nd name) (mk_ndef (match name with Some s => Some s | None => df_name D end) (df_types D) (df_provide D) (df_require D)).
Proof. intros R. destruct name as [s|]; cbn [rename]; [destruct R; constructor; cbn [n_name n_types n_provide n_require n_map df_name df_types df_provide df_require]; auto|destruct D; exact R]. Qed.
Lemma linked_mirrored name D : linked D -> linked (mirrored name D).
Proof.
  intros L. constructor; try (apply L). intros p I. apply (ln_ports _ L). cbn [mirrored df_provide df_require] in I. apply in_app_or in I. apply in_or_app. tauto.
Qed.
Lemma writable_mirrored name D : writable_def D -> (forall s, name = Some s -> plain_name s) -> writable_def (mirrored name D).
Proof.
  intros [A B C] P. constructor.
  - destruct name as [s|]; [exists s; auto|exact A].
  - exact B.
  - intros p I. apply C. cbn [mirrored df_provide df_require] in I. apply in_app_or in I. apply in_or_app. tauto.
Qed.
Lemma sorted_mirrored sort name D D' : sorted_def sort D D' -> sorted_def sort (mirrored name D) (mirrored name D').
Proof.
  intros [A B C E]. constructor; cbn [mirrored df_name df_types df_provide df_require]; auto. destruct name; [reflexivity|exact A].
Qed.
Lemma mirror_done a stdin d D D' out : given a stdin d D -> output_of a = Ok out -> writable_def D -> sorted_def true D D' -> ordered D' ->
  (forall s, a_name a = Some s -> plain_name s /\ ~ In 13 s) ->
  exists t Wx ndx, text_for (a_normalize a) (mirrored (a_name a) D') t /\ text_as t (mirrored (a_name a) D') /\ represents Wx ndx (mirrored (a_name a) D') /\ tagged Wx ndx /\
    apx_mirror a stdin d = if a_pipe a then (d, Printed t) else (put_file d out t, Printed []).
Proof.
  intros G O WD SD OD NM. destruct (given_node _ _ _ _ G) as (W & nd & E & (R & L & N & U) & C & F). destruct (writable_copyable D WD) as [CP _].
  destruct (mirror_rep W nd D None R L (or_introl U) CP) as (W1 & nd1 & E1 & R1 & _ & U1 & _ & F1 & _).
  assert (represents W1 (rename nd1 (a_name a)) (mirrored (a_name a) D)) as R2.
  { apply (rename_rep _ _ _ (a_name a)) in R1. destruct (a_name a); exact R1. }
  assert (n_final (rename nd1 (a_name a)) = false) as F2 by (destruct (a_name a); exact F1).
  assert (untagged W1 (rename nd1 (a_name a))) as U2 by (destruct (a_name a); exact (U1 U)).
  destruct (put_node_done a (a_normalize a) out d W1 _ _ (mirrored (a_name a) D') R2 (linked_mirrored _ _ L) F2 U2) as (t & Wx & ndx & TF & TA & RX & TX & PE).
  - apply writable_mirrored; [exact WD|]. intros s X. apply (NM s X).
  - apply crless_mirrored; [exact C|]. destruct (a_name a) as [s|]; [apply (NM s eq_refl)|]. cbn. intros X. repeat (destruct X as [X|X]; [discriminate X|]). exact X.
  - apply sorted_mirrored. exact SD.
  - exact OD.
  - exists t, Wx, ndx. split; [exact TF|]. split; [exact TA|]. split; [exact RX|]. split; [exact TX|]. unfold apx_mirror. rewrite O. cbn [bind]. rewrite E. cbn [bind]. rewrite E1. cbn [bind]. exact PE.
Qed.

(** ** Merging definitions *)

Lemma merged_needs D D2 D' t : merged D D2 D' -> In t (df_types D') -> In t (df_types D) \/
  exists pr p i t2, In p (ports pr D2) /\ needs D2 (pd_elem p) i /\ nth_error (df_types D2) i = Some t2 /\ same_type D2 D' t2 t.
Proof.
  intros M I. destruct (mg_types _ _ _ M) as (ts & E & H). rewrite E in I. apply in_app_or in I as [I|I]; [left; exact I|right].
  destruct (H t I) as (pr & p & i & t2 & IP & _ & X). exists pr, p, i, t2. auto.
Qed.
Lemma merged_type D D2 D' t : merged D D2 D' -> In t (df_types D') -> In t (df_types D) \/ exists t2, In t2 (df_types D2) /\ same_type D2 D' t2 t.
Proof. intros M I. destruct (mg_types _ _ _ M) as (ts & E & H). rewrite E in I. apply in_app_or in I as [I|I]; [left; exact I|right]. destruct (H t I) as (pr & p & i & t2 & _ & _ & _ & N & S). exists t2. split; [eapply nth_error_In; exact N|exact S]. Qed.
Lemma in_ports p D : In p (df_provide D ++ df_require D) <-> exists pr, In p (ports pr D).
Proof.
  rewrite in_app_iff. split.
  - intros [I|I]; [exists true|exists false]; exact I.
  - intros (pr & I). destruct pr; auto.
Qed.
Lemma merged_port D D2 D' pr q : merged D D2 D' -> In q (ports pr D') -> In q (ports pr D) \/ exists p, In p (ports pr D2) /\ moved_port D2 D' p q.
Proof.
  intros M I. destruct (mg_ports _ _ _ M) as (new & E & _ & H). rewrite E in I. apply in_app_or in I as [I|I]; [left; exact I|right].
  destruct (H _ _ I) as (_ & p & P & MP & _). eauto.
Qed.
Lemma merged_ext D D2 D' : merged D D2 D' -> ext D D'.
Proof. intros M. destruct (mg_types _ _ _ M) as (ts & E & _). exists ts. exact E. Qed.

Definition fine_type (t : tdef) : Prop := name_is (fun s => clean_name s /\ bracketed s) (td_name t) /\ tidy false (td_elem t) /\ tidy_attr (td_attr t).
Definition fine_port (p : pdef) : Prop := name_is plain_name (pd_name p) /\ tidy_attr (option_map pa_str (pd_attr p)) /\
    (is_ref (pd_elem p) -> tidy false (pd_elem p)) /\ (~ is_ref (pd_elem p) -> tidy true (pd_elem p)).
Lemma fine_same_type D2 D' t2 t : same_type D2 D' t2 t -> fine_type t2 -> fine_type t.
Proof. intros (N & A & M) (X & Y & Z). unfold fine_type. rewrite N, A. split; [exact X|]. split; [eapply moved_tidy; eauto|exact Z]. Qed.
Lemma fine_moved_port D2 D' p q : moved_port D2 D' p q -> fine_port p -> fine_port q.
Proof.
  intros (N & A & M1 & M2) (X & Y & Z1 & Z2). unfold fine_port. rewrite N, A. split; [exact X|]. split; [exact Y|]. destruct (is_reference (pd_elem p)) eqn:IR.
  - apply is_ref_bool in IR. specialize (M1 IR). split; [intros _; eapply moved_tidy; eauto|]. intros NR. exfalso. apply NR. apply (moved_ref _ _ _ _ M1). exact IR.
  - apply is_ref_false in IR. rewrite (M2 IR). split; auto.
Qed.
Lemma words_same_type D2 D' t2 t : same_type D2 D' t2 t -> type_words t = type_words t2.
Proof. intros (N & A & M). unfold type_words. rewrite N, A, (moved_words _ _ _ _ M). reflexivity. Qed.
(** Types and ports that all come from definitions whose texts can be written. *)
Definition from_fine (D' : ndef) (ok : tdef -> Prop) (okp : pdef -> Prop) : Prop :=
  (forall t, In t (df_types D') -> ok t) /\ (forall p, In p (df_provide D' ++ df_require D') -> okp p).
Lemma writable_parts D : writable_def D <-> name_is plain_name (df_name D) /\ from_fine D fine_type fine_port.
Proof. split; [intros [A B C]; split; [exact A|split; assumption]|intros (A & B & C); constructor; assumption]. Qed.
Lemma merged_fine D D2 D' (ok : tdef -> Prop) (okp : pdef -> Prop) : merged D D2 D' ->
  (forall t2 t, same_type D2 D' t2 t -> ok t2 -> ok t) -> (forall p q, moved_port D2 D' p q -> okp p -> okp q) ->
  from_fine D ok okp -> from_fine D2 ok okp -> from_fine D' ok okp.
Proof.
  intros M HT HP (A & B) (A2 & B2). split.
  - intros t I. destruct (merged_type _ _ _ _ M I) as [J|(t2 & J & S)]; eauto.
  - intros p I. apply in_ports in I as (pr & I). destruct (merged_port _ _ _ _ _ M I) as [J|(p2 & J & S)].
    + apply B. apply in_ports. eauto.
    + eapply HP; [exact S|]. apply B2. apply in_ports. eauto.
Qed.
Lemma merged_writable D D2 D' : merged D D2 D' -> writable_def D -> writable_def D2 -> writable_def D'.
Proof.
  rewrite !writable_parts. intros M (A & B) (_ & C). split; [rewrite (mg_name _ _ _ M); exact A|]. eapply merged_fine; eauto.
  - intros. eapply fine_same_type; eauto.
  - intros. eapply fine_moved_port; eauto.
Qed.
Lemma merged_crless D D2 D' : merged D D2 D' -> crless D -> crless D2 -> crless D'.
Proof.
  rewrite !crless_parts. intros M (A & B) (_ & C). split; [rewrite (mg_name _ _ _ M); exact A|].
  eapply (merged_fine D D2 D' crless_type crless_port); eauto.
  - intros t2 t S. unfold crless_type. rewrite (words_same_type _ _ _ _ S). auto.
  - intros p q S. unfold crless_port. rewrite (port_words_moved _ _ _ _ S). auto.
Qed.
