(** Lemmas about the tool that splits definitions. *)
From Coq Require Import ZifyBool ZifyNat Lia.
From Verif Require Import Py PyLemmas TypesModel TextModel SigModel AttrModel NodeModel ParserModel NodeDataModel FilesModel ToolsModel.
From Verif Require Import SigSpec NodeSpec ParserSpec MergeSpec FilesSpec ToolsSpec TextProofs SigProofs NodeProofs ElemTextProofs ParserProofs RoundTripProofs LoadProofs.
From Verif Require Import MirrorProofs FinalizeProofs ExtendProofs FilesProofs FilesProofs2 ToolsProofs ToolsProofs2.
Ltac Zify.zify_post_hook ::= Z.div_mod_to_equations.

(** ** Parts of definitions *)

Lemma part_port D pick D' pr q : part_of D pick D' -> In q (ports pr D') -> exists p, In p (pick pr) /\ moved_port D D' p q.
Proof.
  intros P I. apply In_nth_error in I as (i & I). destruct (Forall2_nth_r _ _ _ _ _ (pf_ports _ _ _ P pr) I) as (p & X & M). exists p. split; [eapply nth_error_In; exact X|exact M].
Qed.
Lemma part_type D pick D' t : part_of D pick D' -> In t (df_types D') -> exists t2, In t2 (df_types D) /\ same_type D D' t2 t.
Proof. intros P I. destruct (pf_types _ _ _ P t I) as (_ & _ & i & t2 & _ & _ & N & S). exists t2. split; [eapply nth_error_In; exact N|exact S]. Qed.
Lemma part_fine (ok : tdef -> Prop) (okp : pdef -> Prop) D pick D' :
  (forall t2 t, same_type D D' t2 t -> ok t2 -> ok t) -> (forall p q, moved_port D D' p q -> okp p -> okp q) ->
  part_of D pick D' -> (forall pr p, In p (pick pr) -> In p (ports pr D)) -> from_fine D ok okp -> from_fine D' ok okp.
Proof.
  intros HT HP P PK (A & B). split.
  - intros t I. destruct (part_type _ _ _ _ P I) as (t2 & I2 & S). eauto.
  - intros q I. apply in_ports in I as (pr & I). destruct (part_port _ _ _ _ _ P I) as (p & X & M). eapply HP; [exact M|]. apply B. apply in_ports. eauto.
Qed.
Lemma part_writable D pick D' n : part_of D pick D' -> (forall pr p, In p (pick pr) -> In p (ports pr D)) -> df_name D' = Some n -> plain_name n -> writable_def D -> writable_def D'.
Proof.
  rewrite !writable_parts. intros P PK N PN (_ & F). split; [exists n; auto|]. eapply part_fine; eauto; intros; [eapply fine_same_type|eapply fine_moved_port]; eauto.
Qed.
Lemma part_crless D pick D' n : part_of D pick D' -> (forall pr p, In p (pick pr) -> In p (ports pr D)) -> df_name D' = Some n -> ~ In 13 n -> crless D -> crless D'.
Proof.
  rewrite !crless_parts. intros P PK N PN (_ & F). split; [rewrite N; exact PN|]. eapply (part_fine crless_type crless_port); eauto.
  - intros t2 t S. unfold crless_type. rewrite (words_same_type _ _ _ _ S). auto.
  - intros p q S. unfold crless_port. rewrite (port_words_moved _ _ _ _ S). auto.
Qed.

Lemma source_in W other D2 l lp : source_ports W other D2 l lp -> forall x, In x lp -> In (snd x) (ports (fst x) D2).
Proof. intros F x X. apply In_nth_error in X as (i & X). destruct (Forall2_nth_r _ _ _ _ _ F X) as (o & _ & _ & I & _). exact I. Qed.
Lemma side_in pr lp p : In p (side pr lp) <-> In (pr, p) lp.
Proof.
  unfold side. rewrite in_map_iff. split.
  - intros ([b x] & E & I). cbn in E. subst x. apply filter_In in I as [I E]. cbn in E. apply Bool.eqb_prop in E. subst b. exact I.
  - intros I. exists (pr, p). split; [reflexivity|]. apply filter_In. split; [exact I|]. apply Bool.eqb_reflx.
Qed.
(** Names tell the direction of a port if none occurs twice. *)
Lemma name_side D pr pr' p : NoDup (port_names D) -> In p (ports pr D) -> existsb (opt_eqb (pd_name p)) (names_of pr' D) = Bool.eqb pr pr'.
Proof.
  intros ND I. unfold port_names in ND. rewrite map_app in ND. destruct (Bool.eqb pr pr') eqn:E.
  - apply Bool.eqb_prop in E. subst. apply existsb_name. apply in_map. exact I.
  - apply existsb_none. intros J. assert (forall n, In n (map pd_name (df_provide D)) -> In n (map pd_name (df_require D)) -> False) as X.
    { clear - ND. intros n. generalize dependent (map pd_name (df_provide D)). intros a. induction a as [|x a IH]; intros N P R; [destruct P|]. inversion N as [|? ? NI N']; subst.
      destruct P as [-> |P]; [apply NI; apply in_or_app; auto|auto]. }
    destruct pr, pr'; try discriminate; apply (X (pd_name p)); auto; apply in_map; exact I.
Qed.
Lemma side_names D lp pr : NoDup (port_names D) -> (forall x, In x lp -> In (snd x) (ports (fst x) D)) ->
  map pd_name (side pr lp) = filter (fun n => existsb (opt_eqb n) (names_of pr D)) (map (fun x => pd_name (snd x)) lp).
Proof.
  intros ND. unfold side. induction lp as [|[b p] lp IH]; intros H; [reflexivity|]. cbn [map filter fst snd]. rewrite (name_side D b pr p ND (H _ (or_introl eq_refl))).
  specialize (IH (fun x X => H x (or_intror X))). destruct (Bool.eqb b pr); [cbn [map snd]; rewrite IH; reflexivity|exact IH].
Qed.
Lemma filter_filter {A} (f g : A -> bool) l : (forall x, f x = true -> g x = true) -> filter f (filter g l) = filter f l.
Proof.
  intros H. induction l as [|x l IH]; [reflexivity|]. cbn [filter]. destruct (g x) eqn:G; cbn [filter]; [rewrite IH; reflexivity|].
  destruct (f x) eqn:F; [apply H in F; congruence|exact IH].
Qed.
Lemma head_asked W source D l lp names pr : NoDup (port_names D) -> source_ports W source D l lp ->
  map (fun x => pd_name (snd x)) lp = filter (fun n => existsb (opt_eqb n) (port_names D)) (firsts [] (map Some names)) -> asked D names pr (side pr lp).
Proof.
  intros ND SP E. split.
  - intros p I. apply side_in in I. apply (source_in _ _ _ _ _ SP _ I).
  - rewrite (side_names D lp pr ND (source_in _ _ _ _ _ SP)), E. apply filter_filter. intros n H. apply existsb_name in H. apply existsb_name. apply in_port_names. eauto.
Qed.
Lemma nodup_filter {A} (f : A -> bool) (l : list A) : NoDup l -> NoDup (filter f l).
Proof. apply NoDup_filter. Qed.

(** From an empty node and some ports of the source. *)
Lemma taken fuel W0 source D l lp W nd n W' nd' : src W0 source D -> wle W0 W -> inv W nd (mk_ndef (Some n) [] [] []) -> source_ports W0 source D l lp ->
  NoDup (map (fun x => pd_name (snd x)) lp) -> add_ports_from fuel W nd l = Ok (W', nd') ->
  exists D', inv W' nd' D' /\ wle W W' /\ df_name D' = Some n /\ part_of D (fun pr => side pr lp) D'.
Proof.
  intros SR WL IN SP ND E.
  destruct (add_ports_fresh fuel source D l lp W nd _ W' nd' IN (src_wle _ _ _ _ WL SR) (source_ports_wle _ _ _ _ _ _ (proj1 SR) WL SP) ND) as (D' & IN' & WL' & NM & _ & PO & TY); [|exact E|].
  - intros x _ [].
  - exists D'. split; [exact IN'|]. split; [exact WL'|]. split; [exact NM|]. constructor.
    + intros pr. destruct (PO pr) as (new & -> & F). destruct pr; exact F.
    + intros t T. destruct (TY t T) as [[]|(pr & p & i & t2 & I & X)]. exists pr, p, i, t2. split; [apply side_in; exact I|exact X].
Qed.

Lemma mirror_if_done m W nd D W' nd' : inv W nd D -> untagged W nd -> n_final nd = false -> mirror_if m W nd = Ok (W', nd') ->
  let D' := if m then mirrored None D else D in
  represents W' nd' D' /\ linked D' /\ untagged W' nd' /\ n_final nd' = false /\ wle W W' /\
  (forall k, (k <= w_ntypes W)%nat -> (forall o, In o (n_types nd) -> (k <= o)%nat) -> forall o, In o (n_types nd') -> (k <= o)%nat).
Proof.
  intros (R & L & C & T & US) U NF E. unfold mirror_if in E. destruct m; cbv zeta.
  - destruct (mirror_rep W nd D None R L (or_introl U) C) as (Wx & ndx & Ex & R1 & _ & U1 & _ & F1 & _). rewrite E in Ex. injection Ex as <- <-.
    destruct (mirror_frame W nd D None W' nd' R L (or_introl U) C E) as (WL & AB).
    split; [exact R1|]. split; [apply linked_mirrored; exact L|]. split; [apply U1; exact U|]. split; [exact F1|]. split; [exact WL|]. intros k K _ o O. apply AB in O. lia.
  - injection E as <- <-. repeat (split; [first [assumption|apply wle_refl]|]). auto.
Qed.

(** ** Names *)

Lemma basename_split pre n : directory pre -> ~ In 47 n -> basename (pre ++ n) = n.
Proof.
  intros DI NI. unfold basename. rewrite rev_app_distr, take_while_app; [apply rev_involutive| |].
  - apply Forall_forall. intros c C. apply in_rev in C. destruct (c =? 47) eqn:E; [|reflexivity]. apply Z.eqb_eq in E. subst c. contradiction.
  - destruct DI as [-> |(q & ->)]; [exact I|]. rewrite rev_app_distr. reflexivity.
Qed.
Lemma contains_spec x s : contains x s = true <-> exists a b, s = a ++ x ++ b.
Proof.
  induction s as [|c s IH]; cbn [contains]; rewrite Bool.orb_true_iff, starts_with_spec.
  - split; [intros [(b & E)|X]; [exists [], b; exact E|discriminate]|]. intros (a & b & E). left. exists b. destruct a as [|y a]; [exact E|discriminate].
  - rewrite IH. split.
    + intros [(b & E)|(a & b & ->)]; [exists [], b; exact E|exists (c :: a), b; reflexivity].
    + intros (a & b & E). destruct a as [|y a]; [left; exists b; exact E|right]. cbn [app] in E. injection E as <- ->. eauto.
Qed.
Lemma splitext_apx n : (exists c, In c n /\ c <> 46) -> splitext (n ++ lit ".apx") = n.
Proof.
  intros (c & I & NE). unfold splitext. rewrite rev_app_distr. change (rev (lit ".apx")) with ([120; 112; 97; 46] : str). cbn [app drop_while].
  change (negb (120 =? 46)) with true. change (negb (112 =? 46)) with true. change (negb (97 =? 46)) with true. change (negb (46 =? 46)) with false. cbn iota.
  assert (existsb (fun c => negb (c =? 46)) (rev n) = true) as -> by (apply existsb_exists; exists c; split; [apply in_rev; rewrite rev_involutive; exact I|lia]). apply rev_involutive.
Qed.
Lemma node_for_name file default n : node_name file default n -> node_for file default = new_node (Some n).
Proof.
  unfold node_name, node_for. destruct file as [p|]; [|intros ->; reflexivity]. intros [pre m DI NI C|pre m DI NI C]; do 2 f_equal.
  - cbv zeta. rewrite basename_split; [|exact DI|].
    + assert (contains (lit ".apx") (m ++ lit ".apx") = true) as -> by (apply contains_spec; exists m, []; rewrite app_nil_r; reflexivity). apply splitext_apx. exact C.
    + intros X. apply in_app_or in X as [X|X]; [exact (NI X)|]. cbn in X. lia.
  - cbv zeta. rewrite basename_split by assumption. destruct (contains (lit ".apx") m) eqn:X; [|reflexivity]. apply contains_spec in X as (a & b & E). destruct (C a b E).
Qed.

(** The names in a file. *)
Definition trimmed (l : str) : str := rstrip is_space (lstrip (take_while (fun c => negb (c =? 35)) l)).
Lemma blank_all s : blank s <-> all is_space s.
Proof. unfold blank, all. rewrite Forall_forall. reflexivity. Qed.
Lemma no_hash s : ~ In 35 s -> all (fun c => negb (c =? 35)) s.
Proof. intros N. apply Forall_forall. intros c C. destruct (c =? 35) eqn:E; [|reflexivity]. apply Z.eqb_eq in E. subst c. contradiction. Qed.
Lemma blank_hash s : blank s -> all (fun c => negb (c =? 35)) s.
Proof. intros B. apply no_hash. intros I. apply B in I. discriminate. Qed.
Lemma comment_stops c : comment c -> stops (fun c => negb (c =? 35)) c.
Proof. intros [-> |(r & ->)]; [exact I|reflexivity]. Qed.
Lemma trimmed_name l s : line_names l s -> trimmed l = s.
Proof.
  intros (a & b & c & -> & A & B & C & NH & (x & y & E1 & X) & (u & v & E2 & V)). unfold trimmed.
  assert (all (fun c => negb (c =? 35)) (a ++ s ++ b)) as H by (apply all_app; split; [apply blank_hash; exact A|apply all_app; split; [apply no_hash; exact NH|apply blank_hash; exact B]]).
  replace (a ++ s ++ b ++ c) with ((a ++ s ++ b) ++ c) by (rewrite <- !app_assoc; reflexivity). rewrite take_while_app by (try exact H; apply comment_stops; exact C).
  unfold lstrip. rewrite drop_while_app; [|apply blank_all; exact A|rewrite E1; exact X]. apply rstrip_app; [apply blank_all; exact B|]. rewrite E2, rev_app_distr. exact V.
Qed.
Lemma trimmed_none l b c : l = b ++ c -> blank b -> comment c -> trimmed l = [].
Proof.
  intros -> B C. unfold trimmed. rewrite take_while_app by (try (apply blank_hash; exact B); apply comment_stops; exact C). unfold lstrip. rewrite drop_while_all by (apply blank_all; exact B). reflexivity.
Qed.
Lemma trimmed_newline f : trimmed (f ++ [10]) = trimmed f.
Proof.
  unfold trimmed. set (p := fun c => negb (c =? 35)). set (a := take_while p f).
  pose proof (take_drop p f) as E. pose proof (take_while_is p f) as A. pose proof (drop_while_is p f) as S. fold a in E, A. destruct (drop_while p f) as [|x r] eqn:DW.
  - rewrite app_nil_r in E. assert (take_while p (f ++ [10]) = a ++ [10]) as ->. { rewrite <- E. apply take_while_all. apply all_app. split; [exact A|]. repeat constructor. }
    unfold lstrip. clear - a. generalize a. clear a. intros a. destruct (drop_while is_space a) as [|y t] eqn:D.
    + assert (all is_space a) as AA. { pose proof (take_drop is_space a) as X. rewrite D, app_nil_r in X. rewrite <- X. apply take_while_is. }
      rewrite drop_while_all; [reflexivity|]. apply all_app. split; [exact AA|repeat constructor].
    + assert (drop_while is_space (a ++ [10]) = (y :: t) ++ [10]) as ->.
      { rewrite <- (take_drop is_space a), D, <- app_assoc. apply drop_while_app; [apply take_while_is|]. pose proof (drop_while_is is_space a) as Y. rewrite D in Y. exact Y. }
      apply rstrip_more. repeat constructor.
  - assert (take_while p (f ++ [10]) = a) as ->; [|reflexivity]. rewrite <- E, <- app_assoc. apply take_while_app; [exact A|exact S].
Qed.
Lemma name_lines_ends l m : line_ends l m -> filter (fun l => negb (len l =? 0)) (map trimmed l) = filter (fun l => negb (len l =? 0)) (map trimmed m).
Proof.
  induction 1 as [|f NE|f l m R IH]; [reflexivity|reflexivity|]. cbn [map filter]. rewrite trimmed_newline, IH. reflexivity.
Qed.
Lemma name_file text ls names : file_lines text ls -> lines_name ls names -> name_lines (universal text) = names.
Proof.
  intros FL LN. destruct (file_lines_text _ _ FL) as (U & PL). destruct (file_lines_ne _ _ FL) as (x & r & NE). unfold name_lines. change (fun l : str => rstrip is_space (lstrip (take_while (fun c : Z => negb (c =? 35)) l))) with trimmed.
  rewrite (name_lines_ends _ _ (read_split _)), U. rewrite split_join.
  - clear - LN. induction LN as [|l s ls names N LN IH|l b c ls names E B C LN IH]; [reflexivity| |]; cbn [map filter].
    + rewrite (trimmed_name _ _ N). destruct N as (? & ? & ? & _ & _ & _ & _ & _ & (y & t & -> & _) & _). unfold len at 1. cbn [length]. rewrite IH. destruct (Z.of_nat (S (length t)) =? 0) eqn:Q; [lia|reflexivity].
    + rewrite (trimmed_none _ _ _ E B C). exact IH.
  - eapply Forall_impl; [|exact PL]. intros l (A & _). apply Forall_forall. intros c C. destruct (c =? NEWLINE) eqn:Q; [|reflexivity]. apply Z.eqb_eq in Q. subst c. contradiction.
  - rewrite NE. discriminate.
Qed.
Lemma line_split l : (exists s, line_names l s) \/ exists b c, l = b ++ c /\ blank b /\ comment c.
Proof.
  set (p := fun c => negb (c =? 35)). set (a := take_while p l). set (c := drop_while p l).
  assert (l = a ++ c) as E by (symmetry; apply take_drop). assert (comment c) as C.
  { unfold c. pose proof (drop_while_is p l) as S. destruct (drop_while p l) as [|x r]; [left; reflexivity|right]. exists r. cbn in S. unfold p in S. f_equal. lia. }
  assert (~ In 35 a) as NH. { intros I. pose proof (take_while_is p l) as A. fold a in A. unfold all in A. rewrite Forall_forall in A. specialize (A _ I). discriminate A. }
  pose proof (take_drop is_space a) as E1. pose proof (drop_while_is is_space a) as S1. destruct (rstrip_split is_space (drop_while is_space a)) as (b & E2 & B).
  pose proof (rstrip_is is_space (drop_while is_space a)) as S2. set (s := rstrip is_space (drop_while is_space a)) in *. destruct s as [|x s'] eqn:SE.
  - right. exists a, c. split; [exact E|]. split; [|exact C]. apply blank_all. rewrite <- E1, E2. cbn [app]. apply all_app. split; [apply take_while_is|exact B].
  - left. exists (x :: s'). exists (take_while is_space a), b, c. split; [|split; [apply blank_all, take_while_is|split; [apply blank_all; exact B|split; [exact C|split; [|split]]]]].
    + rewrite E, <- E1 at 1. rewrite E2, <- !app_assoc. reflexivity.
    + intros I. apply NH. rewrite <- E1, E2. apply in_or_app. right. apply in_or_app. left. exact I.
    + exists x, s'. split; [reflexivity|]. rewrite E2 in S1. exact S1.
    + destruct (exists_last (l := x :: s') ltac:(discriminate)) as (u & v & X). exists u, v. split; [exact X|]. rewrite X, rev_app_distr in S2. exact S2.
Qed.
Lemma lines_name_of ls : exists names, lines_name ls names.
Proof.
  induction ls as [|l ls (names & IH)]; [exists []; constructor|]. destruct (line_split l) as [(s & N)|(b & c & E & B & C)].
  - exists (s :: names). constructor; assumption.
  - exists names. eapply ln_none; eauto.
Qed.
Lemma wanted_names a d names : wanted a d names ->
  match s_file a with Some f => (do t <- read_file d f; Ok (name_lines t)) = Ok names | None => s_names a = names end /\ (s_file a = None -> s_names a <> []).
Proof.
  unfold wanted. destruct (s_file a) as [f|].
  - intros (text & ls & T & FL & LN). split; [|discriminate]. unfold read_file. rewrite T. cbn [bind]. rewrite (name_file _ _ _ FL LN). reflexivity.
  - intros (-> & NE). auto.
Qed.

(** ** Splitting *)

Lemma split_file_names D names n done : (forall m, In m done <-> In m (firsts [] (map Some names)) /\ In m (port_names D)) -> In n (port_names D) ->
  existsb (opt_eqb n) done = existsb (opt_eqb n) (map Some names).
Proof.
  intros H I. destruct (existsb (opt_eqb n) (map Some names)) eqn:E.
  - apply existsb_name in E. apply existsb_name. apply H. split; [|exact I]. apply firsts_in. split; [exact E|intros []].
  - apply existsb_none in E. apply existsb_none. intros X. apply H in X as [X _]. apply firsts_in in X as [X _]. contradiction.
Qed.
Lemma side_others D names done pr : (forall n, In n (port_names D) -> existsb (opt_eqb n) done = existsb (opt_eqb n) (map Some names)) ->
  side pr (filter (fun x => negb (existsb (opt_eqb (pd_name (snd x))) done)) (map (pair true) (df_provide D) ++ map (pair false) (df_require D))) = others D names pr.
Proof.
  intros H. unfold side, others.
  assert (forall b l, (forall p, In p l -> In (pd_name p) (port_names D)) ->
    map snd (filter (fun x : bool * pdef => Bool.eqb (fst x) pr) (filter (fun x => negb (existsb (opt_eqb (pd_name (snd x))) done)) (map (pair b) l))) =
    if Bool.eqb b pr then filter (fun p => negb (existsb (opt_eqb (pd_name p)) (map Some names))) l else []) as X.
  { intros b l. induction l as [|p l IH]; intros HI; cbn [map filter snd]; [destruct (Bool.eqb b pr); reflexivity|]. rewrite (H _ (HI p (or_introl eq_refl))). specialize (IH (fun q Q => HI q (or_intror Q))).
    destruct (existsb (opt_eqb (pd_name p)) (map Some names)); cbn [negb filter fst]; [exact IH|]. destruct (Bool.eqb b pr); [cbn [map snd]; rewrite IH; reflexivity|exact IH]. }
  rewrite !filter_app, map_app, !X.
  - destruct pr; cbn [Bool.eqb ports]; [apply app_nil_r|reflexivity].
  - intros p P. apply (in_map pd_name). apply in_or_app. auto.
  - intros p P. apply (in_map pd_name). apply in_or_app. auto.
Qed.
Definition head_def (a : split_args) (Dh : ndef) : ndef := if s_mirror a then mirrored None Dh else Dh.

Lemma split_done fuel a d D names nh nt d' text : read_as d (s_input a) D -> writable_def D -> NoDup (port_names D) -> wanted a d names ->
  node_name (s_head a) (s_head_name a) nh -> plain_name nh -> ~ In 13 nh ->
  (forall p, s_tail a = Some p -> named_by p nt /\ plain_name nt /\ ~ In 13 nt) ->
  apx_split fuel a d = (d', Printed text) ->
  (forall p, s_head a <> Some p -> s_tail a <> Some p -> d' p = d p) /\
  (exists pick Dh Dh', (forall pr, asked D names pr (pick pr)) /\ part_of D pick Dh /\ df_name Dh = Some nh /\ (sorted_def (s_sort a) (head_def a Dh) Dh' /\ linked (head_def a Dh)) /\
    (ordered Dh' -> exists t, text_for true Dh' t /\ text_as t Dh' /\
       match s_head a with Some p => text = [] /\ (s_tail a <> Some p -> d' p = Some t) | None => text = t end)) /\
  (forall p, s_tail a = Some p -> exists Dt, part_of D (others D names) Dt /\ (df_name Dt = Some nt /\ linked Dt /\ exists Dt', sorted_def true Dt Dt') /\
    forall Dt', sorted_def true Dt Dt' -> ordered Dt' -> exists t, text_for true Dt' t /\ text_as t Dt' /\ d' p = Some t).
Proof.
  intros RA WD ND WA NH PH CH NT E. destruct (wanted_names _ _ _ WA) as (WN & NE). unfold apx_split in E.
  set (r := do '(W, source) <- parse_file d empty_world (s_input a); _) in E.
  assert (exists W source head done, r = Ok (W, source, head, done)) as (W4 & source & head4 & done & ER).
  { assert (match r with Err e => (d, Failed e) | Ok _ => (d, Printed []) end = (d, Printed []) -> exists W source head done, r = Ok (W, source, head, done)) as X.
    { destruct r as [[[[W source] head] done]|e]; [eauto 10|discriminate]. }
    apply X. destruct (s_file a), (s_names a); try (destruct (NE eq_refl eq_refl)); destruct r as [[[[? ?] ?] ?]|]; try discriminate; reflexivity. }
  rewrite ER in E. assert (
      (let '(d, out) :=
        match s_head a with
        | Some p => let '(d, r) := save_apx true (Some p) d W4 head4 in (d, do '(W, _) <- r; Ok (W, []))
        | None => (d, do '(W, _, t) <- node_dumps true W4 head4; Ok (W, print t))
        end in
      match out with
      | Err e => (d, Failed e)
      | Ok (W, text) =>
        match s_tail a with
        | None => (d, Printed text)
        | Some p =>
          match (do '(W, tail) <- mirror_if (s_mirror a) W (node_for (s_tail a) (s_tail_name a));
                 tail_ports fuel W tail done (n_provide source ++ n_require source)) with
          | Err e => (d, Failed e)
          | Ok (W, tail) =>
            let '(d, r) := save_apx true (Some p) d W tail in
            finish_with d (do _ <- r; Ok text)
          end
        end
      end) = (d', Printed text)) as E2.
  { destruct (s_file a), (s_names a); try (destruct (NE eq_refl eq_refl)); exact E. }
  clear E. subst r. destruct (read_as_sound _ _ _ empty_world RA) as (W0 & nd0 & EP & (R0 & L0 & N0 & U0) & CR & _). rewrite EP in ER. cbn [bind] in ER.
  assert ((match s_file a with Some f => do t <- read_file d f; Ok (name_lines t) | None => Ok (s_names a) end) = Ok names) as EN by (destruct (s_file a); [exact WN|rewrite WN; reflexivity]).
  rewrite EN in ER. cbn [bind] in ER. rewrite (node_for_name _ _ _ NH) in ER.
  destruct (writable_copyable _ WD) as [CP TT]. assert (src W0 nd0 D) as SR by (split; [exact R0|split; [exact L0|split; [exact CP|split; [exact TT|left; exact U0]]]]).
  destruct (new_inv W0 nh) as (IH & NOH & FRH).
  destruct (head_ports fuel W0 nd0 (new_node (Some nh)) [] names) as [[[W1 head1] done1]|e] eqn:EH; [|discriminate]. cbn [bind] in ER.
  destruct (head_ports_picks fuel W0 nd0 D names SR _ _ _ _ _ _ (wle_refl W0) (ex_intro _ _ IH) EH) as (l & lp & SP & AE & DE & ME). rewrite app_nil_r in DE.
  assert (NoDup (map (fun x => pd_name (snd x)) lp)) as NL by (rewrite ME; apply NoDup_filter, firsts_nodup).
  destruct (taken fuel W0 nd0 D l lp W0 _ nh W1 head1 SR (wle_refl W0) IH SP NL AE) as (Dh & INh & WL1 & DNh & PT).
  pose proof (noids_add_ports_from _ _ _ _ _ _ NOH AE) as NO1. pose proof (fresh_add_ports_from _ _ _ _ _ _ _ FRH AE) as (FA & FB & FC). pose proof (inv_untagged _ _ _ INh NO1) as U1.
  destruct (mirror_if (s_mirror a) W1 head1) as [[W2 head2]|e] eqn:EM; [|discriminate]. cbn [bind] in ER.
  destruct (mirror_if_done _ _ _ _ _ _ INh U1 FC EM) as (R2 & L2 & U2 & F2 & WL2 & AB2). change (if s_mirror a then mirrored None Dh else Dh) with (head_def a Dh) in *.
  destruct (finalize (s_sort a) false W2 head2) as [[W3 head3]|e] eqn:EF; [|discriminate]. cbn [bind] in ER. injection ER as <- <- <- <-.
  destruct (finalize_rep _ _ _ _ _ _ R2 L2 F2 EF) as (Dh' & SDh & _). destruct (finalized_tagged _ _ _ _ _ _ _ R2 L2 F2 U2 SDh EF) as (R3 & T3 & F3).
  assert (wle W0 W3) as WL3. { eapply finalize_frame; [exact R2|exact L2|exact EF|eapply wle_trans; [exact WL1|exact WL2]|]. apply AB2; [exact FA|exact FB]. }
  assert (forall pr p, In p (side pr lp) -> In p (ports pr D)) as PK by (intros pr p I; apply side_in in I; exact (source_in _ _ _ _ _ SP _ I)).
  assert (writable_def (head_def a Dh)) as WDh.
  { pose proof (part_writable _ _ _ _ PT PK DNh PH WD) as X. unfold head_def. destruct (s_mirror a); [apply writable_mirrored; [exact X|discriminate]|exact X]. }
  assert (crless (head_def a Dh)) as CRh.
  { pose proof (part_crless _ _ _ _ PT PK DNh CH CR) as X. unfold head_def. destruct (s_mirror a); [apply crless_mirrored; [exact X|]|exact X]. intros Y. vm_compute in Y. intuition discriminate. }
  (* the head *)
  assert (exists d1 W5, W5 = W3 /\ (forall p, s_head a <> Some p -> d1 p = d p) /\
    (ordered Dh' -> exists t, text_for true Dh' t /\ text_as t Dh' /\ match s_head a with Some p => text = [] /\ d1 p = Some t | None => text = t end) /\
    (match s_tail a with
        | None => (d1, Printed text)
        | Some p =>
          match (do '(W, tail) <- mirror_if (s_mirror a) W5 (node_for (s_tail a) (s_tail_name a));
                 tail_ports fuel W tail done1 (n_provide nd0 ++ n_require nd0)) with
          | Err e => (d1, Failed e)
          | Ok (W, tail) =>
            let '(d, r) := save_apx true (Some p) d1 W tail in
            finish_with d (do _ <- r; Ok text)
          end
        end) = (d', Printed text)) as (d1 & W5 & EW & OT & HD & E3).
  { assert (forall t0 d0 W, match s_tail a with
        | None => (d0, Printed t0)
        | Some p =>
          match (do '(W, tail) <- mirror_if (s_mirror a) W (node_for (s_tail a) (s_tail_name a));
                 tail_ports fuel W tail done1 (n_provide nd0 ++ n_require nd0)) with
          | Err e => (d0, Failed e)
          | Ok (W, tail) =>
            let '(d, r) := save_apx true (Some p) d0 W tail in
            finish_with d (do _ <- r; Ok t0)
          end
        end = (d', Printed text) -> t0 = text) as TX.
    { intros t0 d0 W X. destruct (s_tail a); [|congruence]. match type of X with match ?t with _ => _ end = _ => destruct t as [[W6 tail6]|e]; [|discriminate] end.
      destruct (save_apx true (Some s) d0 W6 tail6) as [d2 r2]. unfold finish_with in X. destruct r2; [|discriminate]. cbn [bind] in X. congruence. }
    destruct (s_head a) as [ph|].
    - destruct (save_apx true (Some ph) d W3 head3) as [d1 r1] eqn:ES. destruct r1 as [[W5 nd5]|e]; cbn [bind] in E2; [|discriminate].
      pose proof (TX _ _ _ E2) as TE. clear TX. subst text. exists d1, W5. split; [eapply save_final_world; eauto|]. split; [|split; [|exact E2]].
      + intros p NP. eapply save_shape; [exact ES|]. congruence.
      + intros OD. destruct (save_final true (Some ph) d W3 head3 Dh' ph R3 (linked_sorted _ _ _ L2 SDh OD) T3 F3 (writable_sorted _ _ _ SDh WDh) (crless_sorted _ _ _ SDh CRh) eq_refl) as (ls & SL & TA & SE & _).
        rewrite SE in ES. injection ES as <- _ _. exists (file_text ls). split; [exists ls; auto|]. split; [exact TA|]. split; [auto|apply put_same].
    - destruct (node_dumps true W3 head3) as [[[W5 nd5] t5]|e] eqn:ES; cbn [bind] in E2; [|discriminate].
      pose proof (TX _ _ _ E2) as TE. clear TX. subst text. exists d, W5. split; [eapply dumps_final_world; eauto|]. split; [reflexivity|]. split; [|exact E2].
      intros OD. destruct (save_final true (Some []) d W3 head3 Dh' [] R3 (linked_sorted _ _ _ L2 SDh OD) T3 F3 (writable_sorted _ _ _ SDh WDh) (crless_sorted _ _ _ SDh CRh) eq_refl) as (ls & SL & TA & _ & t & SE & PE).
      rewrite SE in ES. injection ES as _ _ <-. exists (file_text ls). split; [exists ls; auto|]. split; [exact TA|]. congruence. }
  subst W5. clear E2.
  assert (forall p, s_head a <> Some p -> s_tail a <> Some p -> d' p = d p) as Q1.
  { intros p N1 N2. rewrite <- (OT p N1). destruct (s_tail a) as [pt|]; [|congruence]. match type of E3 with match ?t with _ => _ end = _ => destruct t as [[W6 tail6]|e]; [|discriminate] end.
    destruct (save_apx true (Some pt) d1 W6 tail6) as [d2 r2] eqn:ES. unfold finish_with in E3. destruct r2; [|discriminate]. cbn [bind] in E3. injection E3 as <-. eapply save_shape; [exact ES|]. congruence. }
  split; [exact Q1|]. split.
  - exists (fun pr => side pr lp), Dh, Dh'. split; [intros pr; eapply head_asked; eauto|]. split; [exact PT|]. split; [exact DNh|]. split; [exact (conj SDh L2)|]. intros OD.
    destruct (HD OD) as (t & TF & TA & HX). exists t. split; [exact TF|]. split; [exact TA|]. destruct (s_head a) as [ph|]; [|exact HX]. destruct HX as [TE HX]. split; [exact TE|]. intros NTP.
    rewrite <- HX. destruct (s_tail a) as [pt|]; [|congruence]. match type of E3 with match ?t with _ => _ end = _ => destruct t as [[W6 tail6]|e]; [|discriminate] end.
    destruct (save_apx true (Some pt) d1 W6 tail6) as [d2 r2] eqn:ES. unfold finish_with in E3. destruct r2; [|discriminate]. cbn [bind] in E3. injection E3 as <-. eapply save_shape; [exact ES|]. congruence.
  - intros pt TP. destruct (NT pt TP) as (NB & PN & CN). rewrite TP in E3.
    assert (node_for (Some pt) (s_tail_name a) = new_node (Some nt)) as NF by (apply node_for_name; exact NB). rewrite NF in E3.
    destruct (new_inv W3 nt) as (IT & NOT & FRT).
    destruct (mirror_if (s_mirror a) W3 (new_node (Some nt))) as [[W6 tail6]|e] eqn:EM6; [|discriminate]. cbn [bind] in E3.
    assert (untagged W3 (new_node (Some nt))) as UT by (intros o []).
    destruct (mirror_if_done _ _ _ _ _ _ IT UT eq_refl EM6) as (R6 & L6 & U6 & F6 & WL6 & _).
    assert ((if s_mirror a then mirrored None (mk_ndef (Some nt) [] [] []) else mk_ndef (Some nt) [] [] []) = mk_ndef (Some nt) [] [] []) as ME6 by (destruct (s_mirror a); reflexivity). rewrite ME6 in *.
    assert (inv W6 tail6 (mk_ndef (Some nt) [] [] [])) as I6.
    { split; [exact R6|]. split; [exact L6|]. split; [split; intros ? []|]. split; [intros ? []|]. intros o O. apply U6. exact O. }
    destruct (tail_ports fuel W6 tail6 done1 (n_provide nd0 ++ n_require nd0)) as [[W7 tail7]|e] eqn:ET; [|discriminate].
    assert (source_ports W0 nd0 D (n_provide nd0 ++ n_require nd0) (map (pair true) (df_provide D) ++ map (pair false) (df_require D))) as SPA.
    { apply Forall2_app; apply paired; auto; try (apply R0); intros; apply in_or_app; auto. }
    pose proof (wle_trans _ _ _ WL3 WL6) as WL06.
    destruct (tail_ports_picks fuel W0 nd0 D _ SR _ _ _ _ _ _ WL06 (ex_intro _ _ I6) SPA ET) as (l' & SP' & AE').
    set (lp' := filter (fun x => negb (existsb (opt_eqb (pd_name (snd x))) done1)) (map (pair true) (df_provide D) ++ map (pair false) (df_require D))) in *.
    assert (NoDup (map (fun x => pd_name (snd x)) lp')) as NL'.
    { assert (forall (f : bool * pdef -> bool) l0, NoDup (map (fun x => pd_name (snd x)) l0) -> NoDup (map (fun x => pd_name (snd x)) (filter f l0))) as NF0.
      { intros f l0. induction l0 as [|x l0 IHl]; intros Y; [constructor|]. cbn [map filter] in *. inversion Y as [|? ? NI Y']; subst. destruct (f x); [|auto]. cbn [map]. constructor; [|auto].
        intros I. apply NI. apply in_map_iff in I as (z & Z & I). apply in_map_iff. exists z. split; [exact Z|]. apply filter_In in I. apply I. }
      apply NF0. rewrite map_app, !map_map. cbn [snd]. rewrite <- map_app. exact ND. }
    destruct (taken fuel W0 nd0 D l' lp' W6 tail6 nt W7 tail7 SR WL06 I6 SP' NL' AE') as (Dt & INt & WL7 & DNt & PTt).
    assert (forall n, In n (port_names D) -> existsb (opt_eqb n) done1 = existsb (opt_eqb n) (map Some names)) as DN.
    { intros n. apply split_file_names. intros m. rewrite DE, <- in_rev, ME, filter_In, existsb_name. reflexivity. }
    assert (part_of D (others D names) Dt) as PO. { destruct PTt as [A B]. constructor; [intros pr; rewrite <- (side_others D names done1 pr DN); apply A|].
      intros t T. destruct (B t T) as (pr & p & i & t2 & IP & X). exists pr, p, i, t2. split; [rewrite <- (side_others D names done1 pr DN); exact IP|exact X]. }
    assert (forall pr p, In p (others D names pr) -> In p (ports pr D)) as PKt by (intros pr p I; apply filter_In in I; apply I).
    pose proof INt as (Rt & Lt & _).
    assert (noids W6 tail6) as NO6 by (intros o O; split; [apply U6; exact O|apply (rp_tbelow _ _ _ R6); exact O]).
    assert (fresh 0 W6 tail6) as FR6 by (split; [lia|split; [intros; lia|exact F6]]).
    pose proof (noids_add_ports_from _ _ _ _ _ _ NO6 AE') as NO7. destruct (fresh_add_ports_from _ _ _ _ _ _ _ FR6 AE') as (_ & _ & F7).
    assert (exists Dt', sorted_def true Dt Dt') as SX.
    { destruct (finalize_ok true false W7 tail7 Dt Rt Lt F7 (writable_names _ (part_writable _ _ _ _ PO PKt DNt PN WD))) as (W8 & nd8 & EF8).
      destruct (finalize_rep _ _ _ _ _ _ Rt Lt F7 EF8) as (Dt' & SDt & _). exists Dt'. exact SDt. }
    exists Dt. split; [exact PO|]. split; [exact (conj DNt (conj Lt SX))|]. intros Dt' SDt ODt.
    destruct (save_rep true (Some pt) d1 W7 tail7 Dt Dt' pt Rt Lt F7 (inv_untagged _ _ _ INt NO7) (part_writable _ _ _ _ PO PKt DNt PN WD) (part_crless _ _ _ _ PO PKt DNt CN CR) SDt ODt eq_refl) as (W8 & nd8 & ls & _ & _ & SL & TA & SE & _).
    rewrite SE in E3. unfold finish_with in E3. cbn [bind] in E3. injection E3 as <-. exists (file_text ls). split; [exists ls; auto|]. split; [exact TA|apply put_same].
Qed.
