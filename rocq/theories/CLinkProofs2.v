(** Proofs about reading the source of the Com layer (CLinkSpec.v). *)
From Coq Require Import ZifyBool ZifyNat Lia Permutation.
From Verif Require Import Py PyLemmas TypesModel TextModel TextProofs AttrModel NodeModel VmModel TypesSpec CompilerModel
  NodeDataModel NodeDataSpec GenModel GenSpec GenProofs GenFilesModel ComModel ComSpec ComProofs CTextSpec CTextProofs CFileSpec CFitSpec
  CFileProofs CFileProofs2 CFileProofs3 CLinkSpec CLinkProofs.
From Verif Require FinalizeProofs.
Ltac Zify.zify_post_hook ::= Z.div_mod_to_equations.

(** ** Statements *)

Ltac nchain :=
  lazymatch goal with
  | |- reads (_ ++ _) _ _ => eapply reads_app; [nleaf|nchain|nside]
  | |- _ => nleaf
  end
with nleaf :=
  lazymatch goal with
  | |- reads (bracket _) _ _ => apply reads_bracket; (assumption || lia)
  | |- reads (lit _) _ _ => apply reads_lit; vm_compute; reflexivity
  | |- _ => first [eassumption | apply reads_name; assumption]
  end
with nside :=
  lazymatch goal with
  | |- parted _ (bracket _) => apply closed_parted; [first [assumption|apply closed_number|apply closed_word|apply closed_brk|apply closed_par|apply closed_between]|reflexivity]
  | |- parted _ (lit _ ++ _) => first [(apply closed_parted; [first [assumption|apply closed_number|apply closed_word|apply closed_brk|apply closed_par|apply closed_between]|reflexivity]) | reflexivity]
  | |- parted _ (lit _) => first [(apply closed_parted; [first [assumption|apply closed_number|apply closed_word|apply closed_brk|apply closed_par|apply closed_between]|reflexivity]) | reflexivity]
  | |- parted _ (?s ++ _) => apply parted_ident; [first [reflexivity|apply two_name]|assumption]
  | |- parted _ ?s => rewrite <- (app_nil_r s); apply parted_ident; [first [reflexivity|apply two_name]|assumption]
  end.

Definition cond_ok (c : comcond) : Prop := match c with CDiffer a b | CDifferMem a b => c_ident a /\ c_ident b end.
Definition simple (s : comstmt) : Prop :=
  match s with CAssign a b | CCopy a b => c_ident a /\ c_ident b | CCall f _ x => c_ident f /\ c_ident x | CReturn => True | CIf _ _ => False end.
Definition com_ok (s : comstmt) : Prop := match s with CIf c body => cond_ok c /\ Forall simple body | _ => simple s end.

Definition condt (c : comcond) : list tok :=
  match c with
  | CDiffer a b => [TId a; TOp ONeq; TId b]
  | CDifferMem a b => [TId (lit "memcmp"); TOp OLpar; TId a; TOp OComma; TOp OAmp; TId b; TOp OComma; TKw KSizeof; TOp OLpar; TId b; TOp ORpar; TOp ORpar; TOp ONeq; TNum 0]
  end.
Definition condx (c : comcond) : cx :=
  match c with
  | CDiffer a b => XBin ONeq (XId a) (XId b)
  | CDifferMem a b => XBin ONeq (XCall (XId (lit "memcmp")) [XId a; XAddr (XId b); XSize (XId b)]) (XNum 0)
  end.
Definition simplet (s : comstmt) : list tok :=
  match s with
  | CAssign a b => [TId a; TOp OEq; TId b; TOp OSemi]
  | CCopy a b => [TId (lit "memcpy"); TOp OLpar; TOp OAmp; TId a; TOp OComma; TId b; TOp OComma; TKw KSizeof; TOp OLpar; TId a; TOp ORpar; TOp ORpar; TOp OSemi]
  | CCall f ref x => [TId f; TOp OLpar] ++ (if ref then [TOp OAmp] else []) ++ [TId x; TOp ORpar; TOp OSemi]
  | CReturn => [TKw KReturn; TId (lit "E_OK"); TOp OSemi]
  | CIf _ _ => []
  end.
Definition simplex (s : comstmt) : cs :=
  match s with
  | CAssign a b => GExpr (XAssign (XId a) (XId b))
  | CCopy a b => GExpr (XCall (XId (lit "memcpy")) [XAddr (XId a); XId b; XSize (XId a)])
  | CCall f ref x => GExpr (XCall (XId f) [if ref then XAddr (XId x) else XId x])
  | CReturn => GReturn (XId (lit "E_OK"))
  | CIf _ _ => GBreak
  end.
Definition comt (s : comstmt) : list tok :=
  match s with CIf c body => [TKw KIf; TOp OLpar] ++ condt c ++ [TOp ORpar; TOp OLbrc] ++ flat_map simplet body ++ [TOp ORbrc] | _ => simplet s end.
Definition comx (s : comstmt) : cs := match s with CIf c body => GIf (condx c) (GBlock (map simplex body)) | _ => simplex s end.

Lemma words_simple n s : simple s -> (0 < n)%nat -> words (com_lines n s) = Some (simplet s).
Proof.
  intros S N. destruct s as [c b|a b|a b|f ref x|]; cbn [simple] in S; [destruct S|destruct S as [A B]..|]; cbn [com_lines simplet].
  - eapply words_eq; [eapply lx_stmt; [nchain|first [reflexivity|apply closed_word]; reflexivity|lia]|reflexivity].
  - eapply words_eq; [eapply lx_stmt; [nchain|first [reflexivity|apply closed_word]; reflexivity|lia]|reflexivity].
  - destruct ref; cbn [amp]; (eapply words_eq; [eapply lx_stmt; [rewrite <- ?app_assoc; nchain|first [reflexivity|apply closed_word]; reflexivity|lia]|reflexivity]).
  - eapply words_eq; [eapply lx_stmt; [nchain|first [reflexivity|apply closed_word]; reflexivity|lia]|reflexivity].
Qed.
Lemma words_com n s : com_ok s -> (0 < n)%nat -> words (com_lines n s) = Some (comt s).
Proof.
  destruct s as [c b|a b|a b|f ref x|]; intros S N; try (apply words_simple; assumption). cbn [com_ok com_lines comt] in *. destruct S as [C B].
  assert (words [line n (cond_text c)] = Some (([TKw KIf; TOp OLpar] ++ condt c) ++ [TOp ORpar])) as WC.
  { destruct c as [x y|x y]; destruct C as [X Y]; cbn [cond_text condt]; (eapply words_eq; [eapply lx_line; [nchain|lia]|reflexivity]). }
  assert (words (flat_map (com_lines (n + 3)) b) = Some (flat_map simplet b)) as WB.
  { apply words_map. intros x I. rewrite Forall_forall in B. apply words_simple; [apply B, I|lia]. }
  assert (forall (s : string) t, lex Between (lit s) = Some t -> words [line n (lit s)] = Some t) as WL.
  { intros s t E. apply words_one. split; [apply line_plain, N|]. unfold line. rewrite lex_spaces. exact E. }
  pose proof (words_app _ _ _ _ WC (words_app _ _ _ _ (WL "{"%string [TOp OLbrc] eq_refl) (words_app _ _ _ _ WB (WL "}"%string [TOp ORbrc] eq_refl)))) as W.
  refine (eq_trans W _). f_equal. rewrite <- !app_assoc. reflexivity.
Qed.

Lemma E_cond c r : EE (condt c ++ TOp ORpar :: r) (condx c) (TOp ORpar :: r).
Proof.
  destruct c as [a b|a b]; cbn [condt condx app].
  - eapply (E_bin ONeq 2); [reflexivity|lia|apply U_id, P_bin; reflexivity|apply U_id, P_stop; reflexivity|reflexivity].
  - eapply (E_bin ONeq 2); [reflexivity|lia| |apply U_num, P_stop; reflexivity|reflexivity].
    apply U_id. eapply P_call; [exact Logic.I| |apply P_bin; reflexivity].
    eapply A_more; [apply E_unary; [apply U_id, P_stop; reflexivity|reflexivity]|]. eapply A_more; [apply E_unary; [apply U_amp, U_id, P_stop; reflexivity|reflexivity]|].
    apply A_one. apply E_unary; [|reflexivity]. apply U_sizeid. apply E_unary; [apply U_id, P_stop; reflexivity|reflexivity].
Qed.
Lemma S_simple s r : simple s -> ES (simplet s ++ r) (simplex s) r.
Proof.
  intros S. destruct s as [c b|a b|a b|f ref x|]; cbn [simple simplet simplex] in *; [destruct S| | | |].
  - apply S_expr; [reflexivity|]. eapply E_assign; [apply U_id, P_stop; reflexivity|]. apply E_unary; [apply U_id, P_stop; reflexivity|reflexivity].
  - apply S_expr; [reflexivity|]. apply E_unary; [|reflexivity]. apply U_id. eapply P_call; [exact Logic.I| |apply P_stop; reflexivity].
    eapply A_more; [apply E_unary; [apply U_amp, U_id, P_stop; reflexivity|reflexivity]|]. eapply A_more; [apply E_unary; [apply U_id, P_stop; reflexivity|reflexivity]|].
    apply A_one. apply E_unary; [|reflexivity]. apply U_sizeid. apply E_unary; [apply U_id, P_stop; reflexivity|reflexivity].
  - destruct ref; cbn [app]; (apply S_expr; [reflexivity|]; apply E_unary; [|reflexivity]; apply U_id; (eapply P_call; [exact Logic.I| |apply P_stop; reflexivity]); apply A_one; apply E_unary; [|reflexivity]).
    + apply U_amp, U_id, P_stop. reflexivity.
    + apply U_id, P_stop. reflexivity.
  - apply S_return. apply E_unary; [apply U_id, P_stop; reflexivity|reflexivity].
Qed.
Lemma start_simple s r : simple s -> match simplet s ++ r with TOp ORbrc :: _ | TKw KOther :: _ => False | _ => True end.
Proof. destruct s; cbn [simple simplet]; intros S; try destruct S; exact Logic.I. Qed.
Lemma B_simple l r : Forall simple l -> EB (flat_map simplet l ++ TOp ORbrc :: r) (map simplex l) r.
Proof.
  intros F. rewrite <- (app_nil_r (map simplex l)). rewrite Forall_forall in F. apply B_list; [intros x I q; apply S_simple, (F x I)| |apply B_nil].
  intros x I q. pose proof (start_simple x q (F x I)) as S. destruct (simplet x ++ q) as [|[| | | |[]| |]]; exact Logic.I || exact S.
Qed.
Lemma start_com s r : com_ok s -> match comt s ++ r with TOp ORbrc :: _ | TKw KOther :: _ => False | _ => True end.
Proof. destruct s; intros S; try (apply start_simple, S). exact Logic.I. Qed.
Lemma S_com s r : com_ok s -> match r with TKw KOther :: _ => False | _ => True end -> ES (comt s ++ r) (comx s) r.
Proof.
  destruct s as [c b|a b|a b|f ref x|]; intros S N; try (apply S_simple, S). cbn [com_ok comt comx] in *. destruct S as [_ B]. rewrite <- !app_assoc. cbn [app].
  eapply S_if; [apply E_cond| |exact N]. apply S_block, B_simple, B.
Qed.
Lemma B_coms l r : Forall com_ok l -> EB (flat_map comt l ++ TOp ORbrc :: r) (map comx l) r.
Proof.
  induction 1 as [|s l C F IH]; [apply B_nil|]. cbn [flat_map map]. rewrite <- app_assoc. eapply B_cons; [| |exact IH].
  - pose proof (start_com s (flat_map comt l ++ TOp ORbrc :: r) C) as X. destruct (comt s ++ _) as [|[| | | |[]| |]]; exact Logic.I || exact X.
  - apply S_com; [exact C|]. destruct F as [|s' l' C' F']; [exact Logic.I|]. cbn [flat_map]. rewrite <- app_assoc.
    pose proof (start_com s' (flat_map comt l' ++ TOp ORbrc :: r) C') as X. destruct (comt s' ++ _) as [|[| | | | |[]|]]; exact Logic.I || exact X.
Qed.

Lemma as_simple s : simple s -> as_com (simplex s) = Some s.
Proof.
  destruct s as [c b|a b|a b|f ref x|]; cbn [simple simplex as_com]; intros S; [destruct S| | | |].
  - reflexivity.
  - rewrite is_refl, str_eqb_refl. reflexivity.
  - destruct ref; reflexivity.
  - rewrite is_refl. reflexivity.
Qed.
Lemma as_comx s : com_ok s -> as_com (comx s) = Some s.
Proof.
  destruct s as [c b|a b|a b|f ref x|]; intros S; try (apply as_simple, S). destruct S as [_ B]. cbn [comx as_com].
  assert (as_cond (condx c) = Some c) as -> by (destruct c; cbn [condx as_cond]; rewrite ?is_refl, ?str_eqb_refl; reflexivity). cbn [obind].
  match goal with |- (let? l := ?f (map simplex b) in _) = _ => assert (f (map simplex b) = Some b) as -> end; [|reflexivity].
  induction B as [|x l X F IH]; [reflexivity|]. cbn [map]. rewrite (as_simple x X). cbn [obind]. rewrite IH. reflexivity.
Qed.
Lemma as_comxs l : Forall com_ok l -> as_coms (map comx l) = Some l.
Proof. induction 1 as [|s l C F IH]; [reflexivity|]. cbn [map as_coms]. rewrite (as_comx s C). cbn [obind]. rewrite IH. reflexivity. Qed.

(** ** Functions and variables *)

Definition comfun_ok (f : cproto * list comstmt) : Prop := proto_fits (fst f) /\ Forall com_ok (snd f).
Definition comft (f : cproto * list comstmt) : list tok := htoks (fst f) ++ [TOp OLbrc] ++ flat_map comt (snd f) ++ [TOp ORbrc].
Definition comfx (f : cproto * list comstmt) : unit_ := UFun (as_read (fst f)) (map comx (snd f)).
Lemma words_comfun f : comfun_ok f -> words (com_fun_lines f) = Some (comft f).
Proof.
  intros [P B]. unfold com_fun_lines, comft. cbn [app].
  assert (words (flat_map (com_lines 3) (snd f)) = Some (flat_map comt (snd f))) as WB.
  { apply words_map. intros x I. rewrite Forall_forall in B. apply words_com; [apply B, I|lia]. }
  assert (words [proto_text (fst f)] = Some (htoks (fst f))) as WP.
  { apply words_one. split; [rewrite <- (app_nil_r (proto_text _)); apply proto_directive, P|]. eapply reads_lex. apply reads_proto, P. }
  apply (w_nil [[]] eq_refl). apply (words_app [_]); [exact WP|]. apply (words_app [lit "{"] _ [TOp OLbrc]); [reflexivity|]. apply words_app; [exact WB|reflexivity].
Qed.
Lemma F_comfuns l us rest : Forall comfun_ok l -> EF rest us -> EF (flat_map comft l ++ rest) (map comfx l ++ us).
Proof.
  intros F E. induction F as [|f l [P B] F IH]; [exact E|]. cbn [flat_map map app]. unfold comft. rewrite <- !app_assoc. cbn [app].
  eapply F_fun; [unfold htoks; discriminate|apply H_proto, P| |exact IH]. apply B_coms, B.
Qed.
Lemma com_funs_read l : Forall comfun_ok l -> com_functions (map comfx l) = Some (map (fun f => (as_read (fst f), snd f)) l).
Proof. induction 1 as [|f l [P B] F IH]; [reflexivity|]. cbn [map com_functions comfx]. rewrite (as_comxs _ B). cbn [obind]. rewrite IH. reflexivity. Qed.

Definition init_toks (t : str) : list tok := match lex Between (t ++ lit ";") with Some u => removelast u | None => [] end.
Definition var_ok (v : comvar) : Prop :=
  c_ident (cv_type v) /\ c_ident (cv_name v) /\ exists init, lex Between (cv_init v ++ lit ";") = Some (init ++ [TOp OSemi]) /\ ~ In (TOp OSemi) init.
Definition varu (v : comvar) : unit_ := UOther ([TKw KStatic; TId (cv_type v); TId (cv_name v); TOp OEq] ++ init_toks (cv_init v)).
Lemma init_is v init : lex Between (cv_init v ++ lit ";") = Some (init ++ [TOp OSemi]) -> init_toks (cv_init v) = init.
Proof. intros E. unfold init_toks. rewrite E. apply removelast_last. Qed.
Lemma lx_var v : var_ok v -> lx (var_line v) (utoks (varu v)).
Proof.
  intros (T & N & init & L & _). split; [reflexivity|]. unfold var_line, utoks, varu. rewrite (init_is v init L).
  assert (reads (lit "static " ++ cv_type v ++ lit " " ++ cv_name v ++ lit " = ") ([TKw KStatic] ++ [TId (cv_type v)] ++ [] ++ [TId (cv_name v)] ++ [TOp OEq]) Between) as (t0 & t1 & R & Fi & E) by nchain.
  injection Fi as <-. rewrite app_nil_r in E. rewrite <- E in R.
  replace (lit "static " ++ cv_type v ++ lit " " ++ cv_name v ++ lit " = " ++ cv_init v ++ lit ";")
    with ((lit "static " ++ cv_type v ++ lit " " ++ cv_name v ++ lit " = ") ++ cv_init v ++ lit ";") by (rewrite <- !app_assoc; reflexivity).
  rewrite (lex_after _ _ _ _ (cv_init v ++ lit ";") R), L. reflexivity.
Qed.
Lemma varu_other v : var_ok v -> other (varu v).
Proof.
  intros (T & N & init & L & S). unfold varu. rewrite (init_is v init L). split; [|split; [reflexivity|discriminate]].
  cbn [app In]. intros I. repeat (destruct I as [I|I]; [discriminate|]). exact (S I).
Qed.
Lemma words_vars l : Forall var_ok l -> words (map var_line l) = Some (flat_map utoks (map varu l)).
Proof. induction 1 as [|v l V F IH]; [reflexivity|]. cbn [map flat_map]. apply words_line; [apply lx_var, V|exact IH]. Qed.
Lemma com_skip vs us : com_functions (map varu vs ++ us) = com_functions us.
Proof. induction vs as [|v vs IH]; [reflexivity|exact IH]. Qed.

(** The source of the Com layer. *)
Lemma com_source_reads g : Forall var_ok (sorted_vars (cg_vars g)) -> Forall comfun_ok (cg_funs g) ->
  is_c (generate_source g) (map varu (sorted_vars (cg_vars g)) ++ map comfx (cg_funs g)).
Proof.
  intros V F. destruct (F_comfuns _ [] [] F F_nil) as (n & H).
  assert (EF (flat_map utoks (map varu (sorted_vars (cg_vars g))) ++ flat_map comft (cg_funs g)) (map varu (sorted_vars (cg_vars g)) ++ map comfx (cg_funs g))) as (n' & H').
  { apply F_units; [apply Forall_map; eapply Forall_impl; [|exact V]; intros v; apply varu_other|]. rewrite !app_nil_r in H. exists n. exact H. }
  exists (flat_map utoks (map varu (sorted_vars (cg_vars g))) ++ flat_map comft (cg_funs g)), n'. split; [|exact H'].
  unfold generate_source. apply (w_nil (heading "INCLUDES") eq_refl).
  cbn [app]. do 3 (apply w_skip; [reflexivity|]). apply (w_nil [[]] eq_refl).
  apply (w_nil (heading "CONSTANTS AND DATA TYPES") eq_refl). apply (w_nil [[]] eq_refl). apply (w_nil (heading "LOCAL FUNCTION PROTOTYPES") eq_refl).
  apply (w_nil [[]] eq_refl). apply (w_nil (heading "LOCAL VARIABLES") eq_refl). apply words_app; [apply words_vars, V|].
  apply (w_nil [[]] eq_refl). apply (w_nil (heading "GLOBAL FUNCTIONS") eq_refl). apply words_map. intros f I. rewrite Forall_forall in F. apply words_comfun, F, I.
Qed.
(** Its header. *)
Lemma com_header_reads guard file g : c_ident (guard ++ lit "_H") -> Forall comfun_ok (cg_funs g) ->
  exists kept, is_c kept (map (fun f => UProto (as_read (fst f))) (cg_funs g)) /\
    forall defs, included defs 0 0 (snd (generate_header guard file g)) = if defined_in defs (guard ++ lit "_H") then Some (defs, []) else Some ((guard ++ lit "_H") :: defs, kept).
Proof.
  intros I F. assert (Forall proto_fits (map fst (cg_funs g))) as FP by (apply Forall_map; eapply Forall_impl; [|exact F]; intros f X; apply X).
  assert (sieved (heading "INCLUDES" ++ [include (lit "Rte_Type.h"); []] ++ heading "CONSTANTS AND DATA TYPES" ++ [[]]
      ++ heading "GLOBAL FUNCTIONS" ++ map (fun f => proto_line (fst f)) (cg_funs g))
    (heading "INCLUDES" ++ [[]] ++ heading "CONSTANTS AND DATA TYPES" ++ [[]] ++ heading "GLOBAL FUNCTIONS" ++ map proto_line (map fst (cg_funs g)))) as S.
  { rewrite <- (map_map fst proto_line). apply sieved_app; [apply sieved_plain, heading_plain|]. apply (sieved_app _ [[]]); [apply sv_skip; [reflexivity|apply sv_plain; [reflexivity|apply sv_nil]]|].
    apply sieved_plain. repeat (apply Forall_app; split); try apply heading_plain; try apply protos_plain; try assumption. constructor; [reflexivity|constructor]. }
  eexists. split; [|intros defs; cbn [generate_header snd]; apply included_guarded; [exact I|exact S]].
  destruct (F_protos _ [] [] FP F_nil) as (n & H). rewrite !app_nil_r, map_map in H. exists (flat_map (fun f => htoks f ++ [TOp OSemi]) (map fst (cg_funs g))), n. split; [|exact H].
  transitivity (words ([[]] ++ heading "INCLUDES" ++ [[]] ++ heading "CONSTANTS AND DATA TYPES" ++ [[]] ++ heading "GLOBAL FUNCTIONS" ++ map proto_line (map fst (cg_funs g)) ++ [[]]));
    [f_equal; repeat (cbn [app]; rewrite <- !app_assoc); reflexivity|].
  apply (w_nil [[]] eq_refl). apply (w_nil (heading "INCLUDES") eq_refl). apply (w_nil [[]] eq_refl). apply (w_nil (heading "CONSTANTS AND DATA TYPES") eq_refl). apply (w_nil [[]] eq_refl). apply (w_nil (heading "GLOBAL FUNCTIONS") eq_refl).
  rewrite <- (app_nil_r (flat_map _ _)). apply words_app; [apply words_protos, FP|reflexivity].
Qed.
