(** Proofs about reading headers and the Com layer (CLinkSpec.v). *)
From Coq Require Import ZifyBool ZifyNat Lia.
From Verif Require Import Py PyLemmas TypesModel TextModel TextProofs AttrModel NodeModel VmModel TypesSpec CompilerModel
  NodeDataModel NodeDataSpec GenModel GenSpec GenProofs GenFilesModel ComModel ComSpec CTextSpec CTextProofs CFileSpec CFitSpec CFileProofs CFileProofs2 CFileProofs3 CLinkSpec.
Ltac Zify.zify_post_hook ::= Z.div_mod_to_equations.

(** ** Prototypes *)

Lemma type_word_reads s : type_word s -> wordlike s /\ type_name (word s) = Some s.
Proof.
  intros [I|[->|(b & ->)]].
  - split; [split; [apply I|apply I]|]. rewrite word_name by apply I. reflexivity.
  - split; [split|]; reflexivity.
  - destruct b; (split; [split|]; reflexivity).
Qed.
Lemma wordlike_first s : wordlike s -> exists c r, s = c :: r /\ name_char c = true.
Proof. intros [L F]. destruct s as [|c r]; [destruct L|]. cbn [forallb] in F. apply andb_prop in F as [C _]. eauto. Qed.
Lemma parted_word st s r : (forall c, name_char c = true -> goes_on st c = None) -> wordlike s -> parted st (s ++ r).
Proof. intros H W. destruct (wordlike_first s W) as (c & q & -> & N). exact (H c N). Qed.
Lemma word_directive s r : wordlike s -> directive (s ++ r) = false.
Proof. intros W. destruct (wordlike_first s W) as (c & q & -> & N). cbn [app directive]. unfold name_char, letter, digit in N. lia. Qed.
Lemma ident_wordlike s : c_ident s -> wordlike s.
Proof. intros I. split; apply I. Qed.

Definition ptok (p : option str * bool * str) : list tok := [word (opt_text (fst (fst p)))] ++ star (snd (fst p)) ++ [TId (snd p)].
Fixpoint commas (ps : list (option str * bool * str)) : list tok :=
  match ps with [] => [] | [p] => ptok p | p :: r => ptok p ++ TOp OComma :: commas r end.
Definition htoks (f : cproto) : list tok :=
  [word (cp_ret f)] ++ star (cp_star f) ++ [TId (cp_name f); TOp OLpar] ++ (match cp_params f with [] => [TKw KVoid] | ps => commas ps end) ++ [TOp ORpar].

Lemma reads_param p : type_word (opt_text (fst (fst p))) -> c_ident (snd p) -> exists st, reads (param_text p) (ptok p) st /\ closed st.
Proof.
  destruct p as [[t b] n]. cbn [fst snd]. intros T N. apply type_word_reads in T as [T _]. exists (InWord n). split; [|apply closed_word]. unfold param_text, ptok. cbn [fst snd].
  eapply reads_app; [apply reads_word, T| |apply closed_parted; [apply closed_word|reflexivity]].
  destruct b; cbn [star app].
  - change ([TOp OStar; TId n]) with ([] ++ [TOp OStar] ++ [TId n]). eapply (reads_app (lit " ")); [apply reads_lit; reflexivity| |reflexivity].
    eapply reads_app; [apply reads_lit; reflexivity|apply reads_name, N|]. rewrite <- (app_nil_r n). apply parted_ident; [apply two_name|exact N].
  - change ([TId n]) with ([] ++ [TId n]). eapply (reads_app (lit " ")); [apply reads_lit; reflexivity|apply reads_name, N|]. rewrite <- (app_nil_r n). apply parted_ident; [reflexivity|exact N].
Qed.
Lemma parted_param st p r : (forall c, name_char c = true -> goes_on st c = None) -> type_word (opt_text (fst (fst p))) -> parted st (param_text p ++ r).
Proof. destruct p as [[t b] n]. intros H T. apply type_word_reads in T as [T _]. unfold param_text. rewrite <- app_assoc. apply parted_word; assumption. Qed.
Definition param_fits (p : option str * bool * str) : Prop := type_word (opt_text (fst (fst p))) /\ c_ident (snd p).
Lemma reads_params ps : ps <> [] -> Forall param_fits ps -> exists st, reads (join (lit ", ") (map param_text ps)) (commas ps) st /\ closed st.
Proof.
  induction ps as [|p ps IH]; [congruence|]. intros _ F. inversion F as [|? ? [T N] F']; subst. destruct ps as [|q ps].
  - cbn [map join commas]. apply reads_param; assumption.
  - destruct (IH ltac:(discriminate) F') as (st & R & C). exists st. split; [|exact C]. destruct (reads_param p T N) as (s1 & R1 & C1).
    change (join (lit ", ") (map param_text (p :: q :: ps))) with (param_text p ++ lit ", " ++ join (lit ", ") (map param_text (q :: ps))).
    change (commas (p :: q :: ps)) with (ptok p ++ [TOp OComma] ++ commas (q :: ps)).
    eapply reads_app; [exact R1| |apply closed_parted; [exact C1|reflexivity]].
    eapply reads_app; [apply reads_lit; vm_compute; reflexivity|exact R|].
    inversion F' as [|? ? [T2 _] _]; subst. cbn [map join]. destruct (map param_text ps); [rewrite <- (app_nil_r (param_text q))|]; apply parted_param; (reflexivity || exact T2).
Qed.
Lemma reads_proto f : proto_fits f -> reads (proto_text f) (htoks f) (InPunct 41).
Proof.
  intros (R & N & P). apply type_word_reads in R as [R _]. unfold proto_text, htoks.
  assert (exists st, reads (match cp_params f with [] => lit "void" | ps => join (lit ", ") (map param_text ps) end) (match cp_params f with [] => [TKw KVoid] | ps => commas ps end) st /\ closed st
    /\ forall r, parted (InPunct 40) (match cp_params f with [] => lit "void" | ps => join (lit ", ") (map param_text ps) end ++ r)) as (st & RP & C & PT).
  { destruct (cp_params f) as [|p ps]; [exists (InWord (lit "void")); split; [apply reads_lit; reflexivity|split; [apply closed_word|intros; reflexivity]]|].
    destruct (reads_params (p :: ps) ltac:(discriminate) P) as (st & X & C). exists st. split; [exact X|]. split; [exact C|]. intros r. inversion P as [|? ? [T _] _]; subst. cbn [map join].
    destruct (map param_text ps); [|rewrite <- app_assoc]; apply parted_param; (apply two_name || exact T). }
  eapply reads_app; [apply reads_word, R| |destruct (cp_star f); apply closed_parted; [apply closed_word|reflexivity|apply closed_word|reflexivity]].
  assert (reads (if cp_star f then lit " * " else lit " ") (star (cp_star f)) Between) as RS by (destruct (cp_star f); apply reads_lit; reflexivity).
  eapply reads_app; [exact RS| |apply parted_ident; [reflexivity|exact N]].
  change ([TId (cp_name f); TOp OLpar] ++ ?x) with ([TId (cp_name f)] ++ [TOp OLpar] ++ x).
  eapply reads_app; [apply reads_name, N| |apply closed_parted; [apply closed_word|reflexivity]].
  eapply reads_app; [apply reads_lit; reflexivity| |apply PT].
  eapply reads_app; [exact RP|apply reads_lit; reflexivity|apply closed_parted; [exact C|reflexivity]].
Qed.
Lemma proto_directive f r : proto_fits f -> directive (proto_text f ++ r) = false.
Proof. intros (R & _). apply type_word_reads in R as [R _]. unfold proto_text. rewrite <- app_assoc. apply word_directive, R. Qed.
Lemma lx_proto f : proto_fits f -> lx (proto_line f) (htoks f ++ [TOp OSemi]).
Proof.
  intros P. split; [apply proto_directive, P|]. eapply reads_lex. eapply reads_app; [apply reads_proto, P|apply reads_lit; reflexivity|reflexivity].
Qed.

Definition EPs t l r := evl (fun k => p_params k t) (l, r).
Lemma H_params ps : ps <> [] -> Forall param_fits ps -> forall r, EPs (commas ps ++ TOp ORpar :: r) (map (fun p => (Some (opt_text (fst (fst p))), snd (fst p), snd p)) ps) r.
Proof.
  induction ps as [|p ps IH]; [congruence|]. intros _ F r. inversion F as [|? ? [T _] F']; subst. destruct p as [[t b] n]. cbn [fst snd] in T. apply type_word_reads in T as [_ T].
  destruct ps as [|q ps].
  - exists 1%nat. intros [|k] L; [lia|]. cbn [commas]. unfold ptok. cbn [fst snd]. destruct b; cbn [star app p_params p_decl]; rewrite T; reflexivity.
  - destruct (IH ltac:(discriminate) F' r) as (n0 & H). exists (S n0). intros [|k] L; [lia|]. specialize (H k ltac:(lia)).
    change (commas ((t, b, n) :: q :: ps)) with (ptok (t, b, n) ++ TOp OComma :: commas (q :: ps)). unfold ptok. cbn [fst snd map]. rewrite <- !app_assoc.
    destruct b; cbn [star app p_params p_decl]; rewrite T; cbn [obind]; rewrite H; reflexivity.
Qed.
Lemma H_proto f r : proto_fits f -> EH (htoks f ++ r) (as_read f) r.
Proof.
  intros (R & _ & P). apply type_word_reads in R as [_ R]. unfold htoks, as_read. destruct (cp_params f) as [|p ps] eqn:E.
  - exists 0%nat. intros k _. rewrite <- !app_assoc. destruct (cp_star f); cbn [star app p_head p_decl]; unfold p_head; cbn [p_decl]; rewrite R; reflexivity.
  - destruct (H_params (p :: ps) ltac:(discriminate) P r) as (n & H). exists n. intros k L. specialize (H k L). rewrite <- !app_assoc. cbn [app].
    assert (match commas (p :: ps) ++ TOp ORpar :: r with TKw KVoid :: TOp ORpar :: _ => False | _ => True end) as NV.
    { destruct p as [[t b] n0]. inversion P as [|? ? [T _] _]; subst. cbn [fst snd] in T. destruct ps; [cbn [commas]|change (commas ((t, b, n0) :: p :: ps)) with (ptok (t, b, n0) ++ TOp OComma :: commas (p :: ps))];
        unfold ptok; cbn [fst snd]; rewrite <- ?app_assoc; destruct b; cbn [star app]; destruct (word (opt_text t)) as [| | | | |[]|]; exact Logic.I. }
    destruct (cp_star f); cbn [star app]; unfold p_head; cbn [p_decl]; rewrite R; cbn [obind expect];
      (destruct (commas (p :: ps) ++ TOp ORpar :: r) as [|[| | | | |[]|] [|[| | | |[]| |] ?]]; try (destruct NV); rewrite H; reflexivity).
Qed.
Lemma F_protos l us rest : Forall proto_fits l -> EF rest us -> EF (flat_map (fun f => htoks f ++ [TOp OSemi]) l ++ rest) (map (fun f => UProto (as_read f)) l ++ us).
Proof.
  intros F E. induction F as [|f l P F IH]; [exact E|]. cbn [flat_map map app]. rewrite <- !app_assoc. cbn [app]. eapply F_proto; [|apply H_proto, P|exact IH].
  unfold htoks. discriminate.
Qed.
Lemma words_protos l : Forall proto_fits l -> words (map proto_line l) = Some (flat_map (fun f => htoks f ++ [TOp OSemi]) l).
Proof. induction 1 as [|f l P F IH]; [reflexivity|]. cbn [map flat_map]. apply words_line; [apply lx_proto, P|exact IH]. Qed.

(** ** Headers *)

Lemma included_plain l : Forall (fun x => directive x = false) l -> forall defs depth skip r,
  included defs depth skip (l ++ r) = (let? p := included defs depth skip r in Some (fst p, match skip with O => l ++ snd p | S _ => snd p end)).
Proof.
  induction 1 as [|x l D F IH]; intros defs depth skip r.
  - cbn [app]. destruct (included defs depth skip r) as [[a b]|]; [|reflexivity]. destruct skip; reflexivity.
  - cbn [app included]. assert (pp_of x = PPlain x) as -> by (destruct x as [|c q]; [reflexivity|]; cbn [directive] in D; unfold pp_of; rewrite D; reflexivity).
    rewrite IH. destruct (included defs depth skip r) as [[a b]|]; [|reflexivity]. destruct skip; reflexivity.
Qed.
Lemma pp_word (d : string) x : c_ident x -> reads (lit d ++ lit " ") [TId (lit d)] Between -> lex Between (lit d ++ lit " " ++ x) = Some [TId (lit d); TId x].
Proof.
  intros I R. rewrite app_assoc. apply (reads_lex _ _ (InWord x)). change [TId (lit d); TId x] with ([TId (lit d)] ++ [TId x]).
  eapply reads_app; [exact R|apply reads_name, I|]. rewrite <- (app_nil_r x). apply parted_ident; [reflexivity|exact I].
Qed.
Lemma pp_ifndef x : c_ident x -> pp_of (lit "#ifndef " ++ x) = PIfndef x.
Proof.
  intros I. change (lit "#ifndef " ++ x) with (35 :: (lit "ifndef" ++ lit " " ++ x)). unfold pp_of. rewrite (pp_word "ifndef" x I) by (apply reads_lit; reflexivity). reflexivity.
Qed.
Lemma pp_define x : c_ident x -> pp_of (lit "#define " ++ x) = PDefine x.
Proof.
  intros I. change (lit "#define " ++ x) with (35 :: (lit "define" ++ lit " " ++ x)). unfold pp_of. rewrite (pp_word "define" x I) by (apply reads_lit; reflexivity). reflexivity.
Qed.
Lemma lex_after a : forall st t st' s, lexto st a = Some (t, st') -> lex st (a ++ s) = let? u := lex st' s in Some (t ++ u).
Proof.
  induction a as [|c a IH]; intros st t st' s E; cbn [lexto lex app] in *; [injection E as <- <-; destruct (lex st s); reflexivity|].
  destruct (goes_on st c) as [[[b st1]|]|]; cbn [obind fst snd] in *; try discriminate.
  - destruct (lexto st1 a) as [[t1 st2]|] eqn:E1; [|discriminate]. cbn [obind fst snd] in E. injection E as <- <-. rewrite (IH _ _ _ s E1). destruct (lex st2 s); cbn [obind]; [rewrite app_assoc|]; reflexivity.
  - destruct (finish st) as [b|]; [|discriminate]. cbn [obind] in *. destruct (start c) as [st1|]; [|discriminate]. cbn [obind] in *.
    destruct (lexto st1 a) as [[t1 st2]|] eqn:E1; [|discriminate]. cbn [obind fst snd] in E. injection E as <- <-. rewrite (IH _ _ _ s E1). destruct (lex st2 s); cbn [obind]; [rewrite app_assoc|]; reflexivity.
Qed.
Lemma pp_endif x : pp_of (lit "#endif //" ++ x) = PEndif.
Proof.
  change (lit "#endif //" ++ x) with (35 :: (lit "endif //" ++ x)). unfold pp_of. cbn [Z.eqb Pos.eqb].
  rewrite (lex_after (lit "endif //") Between [TId (lit "endif")] InLineComment) by reflexivity. rewrite lex_line_comment. reflexivity.
Qed.
Lemma pp_include x : pp_of (lit "#include " ++ x) = PIgnored.
Proof.
  change (lit "#include " ++ x) with (35 :: (lit "include " ++ x)). unfold pp_of. cbn [Z.eqb Pos.eqb].
  rewrite (lex_after (lit "include ") Between [TId (lit "include")] Between) by reflexivity. destruct (lex Between x) as [[|[] ?]|]; reflexivity.
Qed.
Lemma included_ignored l : Forall (fun x => pp_of x = PIgnored) l -> forall defs depth skip r, included defs depth skip (l ++ r) = included defs depth skip r.
Proof. induction 1 as [|x l D F IH]; intros defs depth skip r; [reflexivity|]. cbn [app included]. rewrite D. apply IH. Qed.

(** Lines of code and lines that are ignored, and what is left of them. *)
Inductive sieved : list str -> list str -> Prop :=
| sv_nil : sieved [] []
| sv_plain x l k : directive x = false -> sieved l k -> sieved (x :: l) (x :: k)
| sv_skip x l k : pp_of x = PIgnored -> sieved l k -> sieved (x :: l) k.
Lemma sieved_app a b c d : sieved a b -> sieved c d -> sieved (a ++ c) (b ++ d).
Proof. induction 1; intros S; cbn [app]; [exact S|apply sv_plain; auto|apply sv_skip; auto]. Qed.
Lemma sieved_plain l : Forall (fun x => directive x = false) l -> sieved l l.
Proof. induction 1; [apply sv_nil|apply sv_plain; auto]. Qed.
Lemma sieved_ignored l : Forall (fun x => pp_of x = PIgnored) l -> sieved l [].
Proof. induction 1; [apply sv_nil|apply sv_skip; auto]. Qed.
Lemma included_sieved l k : sieved l k -> forall defs depth skip r,
  included defs depth skip (l ++ r) = (let? p := included defs depth skip r in Some (fst p, match skip with O => k ++ snd p | S _ => snd p end)).
Proof.
  induction 1 as [|x l k D _ IH|x l k D _ IH]; intros defs depth skip r.
  - cbn [app]. destruct (included defs depth skip r) as [[a b]|]; [|reflexivity]. destruct skip; reflexivity.
  - cbn [app included]. assert (pp_of x = PPlain x) as -> by (destruct x as [|c q]; [reflexivity|]; cbn [directive] in D; unfold pp_of; rewrite D; reflexivity).
    rewrite IH. destruct (included defs depth skip r) as [[a b]|]; [|reflexivity]. destruct skip; reflexivity.
  - cbn [app included]. rewrite D. apply IH.
Qed.
Lemma included_guarded guard l k defs : c_ident guard -> sieved l k ->
  included defs 0 0 (guarded guard l) = if defined_in defs guard then Some (defs, []) else Some (guard :: defs, [[]] ++ k ++ [[]]).
Proof.
  intros I S. unfold guarded.
  change ([lit "#ifndef " ++ guard; lit "#define " ++ guard; []] ++ l ++ [[]; lit "#endif //" ++ guard])
    with ((lit "#ifndef " ++ guard) :: (lit "#define " ++ guard) :: ([] :: l) ++ [[]; lit "#endif //" ++ guard]).
  assert (sieved ([] :: l) ([] :: k)) as S' by (apply sv_plain; [reflexivity|exact S]).
  assert (forall defs depth skip, included defs depth skip [[]; lit "#endif //" ++ guard] =
    match skip, depth with 1%nat, O => Some (defs, []) | O, 1%nat => Some (defs, [[]]) | _, _ => None end) as T.
  { intros d m [|[|j]]; destruct m as [|[|m]]; cbn [included pp_of]; rewrite pp_endif; reflexivity. }
  cbn [included]. rewrite (pp_ifndef _ I), (pp_define _ I). destruct (defined_in defs guard); rewrite (included_sieved _ _ S'), T; reflexivity.
Qed.
Lemma sieved_words l k : sieved l k -> Forall (fun x => pp_of x = PIgnored -> directive x = true) l -> words l = words k.
Proof.
  induction 1 as [|x l k D _ IH|x l k D _ IH]; intros F; inversion F as [|? ? A F']; subst; [reflexivity| |].
  - cbn [words]. rewrite D, (IH F'). reflexivity.
  - cbn [words]. rewrite (A D). exact (IH F').
Qed.
Lemma heading_plain s : Forall (fun x => directive x = false) (heading s).
Proof. repeat constructor. Qed.
Lemma protos_plain l : Forall proto_fits l -> Forall (fun x => directive x = false) (map proto_line l).
Proof. intros F. apply Forall_map. eapply Forall_impl; [|exact F]. intros f P. apply proto_directive, P. Qed.
Lemma include_ignored s : pp_of (include s) = PIgnored.
Proof. unfold include. change (lit "#include """ ++ s ++ lit """") with (lit "#include " ++ (34 :: s ++ lit """")). apply pp_include. Qed.
Ltac cid := split; [reflexivity|split; [reflexivity|vm_compute; intuition discriminate]].
Lemma node_protos_fit name : c_ident name -> Forall proto_fits (node_protos name).
Proof.
  intros I. assert (forall p : string, match lit p with [] => False | c :: _ => letter c = true end -> forallb name_char (lit p) = true -> (10 < length (lit p))%nat -> c_ident (lit p ++ name)) as H.
  { intros p A B L. apply ident_long; [destruct (lit p); [destruct A|exact A]|rewrite name_chars_app, B; apply I|rewrite app_length; lia]. }
  unfold node_protos. repeat apply Forall_cons; try apply Forall_nil; (split; [left; cid|split; [cbn [cp_name]; apply H; (reflexivity || (cbn; lia))|apply Forall_nil]]).
Qed.
Lemma notify_fits name : c_ident name -> proto_fits (notify_proto (notify_name name)).
Proof.
  intros I. split; [right; left; reflexivity|]. split; [apply (ident_handler name I)|].
  cbn [notify_proto cp_params]. repeat apply Forall_cons; try apply Forall_nil; (split; [cbn [fst snd opt_text]; first [right; left; reflexivity|right; right; exists BU32; reflexivity|left; cid]|cbn [snd]; cid]).
Qed.
Lemma guard_ident name (s : string) : c_ident name -> forallb name_char (lit s) = true -> (2 <= length (lit s))%nat -> c_ident (upper (lit "ApxNode_" ++ name) ++ lit s).
Proof.
  intros (A & B & _) C L. destruct name as [|c r]; [destruct A|]. apply ident_long; [reflexivity| |].
  - rewrite name_chars_app, C, upper_chars; [reflexivity|]. rewrite name_chars_app, B. reflexivity.
  - rewrite app_length. unfold upper. rewrite map_length, app_length. cbn [length lit map]. cbn. lia.
Qed.

Definition all_protos (name : str) (funs : list cproto) (input : bool) : list cproto :=
  node_protos name ++ funs ++ (if input then [notify_proto (notify_name name)] else []).
Lemma header_reads name includes funs input : c_ident name -> Forall proto_fits funs ->
  exists kept, is_c kept (map (fun f => UProto (as_read f)) (all_protos name funs input)) /\
    forall defs, included defs 0 0 (header_lines name includes funs input) =
      if defined_in defs (upper (lit "ApxNode_" ++ name) ++ lit "_H") then Some (defs, []) else Some ((upper (lit "ApxNode_" ++ name) ++ lit "_H") :: defs, kept).
Proof.
  intros I F. pose proof (node_protos_fit name I) as FN. pose proof (notify_fits name I) as FT.
  assert (sieved ([lit "#include <stdbool.h>"; include (lit "apx_nodeData.h")] ++ map include includes ++ [[]]
     ++ heading "CONSTANTS" ++ [[]] ++ heading "FUNCTION PROTOTYPES"
     ++ map proto_line (node_protos name) ++ [[]] ++ map proto_line funs
     ++ (if input then [proto_line (notify_proto (notify_name name))] else []))
    ([] ++ [] ++ [[]] ++ heading "CONSTANTS" ++ [[]] ++ heading "FUNCTION PROTOTYPES"
     ++ map proto_line (node_protos name) ++ [[]] ++ map proto_line funs
     ++ (if input then [proto_line (notify_proto (notify_name name))] else []))) as S.
  { apply sieved_app; [apply sieved_ignored; repeat constructor|]. apply sieved_app; [apply sieved_ignored, Forall_map, Forall_forall; intros x _; apply include_ignored|].
    apply sieved_plain. repeat (apply Forall_app; split); try apply heading_plain; try apply protos_plain; try assumption; try (constructor; [reflexivity|constructor]).
    destruct input; [constructor; [apply proto_directive, FT|constructor]|constructor]. }
  eexists. split; [|intros defs; apply included_guarded; [apply guard_ident; [exact I|reflexivity|cbn; lia]|exact S]].
  assert (Forall proto_fits (all_protos name funs input)) as FA.
  { unfold all_protos. repeat (apply Forall_app; split); try assumption. destruct input; constructor; [exact FT|constructor]. }
  destruct (F_protos _ [] [] FA F_nil) as (n & H). rewrite !app_nil_r in H. exists (flat_map (fun f => htoks f ++ [TOp OSemi]) (all_protos name funs input)), n. split; [|exact H].
  unfold all_protos. rewrite !flat_map_app.
  transitivity (words ([[]; []] ++ heading "CONSTANTS" ++ [[]] ++ heading "FUNCTION PROTOTYPES" ++ map proto_line (node_protos name) ++ [[]] ++ map proto_line funs
     ++ (if input then [proto_line (notify_proto (notify_name name))] else []) ++ [[]])); [f_equal; repeat (cbn [app]; rewrite <- !app_assoc); reflexivity|].
  apply (w_nil [[]; []] eq_refl). apply (w_nil (heading "CONSTANTS") eq_refl). apply (w_nil [[]] eq_refl). apply (w_nil (heading "FUNCTION PROTOTYPES") eq_refl).
  apply words_app; [apply words_protos, FN|]. apply (w_nil [[]] eq_refl). apply words_app; [apply words_protos, F|].
  rewrite <- (app_nil_r (flat_map _ (if input then _ else _))). apply words_app; [|reflexivity]. destruct input; [apply (words_protos [_]); constructor; [exact FT|constructor]|reflexivity].
Qed.
Lemma cbk_reads name funs : c_ident name -> Forall proto_fits funs ->
  exists kept, is_c kept (map (fun f => UProto (as_read f)) funs) /\
    forall defs, included defs 0 0 (cbk_lines name funs) =
      if defined_in defs (upper (lit "ApxNode_" ++ name) ++ lit "_CBK_H") then Some (defs, []) else Some ((upper (lit "ApxNode_" ++ name) ++ lit "_CBK_H") :: defs, kept).
Proof.
  intros I F.
  assert (sieved (heading "INCLUDES" ++ [include (lit "Rte_Type.h"); []] ++ heading "FUNCTION PROTOTYPES" ++ map proto_line funs)
    (heading "INCLUDES" ++ [[]] ++ heading "FUNCTION PROTOTYPES" ++ map proto_line funs)) as S.
  { apply sieved_app; [apply sieved_plain, heading_plain|]. apply (sieved_app _ [[]]); [apply sv_skip; [reflexivity|apply sv_plain; [reflexivity|apply sv_nil]]|].
    apply sieved_plain. apply Forall_app; split; [apply heading_plain|apply protos_plain, F]. }
  eexists. split; [|intros defs; apply included_guarded; [apply guard_ident; [exact I|reflexivity|cbn; lia]|exact S]].
  destruct (F_protos _ [] [] F F_nil) as (n & H). rewrite !app_nil_r in H. exists (flat_map (fun f => htoks f ++ [TOp OSemi]) funs), n. split; [|exact H].
  rewrite <- !app_assoc. apply (w_nil [[]] eq_refl). apply (w_nil (heading "INCLUDES") eq_refl). apply (w_nil [[]] eq_refl). apply (w_nil (heading "FUNCTION PROTOTYPES") eq_refl).
  rewrite <- (app_nil_r (flat_map _ _)). apply words_app; [apply words_protos, F|reflexivity].
Qed.
