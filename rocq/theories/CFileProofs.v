(** Proofs about reading whole generated files (CFileSpec.v). *)
From Coq Require Import ZifyBool ZifyNat Lia.
From Verif Require Import Py PyLemmas TypesModel TextModel TextProofs AttrModel NodeModel VmModel TypesSpec CompilerModel
  NodeDataModel NodeDataSpec GenModel GenSpec GenProofs GenFilesModel ComModel CTextSpec CTextProofs CFileSpec.
Ltac Zify.zify_post_hook ::= Z.div_mod_to_equations.

(** ** Comments, strings, numbers *)

Lemma lexto_comment s : ~ In 42 s -> lexto (InComment false) s = Some ([], InComment false).
Proof.
  induction s as [|c s IH]; intros N; [reflexivity|]. cbn [lexto goes_on obind fst snd andb].
  replace (c =? 42) with false by (cbn [In] in N; lia). rewrite IH by (cbn [In] in N; tauto). reflexivity.
Qed.
Lemma lex_app s st st' s' t' : lexto st s = Some ([], st') -> lex st' s' = Some t' -> lex st (s ++ s') = Some t'.
Proof.
  revert st. induction s as [|c s IH]; intros st E F; cbn [lexto app lex] in *; [injection E as <-; exact F|].
  destruct (goes_on st c) as [[[a st1]|]|]; cbn [obind fst snd] in *; try discriminate.
  - destruct (lexto st1 s) as [[t1 st2]|] eqn:E1; [|discriminate]. cbn [obind fst snd] in E. injection E as E ->.
    apply app_eq_nil in E as [-> ->]. rewrite (IH _ E1 F). reflexivity.
  - destruct (finish st) as [a|]; [|discriminate]. cbn [obind] in *. destruct (start c) as [st1|]; [|discriminate]. cbn [obind] in *.
    destruct (lexto st1 s) as [[t1 st2]|] eqn:E1; [|discriminate]. cbn [obind fst snd] in E. injection E as E ->.
    apply app_eq_nil in E as [-> ->]. rewrite (IH _ E1 F). reflexivity.
Qed.
Lemma lx_comment s : ~ In 42 s -> lx (lit "/*" ++ s ++ lit "*/") [].
Proof.
  intros N. split; [reflexivity|]. apply (lex_app (lit "/*") Between (InComment false)); [reflexivity|].
  apply (lex_app s _ (InComment false)); [apply lexto_comment, N|reflexivity].
Qed.

Lemma lexto_string : forall n s u t, (length s <= n)%nat -> unescape s = Some t -> lexto (InString u false) s = Some ([], InString (u ++ s) false).
Proof.
  induction n as [|n IH]; intros [|c s] u t L E; cbn [length] in L; try lia; try (cbn [lexto]; rewrite app_nil_r; reflexivity).
  cbn [unescape] in E. cbn [lexto goes_on obind fst snd]. destruct (c =? 92) eqn:C.
  - replace (c =? 34) with false by lia. cbn [obind fst snd]. destruct s as [|e s]; [discriminate|]. cbn [lexto goes_on obind fst snd].
    destruct (if e =? 110 then _ else _) as [x|]; [|discriminate]. cbn [obind] in E. destruct (unescape s) as [q|] eqn:Q; [|discriminate].
    cbn [length] in L. rewrite (IH s _ q) by (lia || exact Q). cbn [obind fst snd app]. rewrite <- !app_assoc. reflexivity.
  - destruct ((c =? 34) || (c =? 10)) eqn:D; [discriminate|]. replace (c =? 34) with false by lia. cbn [obind fst snd].
    destruct (unescape s) as [q|] eqn:Q; [|discriminate]. rewrite (IH s _ q) by (lia || exact Q). cbn [obind fst snd app]. rewrite <- !app_assoc. reflexivity.
Qed.
Lemma reads_string s t : unescape s = Some t -> reads ([QUOTE] ++ s ++ [QUOTE]) [TStr t] Between.
Proof.
  intros E. exists [TStr t], []. split; [|split; reflexivity]. change [TStr t] with ([] ++ [] ++ [TStr t]).
  refine (lexto_app [QUOTE] _ _ (InString [] false) _ _ _ _ _); [reflexivity|].
  refine (lexto_app s _ _ (InString s false) _ _ _ _ _); [apply (lexto_string (length s) s [] t (le_n _) E)|].
  cbn [lexto goes_on obind]. change (QUOTE =? 34) with true. cbn iota. rewrite E. reflexivity.
Qed.

Fixpoint nums (l : list Z) : list tok :=
  match l with [] => [] | [z] => [TNum z] | z :: r => TNum z :: TOp OComma :: nums r end.
Lemma nums_app a b : a <> [] -> b <> [] -> nums (a ++ b) = nums a ++ TOp OComma :: nums b.
Proof.
  intros A B. induction a as [|x a IH]; [congruence|]. destruct a as [|y a].
  - destruct b as [|z b]; [congruence|]. reflexivity.
  - change (nums ((x :: y :: a) ++ b)) with (TNum x :: TOp OComma :: nums ((y :: a) ++ b)). rewrite IH by discriminate. reflexivity.
Qed.
Lemma numbers_nums l : l <> [] -> numbers (nums l ++ [TOp ORbrc]) = Some l.
Proof.
  induction l as [|z l IH]; [congruence|]. intros _. destruct l as [|y l]; [reflexivity|].
  change (nums (z :: y :: l)) with (TNum z :: TOp OComma :: nums (y :: l)). cbn [app].
  change (numbers (TNum z :: TOp OComma :: nums (y :: l) ++ [TOp ORbrc])) with (let? q := numbers (nums (y :: l) ++ [TOp ORbrc]) in Some (z :: q)).
  rewrite IH by discriminate. reflexivity.
Qed.
Lemma reads_nums l : l <> [] -> Forall (fun z => 0 <= z) l -> exists st, reads (join (lit ", ") (map dec_str l)) (nums l) st /\ closed st.
Proof.
  induction l as [|z l IH]; [congruence|]. intros _ F. inversion F as [|? ? P F']; subst. destruct l as [|y l].
  - exists (InNumber (dec_str z)). split; [apply reads_dec, P|apply closed_number].
  - destruct (IH ltac:(discriminate) F') as (st & R & C). exists st. split; [|exact C].
    change (join (lit ", ") (map dec_str (z :: y :: l))) with (dec_str z ++ lit ", " ++ join (lit ", ") (map dec_str (y :: l))).
    change (nums (z :: y :: l)) with ([TNum z] ++ [TOp OComma] ++ nums (y :: l)).
    eapply reads_app; [apply reads_dec, P| |apply closed_parted; [apply closed_number|reflexivity]].
    eapply reads_app; [apply reads_lit; vm_compute; reflexivity|exact R|].
    inversion F'; subst. destruct (dec_first y ltac:(assumption)) as (c & q & E & D). cbn [map join]. destruct (map dec_str l); rewrite E; reflexivity.
Qed.
Lemma words_data : forall k l, (length l <= k)%nat -> Forall (fun z => 0 <= z) l -> words (data_lines k l) = Some (nums l).
Proof.
  induction k as [|k IH]; intros l L F; [destruct l; [reflexivity|cbn [length] in L; lia]|]. cbn [data_lines]. destruct (Nat.ltb 32 (length l)) eqn:N.
  - apply Nat.ltb_lt in N. rewrite <- (firstn_skipn 32 l) in F |- * at 3. apply Forall_app in F as [F1 F2].
    assert (firstn 32 l <> []) as E1 by (destruct l; [cbn in N; lia|discriminate]).
    assert (skipn 32 l <> []) as E2 by (intros E; apply (f_equal (@length Z)) in E; rewrite skipn_length in E; cbn in E; lia).
    rewrite nums_app by assumption. destruct (reads_nums _ E1 F1) as (st & R & C).
    change (nums (firstn 32 l) ++ TOp OComma :: nums (skipn 32 l)) with (nums (firstn 32 l) ++ [TOp OComma] ++ nums (skipn 32 l)). rewrite app_assoc.
    apply words_line; [|apply IH; [rewrite skipn_length; lia|exact F2]].
    eapply lx_line; [|lia]. eapply reads_app; [exact R|apply reads_lit; vm_compute; reflexivity|apply closed_parted; [exact C|reflexivity]].
  - destruct l as [|z l]; [reflexivity|]. destruct (reads_nums (z :: l) ltac:(discriminate) F) as (st & R & C).
    apply words_one. eapply lx_line; [exact R|lia].
Qed.

(** The literals of the definition. *)
Lemma words_literals : forall l ds, Forall2 (fun s t => unescape s = Some t) l ds -> l <> [] ->
  words (end_last (map (fun s => [QUOTE] ++ s ++ [QUOTE]) l)) = Some (map TStr ds ++ [TOp OSemi]).
Proof.
  intros l ds F. induction F as [|s t l ds E F IH]; intros NE; [congruence|]. destruct l as [|s2 l].
  - inversion F; subst. cbn [map end_last app]. eapply words_eq; [|reflexivity]. split; [reflexivity|]. apply (reads_lex _ _ (InPunct 59)).
    exact (reads_app _ _ _ (lit ";") [TOp OSemi] (InPunct 59) (reads_string s t E) (reads_lit (lit ";") [TOp OSemi] (InPunct 59) eq_refl) eq_refl).
  - change (words (([QUOTE] ++ s ++ [QUOTE]) :: end_last (map (fun s => [QUOTE] ++ s ++ [QUOTE]) (s2 :: l))) = Some ([TStr t] ++ (map TStr ds ++ [TOp OSemi]))).
    apply words_line; [|apply IH; discriminate]. split; [reflexivity|]. eapply reads_lex, reads_string, E.
Qed.
Lemma strings_map ds : ds <> [] -> strings (map TStr ds) = Some (concat ds).
Proof.
  induction ds as [|s ds IH]; [congruence|]. intros _. destruct ds as [|t ds]; [cbn; rewrite app_nil_r; reflexivity|].
  change (strings (map TStr (s :: t :: ds))) with (let? l := strings (map TStr (t :: ds)) in Some (s ++ l)). rewrite IH by discriminate. reflexivity.
Qed.
Lemma denoted_all : forall l t, denoted l = Some t -> exists ds, Forall2 (fun s t => unescape s = Some t) l ds /\ concat ds = t.
Proof.
  induction l as [|s l IH]; intros t E; cbn [denoted] in E; [injection E as <-; exists []; auto|].
  destruct (unescape s) as [a|] eqn:A; [|discriminate]. cbn [obind] in E. destruct (denoted l) as [b|] eqn:B; [|discriminate]. injection E as <-.
  destruct (IH _ eq_refl) as (ds & F & <-). exists (a :: ds). split; [constructor; assumption|reflexivity].
Qed.

(** Long names are not keywords. *)
Lemma ident_long s : match s with [] => False | c :: _ => letter c = true end -> forallb name_char s = true -> (10 < length s)%nat -> c_ident s.
Proof.
  intros A B L. split; [exact A|]. split; [exact B|]. intros I. apply in_map_iff in I as (p & <- & I).
  revert L. cbn [keywords In] in I. repeat destruct I as [<-|I]; [..|destruct I]; cbn; lia.
Qed.
Lemma name_chars_app a b : forallb name_char (a ++ b) = forallb name_char a && forallb name_char b.
Proof. apply forallb_app. Qed.

(** ** The source file *)

Definition tk (s : string) : list tok := match lex Between (lit s) with Some t => t | None => [] end.
Definition pst (t : list tok) : cs := match p_stmt 80 t with Some (s, _) => s | None => GBreak end.
Definition fixed (s : string) : list tok * cs := (tk s, pst (tk s)).

Definition tab (n m : string) (l : list Z) : unit_ :=
  UOther ([TKw KStatic; TKw KConst; TType BU8; TId (lit n); TOp OLbrk; TId (lit m); TOp ORbrk; TOp OEq; TOp OLbrc] ++ nums l ++ [TOp ORbrc]).
Definition arr (n m : string) : unit_ := UOther [TKw KStatic; TType BU8; TId (lit n); TOp OLbrk; TId (lit m); TOp ORbrk].
Definition OUTLEN : string := "APX_OUT_PORT_DATA_LEN".
Definition INLEN : string := "APX_IN_PORT_DATA_LEN".

Section Source.
Variable c : cfile.
Variable ds : list str.

Definition out_units : list unit_ :=
  if 0 <? c_outlen c then [tab "m_outPortInitData" OUTLEN (c_outinit c); arr "m_outPortdata" OUTLEN; arr "m_outPortDirtyFlags" OUTLEN] else [].
Definition in_units : list unit_ :=
  if 0 <? c_inlen c then [tab "m_inPortInitData" INLEN (c_ininit c); arr "m_inPortdata" INLEN] ++ (if c_synced c then [arr "m_inPortSyncedFlags" INLEN] else []) else [].
Definition var_units : list unit_ :=
  out_units ++ in_units ++
  [UOther [TKw KStatic; TId (lit "apx_nodeData_t"); TId (lit "m_nodeData")];
   UOther ([TKw KStatic; TKw KConst; TKw KChar; TOp OStar; TId (lit "m_apxDefinitionData"); TOp OEq] ++ map TStr ds)].
Definition utoks (u : unit_) : list tok := match u with UOther t => t ++ [TOp OSemi] | _ => [] end.

Definition create_toks : list tok :=
  tk "apx_nodeData_create(&m_nodeData," ++ [TStr (opt_text (c_node c))] ++ tk ", (uint8_t*) &m_apxDefinitionData[0], APX_DEFINITON_LEN, "
  ++ (if 0 <? c_inlen c then tk "&m_inPortdata[0], " ++ (if c_synced c then tk "&m_inPortSyncedFlags[0]" else tk "NULL") ++ tk ", APX_IN_PORT_DATA_LEN, " else tk "0, 0, 0, ")
  ++ (if 0 <? c_outlen c then tk "&m_outPortdata[0], &m_outPortDirtyFlags[0], APX_OUT_PORT_DATA_LEN" else tk "0, 0, 0")
  ++ tk ");".
Definition handler_name : str := opt_text (c_node c) ++ lit "_inPortDataWritten".
Definition handler_toks : list tok := tk "nodeDataHandler.inPortDataWritten =" ++ [TId handler_name; TOp OSemi].
Definition init_list : list (list tok * cs) :=
  (if c_callbacks c then [fixed "apx_nodeDataHandlerTable_t nodeDataHandler;"] else [])
  ++ (if 0 <? c_inlen c then
        [fixed "memcpy(&m_inPortdata[0], &m_inPortInitData[0], APX_IN_PORT_DATA_LEN);"]
        ++ (if c_synced c then [fixed "memset(&m_inPortSyncedFlags[0], 0, sizeof(m_inPortSyncedFlags));"] else [])
      else [])
  ++ (if 0 <? c_outlen c then
        [fixed "memcpy(&m_outPortdata[0], &m_outPortInitData[0], APX_OUT_PORT_DATA_LEN);";
         fixed "memset(&m_outPortDirtyFlags[0], 0, sizeof(m_outPortDirtyFlags));"]
      else [])
  ++ [(create_toks, pst create_toks)]
  ++ (if c_callbacks c then
        [fixed "memset(&nodeDataHandler, 0, sizeof(nodeDataHandler));"; (handler_toks, pst handler_toks);
         fixed "apx_nodeData_setHandlerTable(&m_nodeData, &nodeDataHandler);"]
      else [])
  ++ [fixed "return &m_nodeData;"].
Definition connected : list tok * cs :=
  match 0 <? c_inlen c, 0 <? c_outlen c with
  | true, true => fixed "return ( apx_nodeData_isInPortDataOpen(&m_nodeData) && apx_nodeData_isOutPortDataOpen(&m_nodeData) );"
  | true, false => fixed "return apx_nodeData_isInPortDataOpen(&m_nodeData);"
  | false, true => fixed "return apx_nodeData_isOutPortDataOpen(&m_nodeData);"
  | false, false => fixed "return false;"
  end.
(** Functions without parameters. *)
Definition nullary (ret : string) (star : bool) (pre : string) (body : list (list tok * cs)) : list tok * unit_ :=
  ([TId (lit ret)] ++ (if star then [TOp OStar] else []) ++ [TId (lit pre ++ c_name c); TOp OLpar; TKw KVoid; TOp ORpar; TOp OLbrc]
   ++ flat_map fst body ++ [TOp ORbrc],
   UFun (mk_cproto (lit ret) star (lit pre ++ c_name c) []) (map snd body)).
Definition node_funs : list (list tok * unit_) :=
  [nullary "apx_nodeData_t" true "ApxNode_Init_" init_list;
   nullary "apx_nodeData_t" true "ApxNode_GetNodeData_" [fixed "return &m_nodeData;"];
   nullary "bool" false "ApxNode_IsConnected_" [connected]].

Definition parts_ok (x : cbpart) : Prop :=
  match x with
  | PComment _ => True
  | PCase l n k => c_ident l /\ c_ident n /\ match k with Some k => c_ident (cl_port k) /\ c_ident (cl_read k) /\ c_ident (cl_func k) | None => True end
  end.
Definition var_ok (v : str * option str * option Z) : Prop :=
  c_ident (fst (fst v)) /\ c_ident (opt_text (snd (fst v))) /\ match snd v with Some n => 0 <= n | None => True end.
Definition notifier_ok (x : notifier) : Prop :=
  match x with
  | Switch guard parts vars => match guard with Some g => c_ident g | None => True end /\ Forall parts_ok parts /\ Forall var_ok vars
  | _ => True
  end.
Record okfile (version : str) : Prop := mk_okfile {
  of_version : ~ In 42 version;
  of_node : c_ident (opt_text (c_node c));
  of_name : c_ident (c_name c);
  of_out : 0 < c_outlen c -> c_outinit c <> [];
  of_in : 0 < c_inlen c -> c_ininit c <> [];
  of_outs : Forall (fun z => 0 <= z) (c_outinit c);
  of_ins : Forall (fun z => 0 <= z) (c_ininit c);
  of_lit : Forall2 (fun s t => unescape s = Some t) (c_literal c) ds;
  of_lits : c_literal c <> [];
  of_reads : Forall okfun (c_reads c);
  of_writes : Forall okfun (c_writes c);
  of_notifier : notifier_ok (c_notifier c)
}.

Lemma w_nil l : words l = Some [] -> forall a t, words a = Some t -> words (l ++ a) = Some t.
Proof. intros E a t F. apply (words_app _ _ [] t E F). Qed.
Lemma w_skip x l t : directive x = true -> words l = Some t -> words (x :: l) = Some t.
Proof. intros D E. cbn [words]. rewrite D. exact E. Qed.
Lemma directives_map {A} (f : A -> str) l : (forall x, directive (f x) = true) -> words (map f l) = Some [].
Proof. intros D. induction l as [|x l IH]; [reflexivity|]. cbn [map]. apply w_skip; [apply D|exact IH]. Qed.

Lemma w_if (b : bool) l t : (b = true -> words l = Some t) -> words (if b then l else []) = Some (if b then t else []).
Proof. destruct b; auto. Qed.
Lemma ident_unescape s : forallb name_char s = true -> unescape s = Some s.
Proof.
  induction s as [|x s IH]; [reflexivity|]. cbn [forallb]. intros E. apply andb_prop in E as [A B]. cbn [unescape].
  unfold name_char, letter, digit in A. replace (x =? 92) with false by lia. replace ((x =? 34) || (x =? 10)) with false by lia. rewrite IH by exact B. reflexivity.
Qed.
Lemma words_named n T U : c_ident n -> reads (lit ", (uint8_t*) &m_apxDefinitionData[0], APX_DEFINITON_LEN, " ++ T) U (InPunct 41) ->
  words [stmt 3 (lit "apx_nodeData_create(&m_nodeData, """ ++ n ++ lit """, (uint8_t*) &m_apxDefinitionData[0], APX_DEFINITON_LEN, " ++ T)] =
  Some (tk "apx_nodeData_create(&m_nodeData," ++ [TStr n] ++ U ++ [TOp OSemi]).
Proof.
  intros I RT. pose proof (reads_string n n (ident_unescape n (proj1 (proj2 I)))) as R.
  assert (lit "apx_nodeData_create(&m_nodeData, """ ++ n ++ lit """, (uint8_t*) &m_apxDefinitionData[0], APX_DEFINITON_LEN, " ++ T
    = lit "apx_nodeData_create(&m_nodeData, " ++ ([QUOTE] ++ n ++ [QUOTE]) ++ (lit ", (uint8_t*) &m_apxDefinitionData[0], APX_DEFINITON_LEN, " ++ T)) as ->.
  { change (lit "apx_nodeData_create(&m_nodeData, """) with (lit "apx_nodeData_create(&m_nodeData, " ++ [QUOTE]). rewrite <- !app_assoc. reflexivity. }
  eapply words_eq; [eapply lx_stmt; [|  |lia]|].
  - eapply reads_app; [apply reads_lit; vm_compute; reflexivity| |reflexivity]. eapply reads_app; [exact R|exact RT|reflexivity].
  - reflexivity.
  - rewrite <- !app_assoc. reflexivity.
Qed.
Lemma words_create : c_ident (opt_text (c_node c)) ->
  words [stmt 3 (lit "apx_nodeData_create(&m_nodeData, """ ++ opt_text (c_node c)
              ++ lit """, (uint8_t*) &m_apxDefinitionData[0], APX_DEFINITON_LEN, "
              ++ (if 0 <? c_inlen c then
                    lit "&m_inPortdata[0], " ++ lit (if c_synced c then "&m_inPortSyncedFlags[0]" else "NULL") ++ lit ", APX_IN_PORT_DATA_LEN, "
                  else lit "0, 0, 0, ")
              ++ (if 0 <? c_outlen c then lit "&m_outPortdata[0], &m_outPortDirtyFlags[0], APX_OUT_PORT_DATA_LEN" else lit "0, 0, 0")
              ++ lit ")")] = Some create_toks.
Proof.
  intros I. unfold create_toks.
  destruct (0 <? c_inlen c), (0 <? c_outlen c), (c_synced c);
    (refine (eq_trans (words_named _ _ _ I _) _); [apply (reads_lit _ _ (InPunct 41)); vm_compute; reflexivity|reflexivity]).
Qed.
Lemma ident_handler n : c_ident n -> c_ident (n ++ lit "_inPortDataWritten").
Proof.
  intros (A & B & _). apply ident_long.
  - destruct n; [destruct A|exact A].
  - rewrite name_chars_app, B. reflexivity.
  - rewrite app_length. cbn. lia.
Qed.
Lemma words_handler : c_ident (opt_text (c_node c)) ->
  words [stmt 3 (lit "nodeDataHandler.inPortDataWritten = " ++ opt_text (c_node c) ++ lit "_inPortDataWritten")] = Some handler_toks.
Proof.
  intros I. pose proof (ident_handler _ I) as J. fold handler_name in J |- *.
  eapply words_eq; [eapply lx_stmt; [|  |lia]|].
  - eapply reads_app; [apply reads_lit; vm_compute; reflexivity|apply reads_name, J|]. rewrite <- (app_nil_r handler_name). apply parted_ident; [reflexivity|exact J].
  - reflexivity.
  - reflexivity.
Qed.
Lemma words_nullary (ret : string) (star : bool) (pre : string) (body : list (list tok * cs)) (l : list str) : forallb name_char (lit pre) = true -> (10 < length (lit pre))%nat -> c_ident (lit ret) ->
  match lit pre with [] => False | c :: _ => letter c = true end ->
  c_ident (c_name c) -> words l = Some (flat_map fst body) ->
  words ([lit ret ++ (if star then lit " * " else lit " ") ++ lit pre ++ c_name c ++ lit "(void)"; lit "{"] ++ l ++ [lit "}"; []]) = Some (fst (nullary ret star pre body)).
Proof.
  intros A B R F (N1 & N2 & _) W. unfold nullary. cbn [fst].
  assert (c_ident (lit pre ++ c_name c)) as I.
  { apply ident_long; [destruct (lit pre); [destruct F|exact F]|rewrite name_chars_app, A, N2; reflexivity|rewrite app_length; lia]. }
  assert (lx (lit ret ++ (if star then lit " * " else lit " ") ++ lit pre ++ c_name c ++ lit "(void)")
    ([TId (lit ret)] ++ (if star then [TOp OStar] else []) ++ [TId (lit pre ++ c_name c); TOp OLpar; TKw KVoid; TOp ORpar])) as H.
  { split; [apply (ident_directive [] _ _ R)|]. rewrite (app_assoc (lit pre)). apply (reads_lex _ _ (InPunct 41)).
    change [TId (lit pre ++ c_name c); TOp OLpar; TKw KVoid; TOp ORpar] with ([TId (lit pre ++ c_name c)] ++ [TOp OLpar; TKw KVoid; TOp ORpar]).
    eapply reads_app; [apply reads_name, R| |destruct star; apply closed_parted; try apply closed_word; reflexivity].
    destruct star; (eapply reads_app; [apply reads_lit; vm_compute; reflexivity| |apply parted_ident; [reflexivity|exact I]]);
      (eapply reads_app; [apply reads_name, I|apply reads_lit; vm_compute; reflexivity|apply closed_parted; [apply closed_word|reflexivity]]). }
  pose proof (words_app _ _ _ _ (words_line _ _ _ _ H (words_one (lit "{") [TOp OLbrc] (conj eq_refl eq_refl)))
    (words_app _ _ _ _ W (eq_refl : words [lit "}"; []] = Some [TOp ORbrc]))) as X.
  refine (eq_trans X _). f_equal. rewrite <- ?app_assoc. destruct star; reflexivity.
Qed.

Definition init_lines : list str :=
  (if c_callbacks c then [stmt 3 (lit "apx_nodeDataHandlerTable_t nodeDataHandler")] else [])
  ++ (if 0 <? c_inlen c then
        [stmt 3 (lit "memcpy(&m_inPortdata[0], &m_inPortInitData[0], APX_IN_PORT_DATA_LEN)")]
        ++ (if c_synced c then [stmt 3 (lit "memset(&m_inPortSyncedFlags[0], 0, sizeof(m_inPortSyncedFlags))")] else [])
      else [])
  ++ (if 0 <? c_outlen c then
        [stmt 3 (lit "memcpy(&m_outPortdata[0], &m_outPortInitData[0], APX_OUT_PORT_DATA_LEN)");
         stmt 3 (lit "memset(&m_outPortDirtyFlags[0], 0, sizeof(m_outPortDirtyFlags))")]
      else [])
  ++ [stmt 3 (lit "apx_nodeData_create(&m_nodeData, """ ++ opt_text (c_node c)
              ++ lit """, (uint8_t*) &m_apxDefinitionData[0], APX_DEFINITON_LEN, "
              ++ (if 0 <? c_inlen c then
                    lit "&m_inPortdata[0], " ++ lit (if c_synced c then "&m_inPortSyncedFlags[0]" else "NULL") ++ lit ", APX_IN_PORT_DATA_LEN, "
                  else lit "0, 0, 0, ")
              ++ (if 0 <? c_outlen c then lit "&m_outPortdata[0], &m_outPortDirtyFlags[0], APX_OUT_PORT_DATA_LEN" else lit "0, 0, 0")
              ++ lit ")")]
  ++ (if c_callbacks c then
        [stmt 3 (lit "memset(&nodeDataHandler, 0, sizeof(nodeDataHandler))");
         stmt 3 (lit "nodeDataHandler.inPortDataWritten = " ++ opt_text (c_node c) ++ lit "_inPortDataWritten");
         stmt 3 (lit "apx_nodeData_setHandlerTable(&m_nodeData, &nodeDataHandler)")]
      else [])
  ++ [stmt 3 (lit "return &m_nodeData")].
Ltac comp := vm_compute; reflexivity.
Lemma words_initlines : c_ident (opt_text (c_node c)) -> words init_lines = Some (flat_map fst init_list).
Proof.
  intros I. unfold init_lines, init_list. rewrite !flat_map_app.
  apply words_app; [destruct (c_callbacks c); comp|].
  apply words_app; [destruct (0 <? c_inlen c), (c_synced c); comp|].
  apply words_app; [destruct (0 <? c_outlen c); comp|].
  apply words_app; [rewrite (words_create I); cbn [flat_map fst]; rewrite app_nil_r; reflexivity|].
  apply words_app; [|comp].
  destruct (c_callbacks c); [|reflexivity].
  apply (words_app [stmt 3 (lit "memset(&nodeDataHandler, 0, sizeof(nodeDataHandler))")] [_; _]); [comp|].
  exact (words_app [_] [stmt 3 (lit "apx_nodeData_setHandlerTable(&m_nodeData, &nodeDataHandler)")] _ _ (words_handler I) ltac:(comp)).
Qed.
Lemma words_front version : okfile version ->
  words (source_front version c) = Some (flat_map utoks var_units ++ flat_map fst node_funs
    ++ flat_map (funtoks (lit "m_inPortdata")) (c_reads c) ++ flat_map (funtoks (lit "m_outPortdata")) (c_writes c)).
Proof.
  intros K. unfold source_front.
  apply w_nil.
  { apply (words_app [_] [[]] [] []); [|reflexivity]. apply words_one.
    replace (lit "/* " ++ opt_text (c_node c) ++ lit " has been autogenerated by py-apx generator " ++ version ++ lit " */")
      with (lit "/*" ++ (lit " " ++ opt_text (c_node c) ++ lit " has been autogenerated by py-apx generator " ++ version ++ lit " ") ++ lit "*/").
    2: { rewrite <- !app_assoc. reflexivity. }
    apply lx_comment. intros I. apply in_app_or in I as [I|I]; [cbn in I; intuition discriminate|]. apply in_app_or in I as [I|I].
    { destruct (of_node _ K) as (_ & N & _). rewrite forallb_forall in N. specialize (N _ I). discriminate. }
    apply in_app_or in I as [I|I]; [revert I; vm_compute; intuition discriminate|]. apply in_app_or in I as [I|I]; [exact (of_version _ K I)|].
    cbn in I. intuition discriminate. }
  apply w_nil; [comp|].
  apply w_nil; [apply w_skip; [reflexivity|]; apply w_skip; [reflexivity|]; apply w_skip; reflexivity|].
  apply w_nil; [destruct (c_callbacks c); [apply w_skip; reflexivity|reflexivity]|].
  apply w_nil; [comp|]. apply w_nil; [comp|].
  apply w_nil; [apply directives_map; reflexivity|].
  apply w_nil; [destruct (c_callbacks c); [|reflexivity]; apply (words_app [[]] _ [] []); [reflexivity|];
                apply (words_app _ _ [] []); [apply directives_map; reflexivity|]; apply (words_app [[]] _ [] []); [reflexivity|apply directives_map; reflexivity]|].
  apply w_nil; [reflexivity|]. apply w_nil; [comp|]. apply w_nil; [reflexivity|]. apply w_nil; [comp|].
  assert (words (flat_map (fun_lines (lit "m_inPortdata")) (c_reads c)) = Some (flat_map (funtoks (lit "m_inPortdata")) (c_reads c))) as WR.
  { apply words_map. intros f I. apply words_fun; [|pose proof (of_reads _ K) as F; rewrite Forall_forall in F; exact (F f I)].
    apply ident_long; [reflexivity|reflexivity|cbn; lia]. }
  assert (words (flat_map (fun_lines (lit "m_outPortdata")) (c_writes c)) = Some (flat_map (funtoks (lit "m_outPortdata")) (c_writes c))) as WW.
  { apply words_map. intros f I. apply words_fun; [|pose proof (of_writes _ K) as F; rewrite Forall_forall in F; exact (F f I)].
    apply ident_long; [reflexivity|reflexivity|cbn; lia]. }
  unfold var_units. rewrite !flat_map_app, <- !app_assoc.
  (* the variables *)
  apply words_app.
  { unfold out_units. destruct (0 <? c_outlen c); [|reflexivity].
    pose proof (words_app [lit "static const uint8_t m_outPortInitData[APX_OUT_PORT_DATA_LEN]= {"] _
      [TKw KStatic; TKw KConst; TType BU8; TId (lit "m_outPortInitData"); TOp OLbrk; TId (lit OUTLEN); TOp ORbrk; TOp OEq; TOp OLbrc] _ ltac:(comp)
      (words_app _ [lit "};"; []; lit "static uint8_t m_outPortdata[APX_OUT_PORT_DATA_LEN];"; lit "static uint8_t m_outPortDirtyFlags[APX_OUT_PORT_DATA_LEN];"]
         _ ([TOp ORbrc; TOp OSemi] ++ utoks (arr "m_outPortdata" OUTLEN) ++ utoks (arr "m_outPortDirtyFlags" OUTLEN)) (words_data _ _ (le_n _) (of_outs _ K)) ltac:(comp))) as X.
    rewrite X. cbn [flat_map utoks tab app]. rewrite <- !app_assoc. reflexivity. }
  apply words_app.
  { unfold in_units. destruct (0 <? c_inlen c); [|reflexivity].
    assert (words ([lit "};"; []; lit "static uint8_t m_inPortdata[APX_IN_PORT_DATA_LEN];"] ++ (if c_synced c then [lit "static uint8_t m_inPortSyncedFlags[APX_IN_PORT_DATA_LEN];"] else []))
      = Some ([TOp ORbrc; TOp OSemi] ++ utoks (arr "m_inPortdata" INLEN) ++ (if c_synced c then utoks (arr "m_inPortSyncedFlags" INLEN) else []))) as Y by (destruct (c_synced c); comp).
    pose proof (words_app [lit "static const uint8_t m_inPortInitData[APX_IN_PORT_DATA_LEN]= {"] _
      [TKw KStatic; TKw KConst; TType BU8; TId (lit "m_inPortInitData"); TOp OLbrk; TId (lit INLEN); TOp ORbrk; TOp OEq; TOp OLbrc] _ ltac:(comp)
      (words_app _ _ _ _ (words_data _ _ (le_n _) (of_ins _ K)) Y)) as X.
    rewrite X. destruct (c_synced c); cbn [flat_map utoks tab arr app]; rewrite <- !app_assoc; reflexivity. }
  cbn [flat_map utoks app]. rewrite app_nil_r, <- !app_assoc.
  match goal with |- words (?a :: ?b :: ?r) = Some (TKw KStatic :: _ :: _ :: _ :: ?t) =>
    refine (words_app [a; b] r [TKw KStatic; TId (lit "apx_nodeData_t"); TId (lit "m_nodeData"); TOp OSemi; TKw KStatic; TKw KConst; TKw KChar; TOp OStar; TId (lit "m_apxDefinitionData"); TOp OEq] _ ltac:(comp) _) end.
  rewrite (app_assoc (map TStr ds)). apply words_app; [apply words_literals; [exact (of_lit _ K)|exact (of_lits _ K)]|].
  cbn [app]. apply (w_nil [[]]); [reflexivity|]. apply w_nil; [comp|].
  (* the functions of the node *)
  pose proof (of_name _ K) as CN.
  assert (c_ident (lit "apx_nodeData_t")) as T1 by (apply ident_long; [reflexivity|reflexivity|cbn; lia]).
  assert (c_ident (lit "bool")) as T2 by (split; [reflexivity|split; [reflexivity|intros I; apply in_map_iff in I as (q & E & I); revert E; cbn [keywords In] in I; repeat destruct I as [<-|I]; [..|destruct I]; discriminate]]).
  pose proof (words_nullary "apx_nodeData_t" true "ApxNode_Init_" init_list init_lines eq_refl ltac:(cbn; lia) T1 eq_refl CN (words_initlines (of_node _ K))) as W1.
  pose proof (words_nullary "apx_nodeData_t" true "ApxNode_GetNodeData_" [fixed "return &m_nodeData;"] [stmt 3 (lit "return &m_nodeData")] eq_refl ltac:(cbn; lia) T1 eq_refl CN ltac:(comp)) as W2.
  assert (words [stmt 3 (lit (match (0 <? c_inlen c)%Z, (0 <? c_outlen c)%Z with
                   | true, true => "return ( apx_nodeData_isInPortDataOpen(&m_nodeData) && apx_nodeData_isOutPortDataOpen(&m_nodeData) )"
                   | true, false => "return apx_nodeData_isInPortDataOpen(&m_nodeData)"
                   | false, true => "return apx_nodeData_isOutPortDataOpen(&m_nodeData)"
                   | false, false => "return false"
                   end))] = Some (flat_map fst [connected])) as WC by (unfold connected; destruct (0 <? c_inlen c), (0 <? c_outlen c); comp).
  pose proof (words_nullary "bool" false "ApxNode_IsConnected_" [connected] _ eq_refl ltac:(cbn; lia) T2 eq_refl CN WC) as W3.
  refine (eq_trans (f_equal words _) (eq_trans (words_app _ _ _ _ W1 (words_app _ _ _ _ W2 (words_app _ _ _ _ W3 (words_app _ _ _ _ WR WW)))) _)).
  - unfold init_lines. rewrite <- !app_assoc. reflexivity.
  - cbn [node_funs flat_map]. rewrite <- !app_assoc. reflexivity.
Qed.

Lemma upto_semi_app a r : ~ In (TOp OSemi) a -> upto_semi (a ++ TOp OSemi :: r) = Some (a, r).
Proof.
  induction a as [|x a IH]; intros N; [reflexivity|]. cbn [app]. cbn [In] in N.
  assert (upto_semi (x :: a ++ TOp OSemi :: r) = let! (b, r) := upto_semi (a ++ TOp OSemi :: r) in Some (x :: b, r)) as ->.
  { destruct x as [| | | |[]| |]; try reflexivity. exfalso. tauto. }
  rewrite IH by tauto. reflexivity.
Qed.
Definition other (u : unit_) : Prop :=
  match u with UOther t => ~ In (TOp OSemi) t /\ (forall k r, p_head k (t ++ r) = None) /\ t <> [] | _ => False end.
Lemma F_units l us rest : Forall other l -> EF rest us -> EF (flat_map utoks l ++ rest) (l ++ us).
Proof.
  intros F E. induction F as [|u l O F IH]; [exact E|]. destruct u as [| |t]; try destruct O. destruct H0 as [H1 H2]. cbn [flat_map utoks app]. rewrite <- !app_assoc. cbn [app].
  eapply F_other; [destruct t; [congruence|discriminate]|intros k; apply H1|apply upto_semi_app; assumption|exact IH].
Qed.
Lemma nums_semi l : ~ In (TOp OSemi) (nums l ++ [TOp ORbrc]).
Proof.
  intros I. apply in_app_or in I as [I|[I|[]]]; [|discriminate]. revert I. induction l as [|z l IH]; [intros []|].
  destruct l as [|y l]; [intros [I|[]]; discriminate|]. change (nums (z :: y :: l)) with (TNum z :: TOp OComma :: nums (y :: l)). intros [I|[I|I]]; try discriminate. exact (IH I).
Qed.
Lemma tab_other n m l : other (tab n m l).
Proof.
  unfold tab. split; [|split; [reflexivity|discriminate]]. intros I. repeat (destruct I as [I|I]; [discriminate|]). exact (nums_semi l I).
Qed.
Lemma arr_other n m : other (arr n m).
Proof. unfold arr. split; [cbn [In]; intuition discriminate|split; [reflexivity|discriminate]]. Qed.
Lemma var_units_other : Forall other var_units.
Proof.
  unfold var_units. rewrite !Forall_app. repeat apply conj.
  - unfold out_units. destruct (0 <? c_outlen c); repeat constructor; try apply tab_other; try apply arr_other.
  - unfold in_units. destruct (0 <? c_inlen c); [|constructor]. rewrite Forall_app. split; [|destruct (c_synced c)]; repeat constructor; try apply tab_other; try apply arr_other.
  - constructor; [|constructor; [|constructor]].
    + split; [cbn [In]; intuition discriminate|split; [reflexivity|discriminate]].
    + split; [|split; [reflexivity|discriminate]]. cbn [app In]. intros I. repeat (destruct I as [I|I]; [discriminate|]). apply in_map_iff in I as (x & I & _). discriminate.
Qed.

Definition pairs_ok (p : list tok * cs) : Prop :=
  (forall r, ES (fst p ++ r) (snd p) r) /\ (forall r, match fst p ++ r with TOp ORbrc :: _ => False | _ => True end).
Lemma B_pairs l r : Forall pairs_ok l -> EB (flat_map fst l ++ TOp ORbrc :: r) (map snd l) r.
Proof.
  intros F. rewrite <- (app_nil_r (map snd l)). rewrite Forall_forall in F. apply B_list; [intros x I; apply (F x I)|intros x I; apply (F x I)|apply B_nil].
Qed.
Ltac one_pair := split; [apply (S_fixed 80); intros; vm_compute; reflexivity|intros; exact Logic.I].
Lemma init_ok : Forall pairs_ok init_list.
Proof.
  unfold init_list. rewrite !Forall_app. repeat apply conj.
  - destruct (c_callbacks c); [|constructor]. constructor; [one_pair|constructor].
  - destruct (0 <? c_inlen c); [|constructor]. apply Forall_app. split; [constructor; [one_pair|constructor]|]. destruct (c_synced c); [|constructor]. constructor; [one_pair|constructor].
  - destruct (0 <? c_outlen c); [|constructor]. constructor; [one_pair|]. constructor; [one_pair|constructor].
  - constructor; [|constructor]. unfold create_toks. destruct (0 <? c_inlen c), (0 <? c_outlen c), (c_synced c); one_pair.
  - destruct (c_callbacks c); [|constructor]. constructor; [one_pair|]. constructor; [one_pair|]. constructor; [one_pair|constructor].
  - constructor; [one_pair|constructor].
Qed.
Lemma F_nullary ret st pre body us rest : Forall pairs_ok body -> EF rest us -> EF (fst (nullary ret st pre body) ++ rest) (snd (nullary ret st pre body) :: us).
Proof.
  intros F E. unfold nullary. cbn [fst snd]. rewrite <- !app_assoc. eapply F_fun; [discriminate| |apply (B_pairs body rest F)|exact E].
  apply (evl_at _ _ 0). intros k. destruct st; reflexivity.
Qed.
Lemma F_nodes us rest : EF rest us -> EF (flat_map fst node_funs ++ rest) (map snd node_funs ++ us).
Proof.
  intros E. cbn [node_funs flat_map map]. rewrite <- !app_assoc. cbn [app].
  apply F_nullary; [exact init_ok|]. apply F_nullary; [constructor; [one_pair|constructor]|]. apply F_nullary; [|exact E].
  constructor; [|constructor]. unfold connected. destruct (0 <? c_inlen c), (0 <? c_outlen c); one_pair.
Qed.
Lemma F_cfuns buf l us rest : Forall okfun l -> EF rest us -> EF (flat_map (funtoks buf) l ++ rest) (map (funit buf) l ++ us).
Proof.
  intros F E. induction F as [|f l O F IH]; [exact E|]. cbn [flat_map map app]. rewrite <- app_assoc. apply F_cfun; assumption.
Qed.

(** ** The notification function *)

Definition mtoks (v : str * option str * option Z) : list tok :=
  [TId (opt_text (snd (fst v))); TId (fst (fst v))] ++ (match snd v with Some n => ab n | None => [] end) ++ [TOp OSemi].
Definition mdecl (v : str * option str * option Z) : cdecl := (opt_text (snd (fst v)), false, fst (fst v), snd v).
Definition idx (k : cbcall) : list tok := if cl_array k then ab 0 else [].
Definition mx (k : cbcall) : cx := if cl_array k then XIndex (XField (XId (lit "data")) (cl_port k)) (XNum 0) else XField (XId (lit "data")) (cl_port k).
Definition mem_toks (k : cbcall) : list tok := [TId (lit "data"); TOp ODot; TId (cl_port k)] ++ idx k.
Definition read_pair (k : cbcall) : list tok * cs :=
  ([TOp OLpar; TKw KVoid; TOp ORpar; TId (cl_read k); TOp OLpar; TOp OAmp] ++ mem_toks k ++ [TOp ORpar; TOp OSemi],
   GExpr (XVoid (XCall (XId (cl_read k)) [XAddr (mx k)]))).
Definition call_pair (k : cbcall) : list tok * cs :=
  ([TId (cl_func k); TOp OLpar] ++ (if cl_ref k then [TOp OAmp] else []) ++ mem_toks k ++ [TOp ORpar; TOp OSemi],
   GExpr (XCall (XId (cl_func k)) [if cl_ref k then XAddr (mx k) else mx k])).
Definition ppairs (x : cbpart) : list (list tok * cs) :=
  match x with
  | PComment _ => []
  | PCase l n k =>
    [([TKw KCase; TId l; TOp OColon], GCase (XId l))] ++ (match k with Some k => [read_pair k; call_pair k] | None => [] end)
    ++ [([TId (lit "offset"); TOp OAddEq; TId n; TOp OSemi], GExpr (XAddTo (XId (lit "offset")) (XId n))); ([TKw KBreak; TOp OSemi], GBreak)]
  end.
Definition switch_pairs (parts : list cbpart) : list (list tok * cs) :=
  flat_map ppairs parts ++ [(tk "default:", GDefault); fixed "offset = endOffset;"].
Definition while_pair (parts : list cbpart) : list tok * cs :=
  (tk "while (offset < endOffset) { switch(offset) {" ++ flat_map fst (switch_pairs parts) ++ [TOp ORbrc; TOp ORbrc],
   GWhile (XBin OLess (XId (lit "offset")) (XId (lit "endOffset"))) (GBlock [GSwitch (XId (lit "offset")) (GBlock (map snd (switch_pairs parts)))])).
Definition guard_pair (g : str) : list tok * cs :=
  (tk "if (offset <" ++ [TId g; TOp ORpar; TOp OLbrc; TId (lit "offset"); TOp OEq; TId g; TOp OSemi; TOp ORbrc],
   GIf (XBin OLess (XId (lit "offset")) (XId g)) (GBlock [GExpr (XAssign (XId (lit "offset")) (XId g))])).
Definition union_pair (vars : list (str * option str * option Z)) : list tok * cs :=
  (tk "union data_tag {" ++ flat_map mtoks vars ++ [TOp ORbrc; TId (lit "data"); TOp OSemi], GUnion (lit "data_tag") (map mdecl vars) (lit "data")).
Definition npairs (x : notifier) : list (list tok * cs) :=
  match x with
  | NoNotifier => []
  | Ignores => [fixed "(void)arg;"; fixed "(void)nodeData;"; fixed "(void)offset;"; fixed "(void)len;"]
  | Switch guard parts vars =>
    [union_pair vars; fixed "uint32_t endOffset = offset + len;"; fixed "(void)arg;"; fixed "(void)nodeData;"]
    ++ (match guard with Some g => [guard_pair g] | None => [] end) ++ [while_pair parts]
  end.
Definition nhead : list tok :=
  [TKw KVoid; TId (notify_name (c_name c))] ++ tk "(void *arg, apx_nodeData_t *nodeData, uint32_t offset, uint32_t len)".
Definition ntoks (x : notifier) : list tok :=
  match x with NoNotifier => [] | _ => nhead ++ [TOp OLbrc] ++ flat_map fst (npairs x) ++ [TOp ORbrc] end.
Definition nunits (x : notifier) : list unit_ :=
  match x with NoNotifier => [] | _ => [UFun (notify_proto (notify_name (c_name c))) (map snd (npairs x))] end.

Ltac nchain :=
  lazymatch goal with
  | |- reads (_ ++ _) _ _ => eapply reads_app; [nleaf|nchain|nside]
  | |- _ => nleaf
  end
with nleaf :=
  lazymatch goal with
  | |- reads (bracket _) _ _ => apply reads_bracket; (assumption || lia)
  | |- reads (lit _) _ _ => apply reads_lit; vm_compute; reflexivity
  | |- _ => first [eassumption | apply reads_name; assumption]
  end
with nside :=
  lazymatch goal with
  | |- parted _ (bracket _) => apply closed_parted; [first [assumption|apply closed_number|apply closed_word|apply closed_brk|apply closed_par|apply closed_between]|reflexivity]
  | |- parted _ (lit _ ++ _) => first [(apply closed_parted; [first [assumption|apply closed_number|apply closed_word|apply closed_brk|apply closed_par|apply closed_between]|reflexivity]) | reflexivity]
  | |- parted _ (lit _) => first [(apply closed_parted; [first [assumption|apply closed_number|apply closed_word|apply closed_brk|apply closed_par|apply closed_between]|reflexivity]) | reflexivity]
  | |- parted _ (?s ++ _) => apply parted_ident; [first [reflexivity|apply two_name]|assumption]
  | |- parted _ ?s => rewrite <- (app_nil_r s); apply parted_ident; [first [reflexivity|apply two_name]|assumption]
  end.
Ltac nstmt := eapply words_eq; [eapply lx_stmt; [nchain|first [reflexivity|apply closed_word]; reflexivity|lia]|reflexivity].

Lemma lex_line_comment s : lex InLineComment s = Some [].
Proof. induction s as [|x s IH]; [reflexivity|]. cbn [lex goes_on obind fst snd]. rewrite IH. reflexivity. Qed.
Lemma words_part x : parts_ok x -> words (part_lines x) = Some (flat_map fst (ppairs x)).
Proof.
  destruct x as [l n k|l]; cbn [parts_ok part_lines ppairs]; intros O.
  - destruct O as (A & B & C). rewrite !flat_map_app. apply words_app.
    { eapply words_eq; [eapply lx_line; [nchain|lia]|reflexivity]. }
    apply words_app.
    + destruct k as [k|]; [|reflexivity]. destruct C as (P & R & F). cbn [flat_map]. rewrite app_nil_r.
      apply (words_app [_] [_]); unfold read_pair, call_pair, mem_toks, idx; cbn [fst]; destruct (cl_array k); try destruct (cl_ref k);
        cbn [app]; rewrite ?app_nil_r; nstmt.
    + apply (words_app [_] [_]); [nstmt|comp].
  - apply words_one. split; [reflexivity|]. unfold line. rewrite lex_spaces.
    apply (lex_app (lit "//") Between InLineComment (lit "case " ++ l ++ lit ":")); [reflexivity|apply lex_line_comment].
Qed.
Lemma words_var v : var_ok v -> words [stmt 6 (opt_text (snd (fst v)) ++ lit " " ++ fst (fst v) ++ match snd v with Some n => bracket n | None => [] end)] = Some (mtoks v).
Proof.
  destruct v as [[n t] [a|]]; unfold var_ok, mtoks; cbn [fst snd]; intros (A & B & C); rewrite ?app_nil_r; nstmt.
Qed.
Lemma words_vars vars : Forall var_ok vars ->
  words (map (fun v => stmt 6 (opt_text (snd (fst v)) ++ lit " " ++ fst (fst v) ++ match snd v with Some n => bracket n | None => [] end)) vars) = Some (flat_map mtoks vars).
Proof.
  intros F. induction F as [|v l O F IH]; [reflexivity|]. cbn [map flat_map]. exact (words_app [_] _ _ _ (words_var v O) IH).
Qed.
Lemma words_guard g : c_ident g -> words [line 3 (lit "if (offset < " ++ g ++ lit ")"); line 3 (lit "{"); stmt 6 (lit "offset = " ++ g); line 3 (lit "}")] = Some (fst (guard_pair g)).
Proof.
  intros I. refine (eq_trans (words_app [_] [_; _; _] (tk "if (offset <" ++ [TId g; TOp ORpar]) _ _ (words_app [line 3 (lit "{")] [_; _] [TOp OLbrc] _ ltac:(comp)
    (words_app [_] [line 3 (lit "}")] [TId (lit "offset"); TOp OEq; TId g; TOp OSemi] [TOp ORbrc] _ ltac:(comp)))) _).
  - eapply words_eq; [eapply lx_line; [nchain|lia]|reflexivity].
  - nstmt.
  - reflexivity.
Qed.
Lemma words_notifier x : c_ident (c_name c) -> notifier_ok x -> words (notifier_lines (c_name c) x) = Some (ntoks x).
Proof.
  intros CN O.
  assert (lx (lit "void " ++ c_name c ++ lit "_inPortDataWritten(void *arg, apx_nodeData_t *nodeData, uint32_t offset, uint32_t len)") nhead) as H.
  { split; [reflexivity|]. pose proof (ident_handler _ CN) as J. fold (notify_name (c_name c)) in J.
    change (lit "_inPortDataWritten(void *arg, apx_nodeData_t *nodeData, uint32_t offset, uint32_t len)")
      with (lit "_inPortDataWritten" ++ lit "(void *arg, apx_nodeData_t *nodeData, uint32_t offset, uint32_t len)").
    rewrite (app_assoc (c_name c)). fold (notify_name (c_name c)). apply (reads_lex _ _ (InPunct 41)). unfold nhead.
    eapply reads_eq; [nchain|reflexivity]. }
  pose proof (words_line _ _ [lit "{"] [TOp OLbrc] H eq_refl) as HH.
  destruct x as [| |guard parts vars]; cbn [notifier_lines ntoks]; [reflexivity| |].
  - refine (eq_trans (words_app _ _ _ _ HH (eq_refl : words (map (stmt 3) [lit "(void)arg"; lit "(void)nodeData"; lit "(void)offset"; lit "(void)len"] ++ [lit "}"]) = Some (flat_map fst (npairs Ignores) ++ [TOp ORbrc]))) _).
    rewrite <- !app_assoc. reflexivity.
  - destruct O as (Og & Op & Ov).
    assert (words (match guard with
       | Some g => [line 3 (lit "if (offset < " ++ g ++ lit ")"); line 3 (lit "{"); stmt 6 (lit "offset = " ++ g); line 3 (lit "}")]
       | None => []
       end) = Some (flat_map fst (match guard with Some g => [guard_pair g] | None => [] end))) as WG.
    { destruct guard as [g|]; [|reflexivity]. rewrite (words_guard g Og). cbn [flat_map]. rewrite app_nil_r. reflexivity. }
    assert (words (flat_map part_lines parts) = Some (flat_map (fun x => flat_map fst (ppairs x)) parts)) as WP.
    { apply words_map. intros x I. apply words_part. rewrite Forall_forall in Op. exact (Op x I). }
    refine (eq_trans (words_app _ _ _ _ HH (words_app _ _ _ _ (eq_refl : words [line 3 (lit "union data_tag"); line 3 (lit "{")] = Some (tk "union data_tag {"))
      (words_app _ _ _ _ (words_vars vars Ov) (words_app _ _ _ _ (eq_refl : words [stmt 3 (lit "} data"); stmt 3 (lit "uint32_t endOffset = offset + len"); [];
        stmt 3 (lit "(void)arg"); stmt 3 (lit "(void)nodeData"); []] = Some (tk "} data; uint32_t endOffset = offset + len; (void)arg; (void)nodeData;"))
      (words_app _ _ _ _ WG (words_app _ _ _ _ (eq_refl : words [line 3 (lit "while (offset < endOffset)"); line 3 (lit "{"); line 6 (lit "switch(offset)"); line 6 (lit "{")] = Some (tk "while (offset < endOffset) { switch(offset) {"))
      (words_app _ _ _ _ WP (eq_refl : words [line 6 (lit "default:"); stmt 9 (lit "offset = endOffset"); line 6 (lit "}"); line 3 (lit "}"); lit "}"] = Some (tk "default: offset = endOffset; }}}"))))))))) _).
    cbn [npairs]. rewrite !flat_map_app. cbn [flat_map union_pair while_pair fst]. unfold switch_pairs. rewrite flat_map_app.
    assert (flat_map fst (flat_map ppairs parts) = flat_map (fun x => flat_map fst (ppairs x)) parts) as ->.
    { clear. induction parts as [|x l IH]; [reflexivity|]. cbn [flat_map]. rewrite flat_map_app, IH. reflexivity. }
    rewrite <- !app_assoc. reflexivity.
Qed.

Definition EM t l r := evl (fun k => p_members k t) (l, r).
Lemma M_nil r : EM (TOp ORbrc :: r) [] r.
Proof. exists 1%nat. intros [|k] L; [lia|]. reflexivity. Qed.
Lemma M_cons v t l r : EM t l r -> EM (mtoks v ++ t) (mdecl v :: l) r.
Proof.
  intros (n & H). exists (S n). intros [|k] L; [lia|]. specialize (H k ltac:(lia)). destruct v as [[x y] [a|]]; unfold mtoks, mdecl; cbn [fst snd app ab p_members p_decl type_name obind expect];
    rewrite H; reflexivity.
Qed.
Lemma M_list vars r : EM (flat_map mtoks vars ++ TOp ORbrc :: r) (map mdecl vars) r.
Proof. induction vars as [|v l IH]; [apply M_nil|]. cbn [flat_map map]. rewrite <- app_assoc. apply M_cons, IH. Qed.
Lemma S_union vars r : ES (fst (union_pair vars) ++ r) (snd (union_pair vars)) r.
Proof.
  destruct (M_list vars (TId (lit "data") :: TOp OSemi :: r)) as (n & H). exists (S n). intros [|k] L; [lia|]. unfold union_pair. cbn [fst snd]. rewrite <- !app_assoc.
  change (tk "union data_tag {") with [TKw KUnion; TId (lit "data_tag"); TOp OLbrc]. cbn [app p_stmt]. cbn [app] in H. rewrite H by lia. reflexivity.
Qed.
Lemma S_while t a t1 b r : EE t a (TOp ORpar :: t1) -> ES t1 b r -> ES (TKw KWhile :: TOp OLpar :: t) (GWhile a b) r.
Proof. intros (n1 & H1) (n2 & H2). exists (S (n1 + n2)). intros [|k] L; [lia|]. cbn [p_stmt expect obind]. rewrite H1 by lia. cbn [obind expect]. rewrite H2 by lia. reflexivity. Qed.
Lemma S_switch t a t1 b r : EE t a (TOp ORpar :: t1) -> ES t1 b r -> ES (TKw KSwitch :: TOp OLpar :: t) (GSwitch a b) r.
Proof. intros (n1 & H1) (n2 & H2). exists (S (n1 + n2)). intros [|k] L; [lia|]. cbn [p_stmt expect obind]. rewrite H1 by lia. cbn [obind expect]. rewrite H2 by lia. reflexivity. Qed.
Lemma S_if t a t1 b r : EE t a (TOp ORpar :: t1) -> ES t1 b r -> match r with TKw KOther :: _ => False | _ => True end -> ES (TKw KIf :: TOp OLpar :: t) (GIf a b) r.
Proof.
  intros (n1 & H1) (n2 & H2) N. exists (S (n1 + n2)). intros [|k] L; [lia|]. cbn [p_stmt expect obind]. rewrite H1 by lia. cbn [obind expect]. rewrite H2 by lia. cbn [obind].
  destruct r as [|[| | | | |[]|] r]; try reflexivity. destruct N.
Qed.
Lemma part_pairs x : Forall pairs_ok (ppairs x).
Proof.
  destruct x as [l n k|l]; [|constructor]. cbn [ppairs]. rewrite !Forall_app. repeat apply conj.
  - constructor; [one_pair|constructor].
  - destruct k as [k|]; [|constructor]. constructor; [|constructor; [|constructor]].
    + unfold read_pair, mem_toks, idx, mx. destruct (cl_array k); one_pair.
    + unfold call_pair, mem_toks, idx, mx. destruct (cl_array k), (cl_ref k); one_pair.
  - constructor; [one_pair|]. constructor; [one_pair|constructor].
Qed.
Lemma switch_ok parts : Forall pairs_ok (switch_pairs parts).
Proof.
  unfold switch_pairs. rewrite Forall_app. split.
  - induction parts as [|x l IH]; [constructor|]. cbn [flat_map]. rewrite Forall_app. split; [apply part_pairs|exact IH].
  - constructor; [one_pair|]. constructor; [one_pair|constructor].
Qed.
Lemma while_ok parts : pairs_ok (while_pair parts).
Proof.
  split; [|intros; exact Logic.I]. intros r. unfold while_pair. cbn [fst snd]. rewrite <- !app_assoc.
  change (tk "while (offset < endOffset) { switch(offset) {") with
    [TKw KWhile; TOp OLpar; TId (lit "offset"); TOp OLess; TId (lit "endOffset"); TOp ORpar; TOp OLbrc; TKw KSwitch; TOp OLpar; TId (lit "offset"); TOp ORpar; TOp OLbrc].
  cbn [app]. eapply S_while.
  - eapply (E_bin OLess 1); [reflexivity|lia|apply U_id, P_bin; reflexivity|apply U_id, P_stop; reflexivity|reflexivity].
  - apply S_block. eapply B_cons; [exact Logic.I| |apply B_nil]. eapply S_switch; [apply E_unary; [apply U_id, P_stop; reflexivity|reflexivity]|].
    apply S_block. apply B_pairs, switch_ok.
Qed.
Lemma npairs_ok x : forall r, EB (flat_map fst (npairs x) ++ TOp ORbrc :: r) (map snd (npairs x)) r.
Proof.
  intros r. destruct x as [| |guard parts vars]; cbn [npairs].
  - apply B_nil.
  - apply B_pairs. constructor; [one_pair|]. constructor; [one_pair|]. constructor; [one_pair|]. constructor; [one_pair|constructor].
  - cbn [app flat_map map]. rewrite <- !app_assoc. cbn [app]. eapply B_cons; [exact Logic.I|apply S_union|].
    assert (forall s r, pairs_ok (fixed s) -> forall l q, EB r l q -> EB (fst (fixed s) ++ r) (snd (fixed s) :: l) q) as FX.
    { intros s q [A B] l u E. eapply B_cons; [apply B|apply A|exact E]. }
    apply FX; [one_pair|]. apply FX; [one_pair|]. apply FX; [one_pair|].
    assert (EB (flat_map fst [while_pair parts] ++ TOp ORbrc :: r) (map snd [while_pair parts]) r) as W by (apply B_pairs; constructor; [apply while_ok|constructor]).
    cbn [flat_map map] in W. rewrite <- app_assoc in W. cbn [app] in W.
    destruct guard as [g|]; [|cbn [app flat_map map]; rewrite <- ?app_assoc; exact W]. cbn [app flat_map map]. rewrite <- !app_assoc. cbn [app].
    eapply B_cons; [exact Logic.I| |exact W].
    unfold guard_pair. cbn [fst snd app]. change (tk "if (offset <") with [TKw KIf; TOp OLpar; TId (lit "offset"); TOp OLess]. cbn [app].
    eapply S_if; [eapply (E_bin OLess 1); [reflexivity|lia|apply U_id, P_bin; reflexivity|apply U_id, P_stop; reflexivity|reflexivity]| |exact Logic.I].
    apply S_block. eapply B_cons; [exact Logic.I| |apply B_nil]. apply S_expr; [reflexivity|].
    eapply E_assign; [apply U_id, P_stop; reflexivity|]. apply E_unary; [apply U_id, P_stop; reflexivity|reflexivity].
Qed.
Lemma F_notifier x : EF (ntoks x) (nunits x).
Proof.
  assert (forall x, EF (nhead ++ [TOp OLbrc] ++ flat_map fst (npairs x) ++ [TOp ORbrc]) [UFun (notify_proto (notify_name (c_name c))) (map snd (npairs x))]) as H.
  { intros y. eapply F_fun; [discriminate| |apply npairs_ok|apply F_nil]. apply (evl_at _ _ 10). intros k. reflexivity. }
  destruct x; [apply F_nil|apply H|apply H].
Qed.

Definition file_units : list unit_ :=
  var_units ++ map snd node_funs ++ map (funit (lit "m_inPortdata")) (c_reads c) ++ map (funit (lit "m_outPortdata")) (c_writes c) ++ nunits (c_notifier c).
Lemma source_reads version : okfile version -> is_c (source_lines version c) file_units.
Proof.
  intros K. exists ((flat_map utoks var_units ++ flat_map fst node_funs
    ++ flat_map (funtoks (lit "m_inPortdata")) (c_reads c) ++ flat_map (funtoks (lit "m_outPortdata")) (c_writes c)) ++ ntoks (c_notifier c)).
  assert (EF ((flat_map utoks var_units ++ flat_map fst node_funs
    ++ flat_map (funtoks (lit "m_inPortdata")) (c_reads c) ++ flat_map (funtoks (lit "m_outPortdata")) (c_writes c)) ++ ntoks (c_notifier c)) file_units) as (n & H).
  { rewrite <- !app_assoc. apply F_units; [apply var_units_other|]. apply F_nodes. apply F_cfuns; [exact (of_reads _ K)|]. apply F_cfuns; [exact (of_writes _ K)|]. apply F_notifier. }
  exists n. split; [|exact H]. unfold source_lines. apply words_app; [apply words_front, K|].
  rewrite <- (app_nil_r (ntoks _)). apply words_app; [apply words_notifier; [exact (of_name _ K)|exact (of_notifier _ K)]|comp].
Qed.
End Source.
