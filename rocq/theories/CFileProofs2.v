(** Proofs about generated files as programs: macros, tables, initializing, new input
    (CFileSpec.v). *)
From Coq Require Import ZifyBool ZifyNat Lia.
From Verif Require Import Py PyLemmas TypesModel TextModel TextProofs AttrModel NodeModel VmModel TypesSpec CompilerModel
  NodeDataModel NodeDataSpec GenModel GenSpec GenProofs GenFilesModel ComModel CTextSpec CTextProofs CFileSpec CFileProofs.
Ltac Zify.zify_post_hook ::= Z.div_mod_to_equations.

Lemma is_c_unique l us us' : is_c l us -> is_c l us' -> us = us'.
Proof.
  intros (t & n & W & P) (t' & n' & W' & P'). rewrite W in W'. injection W' as <-.
  specialize (P (n + n')%nat ltac:(lia)). specialize (P' (n + n')%nat ltac:(lia)). congruence.
Qed.

Lemma dec_str_nonneg z : 0 <= z -> dec_str z = dec_nat z.
Proof. intros Z. unfold dec_str. replace (z <? 0) with false by lia. reflexivity. Qed.
Lemma NoDup_app_r {A} (a b : list A) : NoDup (a ++ b) -> NoDup b.
Proof. induction a as [|x a IH]; [tauto|]. cbn [app]. inversion 1; auto. Qed.

(** ** Functions *)

Definition fun_name (u : unit_) : list str := match u with UFun f _ => [cp_name f] | _ => [] end.
Definition fun_names (us : list unit_) : list str := flat_map fun_name us.
Lemma no_function us name : ~ In name (fun_names us) -> filter (fun u => match u with UFun f _ => str_eqb (cp_name f) name | _ => false end) us = [].
Proof.
  induction us as [|u us IH]; [reflexivity|]. unfold fun_names. cbn [flat_map filter]. rewrite in_app_iff. intros N. rewrite IH by tauto.
  destruct u as [f b| |]; try reflexivity. cbn [fun_name In] in N. destruct (str_eqb (cp_name f) name) eqn:E; [|reflexivity].
  apply str_eqb_eq in E. tauto.
Qed.
Lemma function_one us f b : NoDup (fun_names us) -> In (UFun f b) us -> function us (cp_name f) = Some (UFun f b).
Proof.
  intros N I. unfold function. assert (filter (fun u => match u with UFun g _ => str_eqb (cp_name g) (cp_name f) | _ => false end) us = [UFun f b]) as ->; [|reflexivity].
  induction us as [|u us IH]; [destruct I|]. unfold fun_names in N. cbn [flat_map] in N. cbn [filter]. destruct I as [->|I].
  - rewrite str_eqb_refl. cbn [fun_name app] in N. inversion N; subst. rewrite no_function by assumption. reflexivity.
  - assert (NoDup (fun_names us)) as N' by (exact (NoDup_app_r _ _ N)). rewrite (IH N' I).
    destruct u as [g d| |]; try reflexivity. destruct (str_eqb (cp_name g) (cp_name f)) eqn:E; [|reflexivity].
    apply str_eqb_eq in E. cbn [fun_name app] in N. inversion N as [|? ? X]; subst. exfalso. apply X. apply in_flat_map. exists (UFun f b). split; [exact I|]. rewrite E. left. reflexivity.
Qed.

(** ** Macros *)

Lemma macros_app a b : macros (a ++ b) = macros a ++ macros b.
Proof. apply flat_map_app. Qed.
Lemma quiet_line x : directive x = false -> macro_line x = [].
Proof. destruct x as [|d x]; [reflexivity|]. cbn [directive macro_line]. intros ->. reflexivity. Qed.
Lemma quiet l : Forall (fun x => directive x = false) l -> macros l = [].
Proof. induction 1 as [|x l D _ IH]; [reflexivity|]. unfold macros. cbn [flat_map]. rewrite (quiet_line x D). exact IH. Qed.
Lemma macro_include s : macro_line (lit "#include " ++ s) = [].
Proof.
  change (macro_line (lit "#include " ++ s)) with
    (match lex Between (lit "include " ++ s) with Some [TId d; TId n; TNum z] => if is "define" d then [(n, z)] else [] | _ => [] end).
  assert (lex Between (lit "include " ++ s) = let? u := lex Between s in Some (TId (lit "include") :: u)) as ->.
  { change (lex Between (lit "include " ++ s)) with
      (let? u := (let? u := (let? u := (let? u := (let? u := (let? u := (let? u := (let? u := lex Between s in Some ([TId (lit "include")] ++ u)) in Some ([] ++ u)) in Some ([] ++ u)) in Some ([] ++ u)) in Some ([] ++ u)) in Some ([] ++ u)) in Some ([] ++ u)) in Some ([] ++ u)).
    destruct (lex Between s); reflexivity. }
  destruct (lex Between s) as [[|[] [|[] [|]]]|]; reflexivity.
Qed.
Lemma macro_define n z : c_ident n -> 0 <= z -> macro_line (define (n, z)) = [(n, z)].
Proof.
  intros I Z. unfold define. cbn [fst snd].
  change (macro_line (lit "#define " ++ n ++ lit " " ++ dec_str z ++ lit "u")) with
    (match lex Between (lit "define " ++ n ++ lit " " ++ dec_str z ++ lit "u") with Some [TId d; TId m; TNum y] => if is "define" d then [(m, y)] else [] | _ => [] end).
  assert (lex Between (lit "define " ++ n ++ lit " " ++ dec_str z ++ lit "u") = Some ([TId (lit "define")] ++ [TId n] ++ [] ++ [TNum z])) as ->; [|reflexivity].
  destruct (dec_word z Z) as (A & _ & B). rewrite dec_str_nonneg by exact Z.
  destruct (dec_first z Z) as (d & r & E & D). rewrite dec_str_nonneg in E by exact Z.
  apply (reads_lex _ _ (InNumber (dec_nat z ++ lit "u"))).
  eapply reads_app; [apply (reads_lit _ _ Between); vm_compute; reflexivity| |apply parted_ident; [reflexivity|exact I]].
  eapply reads_app; [apply reads_name, I| |apply closed_parted; [apply closed_word|reflexivity]].
  eapply reads_app; [apply (reads_lit _ _ Between); vm_compute; reflexivity| |rewrite E; reflexivity].
  apply reads_number; [|exact B]. exists d, (r ++ lit "u"). rewrite E. split; [reflexivity|]. split; [exact D|].
  rewrite E in A. cbn [forallb] in A. apply andb_prop in A as [_ A]. rewrite name_chars_app, (digit_name _ A). reflexivity.
Qed.
Lemma macros_define l : Forall (fun m => c_ident (fst m) /\ 0 <= snd m) l -> macros (map define l) = l.
Proof. induction 1 as [|[n z] l [I Z] _ IH]; [reflexivity|]. unfold macros. cbn [map flat_map]. rewrite macro_define by assumption. unfold macros in IH. rewrite IH. reflexivity. Qed.

Lemma line_plain n s : (0 < n)%nat -> directive (line n s) = false.
Proof. destruct n; [lia|reflexivity]. Qed.
Ltac plains := repeat first [apply Forall_nil | apply Forall_cons; [first [reflexivity | apply line_plain; lia]|]].
Lemma stmts_plain buf s : forall n, (0 < n)%nat -> Forall (fun x => directive x = false) (stmt_lines buf n s).
Proof.
  induction s as [s IH] using cstmt_rect'; intros k K; destruct s as [| | | | | | | | | |m body]; cbn [stmt_lines]; unfold stmt; try (apply Forall_cons; [apply line_plain; lia|apply Forall_nil]).
  rewrite !Forall_app. repeat apply conj; try solve [plains].
  induction IH as [|x l F _ IHl]; [apply Forall_nil|]. cbn [app flat_map]. rewrite Forall_app. split; [apply F; lia|exact IHl].
Qed.
Lemma fun_plain buf f : Forall (fun x => directive x = false) (fun_lines buf f).
Proof.
  unfold fun_lines. rewrite !Forall_app. repeat apply conj; try solve [plains].
  induction (cf_body f) as [|x l IH]; [apply Forall_nil|]. cbn [flat_map]. rewrite Forall_app. split; [|exact IH].
  destruct x; cbn [fstmt_lines]; try solve [plains]. apply stmts_plain. lia.
Qed.
Lemma funs_plain buf l : Forall (fun x => directive x = false) (flat_map (fun_lines buf) l).
Proof. induction l as [|f l IH]; [apply Forall_nil|]. cbn [flat_map]. rewrite Forall_app. split; [apply fun_plain|exact IH]. Qed.
Lemma data_plain : forall k l, Forall (fun x => directive x = false) (data_lines k l).
Proof. induction k as [|k IH]; intros l; [apply Forall_nil|]. cbn [data_lines]. destruct (Nat.ltb 32 (length l)); [apply Forall_cons; [apply line_plain; lia|apply IH]|]. destruct l; plains. Qed.
Lemma literal_plain l : Forall (fun x => directive x = false) (end_last (map (fun s => [QUOTE] ++ s ++ [QUOTE]) l)).
Proof.
  induction l as [|s l IH]; [apply Forall_nil|]. cbn [map end_last]. destruct l as [|s' l]; [plains|]. cbn [map] in IH |- *. apply Forall_cons; [reflexivity|exact IH].
Qed.
Lemma notifier_plain name x : Forall (fun x => directive x = false) (notifier_lines name x).
Proof.
  destruct x as [| |g parts vars]; cbn [notifier_lines]; [apply Forall_nil|plains|]. cbv zeta.
  rewrite !Forall_app. repeat apply conj; try solve [plains].
  - induction vars; [apply Forall_nil|]. cbn [map]. apply Forall_cons; [apply line_plain; lia|assumption].
  - destruct g; plains.
  - induction parts as [|x l IH]; [apply Forall_nil|]. cbn [flat_map]. rewrite Forall_app. split; [|exact IH].
    destruct x as [a b [k|]|]; cbn [part_lines]; cbv zeta; plains.
Qed.
Definition three (c : cfile) : list (str * Z) :=
  [(lit "APX_DEFINITON_LEN", c_deflen c); (lit "APX_IN_PORT_DATA_LEN", c_inlen c); (lit "APX_OUT_PORT_DATA_LEN", c_outlen c)].
Lemma ident_lit (s : string) : match lit s with [] => False | c :: _ => letter c = true end -> forallb name_char (lit s) && Nat.ltb 10 (length (lit s)) = true -> c_ident (lit s).
Proof. intros A B. apply andb_prop in B as [B C]. apply Nat.ltb_lt in C. apply ident_long; assumption. Qed.
Lemma source_macros version c : 0 <= c_deflen c -> 0 <= c_inlen c -> 0 <= c_outlen c ->
  Forall (fun m => c_ident (fst m) /\ 0 <= snd m) (c_lens c) -> Forall (fun m => c_ident (fst m) /\ 0 <= snd m) (c_offsets c) ->
  macros (source_lines version c) = three c ++ (if c_callbacks c then c_lens c ++ c_offsets c else []).
Proof.
  intros D I O L F.
  assert (forall a b t, macros a = [] -> macros b = t -> macros (a ++ b) = t) as NIL by (intros a b t A B; rewrite macros_app, A, B; reflexivity).
  assert (forall a b t u, macros a = t -> macros b = u -> macros (a ++ b) = t ++ u) as APP by (intros a b t u A B; rewrite macros_app, A, B; reflexivity).
  unfold source_lines. rewrite <- (app_nil_r (three c ++ _)). apply APP.
  2: { apply NIL; [apply quiet, notifier_plain|reflexivity]. }
  unfold source_front. apply NIL; [apply quiet; plains|]. apply NIL; [reflexivity|].
  apply NIL. { change (lit "#include ""ApxNode_" ++ c_name c ++ lit ".h""") with (lit "#include " ++ (lit """ApxNode_" ++ c_name c ++ lit ".h""")).
    unfold macros. cbn [flat_map]. rewrite macro_include. reflexivity. }
  apply NIL. { destruct (c_callbacks c); [|reflexivity]. change (lit "#include ""ApxNode_" ++ c_name c ++ lit "_Cbk.h""") with (lit "#include " ++ (lit """ApxNode_" ++ c_name c ++ lit "_Cbk.h""")).
    unfold macros. cbn [flat_map]. rewrite macro_include. reflexivity. }
  apply NIL; [reflexivity|]. apply NIL; [reflexivity|]. apply APP.
  { apply macros_define. repeat apply Forall_cons; try apply Forall_nil; (split; [apply ident_lit; reflexivity|assumption]). }
  rewrite <- (app_nil_r (if c_callbacks c then c_lens c ++ c_offsets c else [])). apply APP.
  { destruct (c_callbacks c); [|reflexivity]. apply NIL; [reflexivity|]. apply APP; [apply macros_define, L|]. apply NIL; [reflexivity|apply macros_define, F]. }
  apply quiet. apply Forall_app; split; [plains|]. apply Forall_app; split; [plains|]. apply Forall_app; split; [plains|]. apply Forall_app; split; [plains|].
  apply Forall_app; split. { destruct (0 <? c_outlen c); [|apply Forall_nil]. apply Forall_app; split; [plains|]. apply Forall_app; split; [apply data_plain|plains]. }
  apply Forall_app; split. { destruct (0 <? c_inlen c); [|apply Forall_nil]. apply Forall_app; split; [plains|]. apply Forall_app; split; [apply data_plain|]. destruct (c_synced c); plains. }
  apply Forall_app; split; [plains|]. apply Forall_app; split; [apply literal_plain|]. apply Forall_app; split; [plains|]. apply Forall_app; split; [plains|]. apply Forall_app; split; [plains|].
  apply Forall_app; split; [destruct (c_callbacks c); plains|]. apply Forall_app; split; [destruct (0 <? c_inlen c), (c_synced c); plains|].
  apply Forall_app; split; [destruct (0 <? c_outlen c); plains|]. apply Forall_app; split; [plains|]. apply Forall_app; split; [destruct (c_callbacks c); plains|].
  apply Forall_app; split; [plains|]. apply Forall_app; split; apply funs_plain.
Qed.

(** ** Constants and variables *)

Definition rx (l : list (str * Z)) : Prop := Forall (fun m => exists r, fst m = lit "APX_RX_" ++ r) l.
Lemma rx_filter l (s : string) : rx l -> str_eqb (firstn 7 (lit s)) (lit "APX_RX_") = false -> filter (fun m => str_eqb (fst m) (lit s)) l = [].
Proof.
  induction 1 as [|[n z] l [r E] _ IH]; intros N; [reflexivity|]. cbn [filter fst] in *. rewrite (IH N). destruct (str_eqb n (lit s)) eqn:Q; [|reflexivity].
  apply str_eqb_eq in Q. rewrite <- Q, E in N. exfalso. revert N. change (firstn 7 (lit "APX_RX_" ++ r)) with (lit "APX_RX_"). rewrite str_eqb_refl. discriminate.
Qed.
Lemma macro_front a l (s : string) : rx l -> str_eqb (firstn 7 (lit s)) (lit "APX_RX_") = false -> macro (a ++ l) (lit s) = macro a (lit s).
Proof.
  intros R N. unfold macro. match goal with |- context [filter ?f (a ++ l)] => assert (filter f (a ++ l) = filter f a) as -> end; [|reflexivity].
  rewrite filter_app. refine (eq_trans (f_equal2 (@app _) eq_refl (rx_filter l s R N)) _). apply app_nil_r.
Qed.
Lemma three_deflen c l : rx l -> macro (three c ++ l) (lit "APX_DEFINITON_LEN") = Some (c_deflen c).
Proof. intros R. exact (macro_front _ _ "APX_DEFINITON_LEN" R eq_refl). Qed.
Lemma three_in c l : rx l -> macro (three c ++ l) (lit INLEN) = Some (c_inlen c).
Proof. intros R. exact (macro_front _ _ INLEN R eq_refl). Qed.
Lemma three_out c l : rx l -> macro (three c ++ l) (lit OUTLEN) = Some (c_outlen c).
Proof. intros R. exact (macro_front _ _ OUTLEN R eq_refl). Qed.
Lemma three_rx c l r : macro (three c ++ l) (lit "APX_RX_" ++ r) = macro l (lit "APX_RX_" ++ r).
Proof. reflexivity. Qed.

Lemma collect_app {A} (f : unit_ -> option A) a b : collect f (a ++ b) = collect f a ++ collect f b.
Proof. apply flat_map_app. Qed.
Definition is_fun (u : unit_) : Prop := match u with UFun _ _ => True | _ => False end.
Lemma collect_none {A} (f : unit_ -> option A) l : (forall p b, f (UFun p b) = None) -> Forall is_fun l -> collect f l = [].
Proof. intros N. induction 1 as [|[p b| |] l F _ IH]; try destruct F; [reflexivity|]. unfold collect. cbn [flat_map]. rewrite N. exact IH. Qed.
Lemma table_tab name n m l : l <> [] -> table_of name (tab n m l) = if str_eqb (lit n) name then Some (lit m, l) else None.
Proof. intros N. unfold tab, table_of. cbn [app]. change (is_byte BU8) with true. cbn [andb]. rewrite (numbers_nums l N). reflexivity. Qed.
Lemma array_arr name n m : array_of name (arr n m) = if str_eqb (lit n) name then Some (lit m) else None.
Proof. reflexivity. Qed.

Section Units.
Variable c : cfile.
Variable ds : list str.
Variable rest : list unit_.
Variable lines : list str.
Hypothesis FUN : Forall is_fun rest.
Hypothesis OUT : 0 < c_outlen c -> c_outinit c <> [].
Hypothesis INN : 0 < c_inlen c -> c_ininit c <> [].
Let us := var_units c ds ++ rest.

Ltac looks := unfold us; rewrite collect_app, (collect_none _ rest) by (reflexivity || assumption); rewrite app_nil_r; unfold var_units, out_units, in_units.
Lemma table_out : 0 < c_outlen c -> collect (table_of (lit "m_outPortInitData")) us = [(lit OUTLEN, c_outinit c)].
Proof.
  intros P. looks. replace (0 <? c_outlen c) with true by lia. unfold collect. cbn [app flat_map]. rewrite table_tab by auto. 
  destruct (0 <? c_inlen c) eqn:E; [|reflexivity]. cbn [app flat_map]. rewrite flat_map_app. cbn [flat_map]. rewrite table_tab by (apply INN; lia). destruct (c_synced c); reflexivity.
Qed.
Lemma table_in : 0 < c_inlen c -> collect (table_of (lit "m_inPortInitData")) us = [(lit INLEN, c_ininit c)].
Proof.
  intros P. looks. replace (0 <? c_inlen c) with true by lia. unfold collect. 
  destruct (0 <? c_outlen c) eqn:E; cbn [app flat_map]; rewrite ?table_tab by (try apply OUT; auto; lia); destruct (c_synced c); reflexivity.
Qed.
Ltac arrays := looks; unfold collect; repeat match goal with |- context [if ?b then _ else _] => destruct b eqn:? end; try lia; try congruence; reflexivity.
Lemma array_out : 0 < c_outlen c -> collect (array_of (lit "m_outPortdata")) us = [lit OUTLEN].
Proof. intros P. arrays. Qed.
Lemma array_dirty : 0 < c_outlen c -> collect (array_of (lit "m_outPortDirtyFlags")) us = [lit OUTLEN].
Proof. intros P. arrays. Qed.
Lemma array_in : 0 < c_inlen c -> collect (array_of (lit "m_inPortdata")) us = [lit INLEN].
Proof. intros P. arrays. Qed.
Lemma array_synced : 0 < c_inlen c -> c_synced c = true -> collect (array_of (lit "m_inPortSyncedFlags")) us = [lit INLEN].
Proof. intros P Q. arrays. Qed.
Lemma text_definition : ds <> [] -> collect (text_of (lit "m_apxDefinitionData")) us = [concat ds].
Proof.
  intros N. assert (text_of (lit "m_apxDefinitionData") (UOther ([TKw KStatic; TKw KConst; TKw KChar; TOp OStar; TId (lit "m_apxDefinitionData"); TOp OEq] ++ map TStr ds)) = Some (concat ds)) as E.
  { unfold text_of. cbn [app]. rewrite str_eqb_refl. apply strings_map, N. }
  looks. rewrite !collect_app.
  assert (collect (text_of (lit "m_apxDefinitionData")) (if 0 <? c_outlen c then [tab "m_outPortInitData" OUTLEN (c_outinit c); arr "m_outPortdata" OUTLEN; arr "m_outPortDirtyFlags" OUTLEN] else []) = []) as -> by (destruct (0 <? c_outlen c); reflexivity).
  assert (collect (text_of (lit "m_apxDefinitionData")) (if 0 <? c_inlen c then [tab "m_inPortInitData" INLEN (c_ininit c); arr "m_inPortdata" INLEN] ++ (if c_synced c then [arr "m_inPortSyncedFlags" INLEN] else []) else []) = []) as -> by (destruct (0 <? c_inlen c), (c_synced c); reflexivity).
  unfold collect. cbn [flat_map app text_of] in E |- *. rewrite E. reflexivity.
Qed.
End Units.

(** ** Initializing *)

Definition addr0 (s : str) : cx := XAddr (XIndex (XId s) (XNum 0)).
Section Init.
Variable lines : list str.
Variable us : list unit_.
Notation initialize := (initialize lines us).
Notation constant := (constant lines).
Notation contents := (contents lines us).

Lemma step_memcpy x y n r st old new k : contents st x = Some old -> table lines us y = Some new -> constant n = Some k -> k = len old -> k = len new ->
  initialize (GExpr (XCall (XId (lit "memcpy")) [addr0 x; addr0 y; XId n]) :: r) st = initialize r (mk_istate ((x, new) :: is_data st) (is_table st) (is_node st)).
Proof.
  intros C T N A B. cbn [CFileSpec.initialize init_call addr0 start_of]. change (is "memcpy" (lit "memcpy")) with true. cbn [Z.eqb]. cbv match. cbn [obind].
  rewrite N. cbn [obind]. rewrite C. cbn [obind]. rewrite T. cbn [obind]. pose proof (len_nonneg old).
  replace ((0 <=? k) && (k <=? len old) && (k <=? len new)) with true by lia. cbn [obind]. do 3 f_equal. f_equal.
  rewrite (firstn_all2 new), (skipn_all2 old), app_nil_r; [reflexivity| |]; unfold len in *; lia.
Qed.
Lemma step_memset x r st old : contents st x = Some old -> x <> lit "nodeDataHandler" ->
  initialize (GExpr (XCall (XId (lit "memset")) [addr0 x; XNum 0; XSize (XId x)]) :: r) st = initialize r (mk_istate ((x, repeat 0 (length old)) :: is_data st) (is_table st) (is_node st)).
Proof.
  intros C N. cbn [CFileSpec.initialize init_call addr0 start_of zero]. change (is "memset" (lit "memset")) with true. cbn [Z.eqb andb]. cbv match. cbn [obind]. rewrite C. cbn [obind].
  rewrite str_eqb_refl. reflexivity.
Qed.
Lemma step_create name n k text r st i1 i2 i3 i o1 o2 o3 o : collect (text_of (lit "m_apxDefinitionData")) us = [text] -> constant n = Some k ->
  side lines us st i1 i2 i3 = Some i -> side lines us st o1 o2 o3 = Some o -> (0 < len (fst o) -> snd o = true) ->
  initialize (GExpr (XCall (XId (lit "apx_nodeData_create")) [ndx; XStr name; XCastPtr BU8 (addr0 (lit "m_apxDefinitionData")); XId n; i1; i2; i3; o1; o2; o3]) :: r) st =
  initialize r (mk_istate (is_data st) (is_table st) (Some (mk_made name text k (fst i) (snd i) (fst o) None))).
Proof.
  intros T N I O F. cbn [CFileSpec.initialize init_call addr0 start_of ndx]. change (is "apx_nodeData_create" (lit "apx_nodeData_create")) with true.
  change (node_data (XAddr (XId (lit "m_nodeData")))) with true. change (is_byte BU8) with true. cbn [Z.eqb andb]. cbv match. cbn [obind]. rewrite T. cbn [only obind]. rewrite N. cbn [obind].
  rewrite I. cbn [obind]. rewrite O. cbn [obind]. destruct (0 <? len (fst o)) eqn:E.
  - rewrite F by lia. reflexivity.
  - cbn [obind]. destruct (fst o) as [|? l]; [reflexivity|]. unfold len in E. cbn [length] in E. lia.
Qed.
Lemma side_none st : side lines us st (XNum 0) (XNum 0) (XNum 0) = Some ([], false).
Proof. reflexivity. Qed.
Lemma side_null st x m k b : contents st x = Some b -> constant m = Some k -> len b = k -> side lines us st (addr0 x) (XId (lit "NULL")) (XId m) = Some (b, false).
Proof.
  intros C M L. unfold side. cbn [zero addr0 andb start_of Z.eqb]. cbv match. cbn [obind]. rewrite M. cbn [obind]. rewrite C. cbn [obind]. replace (len b =? k) with true by lia. reflexivity.
Qed.
Lemma side_flags st x m k b f fb : contents st x = Some b -> constant m = Some k -> len b = k -> contents st f = Some fb -> len fb = k ->
  side lines us st (addr0 x) (addr0 f) (XId m) = Some (b, true).
Proof.
  intros C M L F G. unfold side. cbn [zero addr0 andb start_of Z.eqb]. cbv match. cbn [obind]. rewrite M. cbn [obind]. rewrite C. cbn [obind].
  replace (len b =? k) with true by lia. rewrite F. cbn [obind]. replace (len fb =? k) with true by lia. reflexivity.
Qed.
End Init.

Lemma len_repeat n : 0 <= n -> len (repeat 0 (Z.to_nat n)) = n.
Proof. intros P. unfold len. rewrite repeat_length. lia. Qed.
Lemma mod_bytes l : bytes_ok l -> map (fun z => z mod 256) l = l.
Proof. intros B. induction B as [|z l Z _ IH]; [reflexivity|]. cbn [map]. rewrite IH, Z.mod_small by exact Z. reflexivity. Qed.

(** What the node data should be. *)
Definition made_of (c : cfile) (text : str) : made :=
  mk_made (opt_text (c_node c)) text (c_deflen c) (c_ininit c) ((0 <? c_inlen c) && c_synced c) (c_outinit c)
    (if c_callbacks c then Some (handler_name c) else None).
Section Run.
Variable c : cfile.
Variable ds : list str.
Variable rest : list unit_.
Variable lines : list str.
Variable extra : list (str * Z).
Hypothesis FUN : Forall is_fun rest.
Hypothesis MAC : macros lines = three c ++ extra.
Hypothesis RX : rx extra.
Hypothesis OUT : len (c_outinit c) = c_outlen c.
Hypothesis INN : len (c_ininit c) = c_inlen c.
Hypothesis OUTB : bytes_ok (c_outinit c).
Hypothesis INB : bytes_ok (c_ininit c).
Hypothesis DS : ds <> [].
Let us := var_units c ds ++ rest.

Lemma out_some : 0 < c_outlen c -> c_outinit c <> [].
Proof. intros P E. rewrite E in OUT. unfold len in OUT. cbn [length] in OUT. lia. Qed.
Lemma in_some : 0 < c_inlen c -> c_ininit c <> [].
Proof. intros P E. rewrite E in INN. unfold len in INN. cbn [length] in INN. lia. Qed.
Lemma k_in : constant lines (lit INLEN) = Some (c_inlen c).
Proof. unfold constant. rewrite MAC. apply three_in, RX. Qed.
Lemma k_out : constant lines (lit OUTLEN) = Some (c_outlen c).
Proof. unfold constant. rewrite MAC. apply three_out, RX. Qed.
Lemma k_def : constant lines (lit "APX_DEFINITON_LEN") = Some (c_deflen c).
Proof. unfold constant. rewrite MAC. apply three_deflen, RX. Qed.
Lemma t_in : 0 < c_inlen c -> table lines us (lit "m_inPortInitData") = Some (c_ininit c).
Proof.
  intros P. unfold table, us. rewrite (table_in c ds rest FUN out_some in_some P). cbn [only obind fst snd]. rewrite k_in. cbn [obind]. rewrite INN. replace (c_inlen c <=? c_inlen c) with true by lia.
  rewrite Z.sub_diag, mod_bytes by exact INB. cbn [Z.to_nat repeat]. rewrite app_nil_r. reflexivity.
Qed.
Lemma t_out : 0 < c_outlen c -> table lines us (lit "m_outPortInitData") = Some (c_outinit c).
Proof.
  intros P. unfold table, us. rewrite (table_out c ds rest FUN out_some in_some P). cbn [only obind fst snd]. rewrite k_out. cbn [obind]. rewrite OUT. replace (c_outlen c <=? c_outlen c) with true by lia.
  rewrite Z.sub_diag, mod_bytes by exact OUTB. cbn [Z.to_nat repeat]. rewrite app_nil_r. reflexivity.
Qed.
Ltac arr H K := unfold array, us; rewrite H by (assumption || exact out_some || exact in_some); cbn [only obind]; rewrite K; cbn [obind]; match goal with |- (if ?b then _ else _) = _ => replace b with true by lia end; reflexivity.
Lemma a_in : 0 < c_inlen c -> array lines us (lit "m_inPortdata") = Some (repeat 0 (Z.to_nat (c_inlen c))).
Proof. intros P. arr (array_in c ds rest FUN) k_in. Qed.
Lemma a_synced : 0 < c_inlen c -> c_synced c = true -> array lines us (lit "m_inPortSyncedFlags") = Some (repeat 0 (Z.to_nat (c_inlen c))).
Proof. intros P Q. arr (array_synced c ds rest FUN) k_in. Qed.
Lemma a_out : 0 < c_outlen c -> array lines us (lit "m_outPortdata") = Some (repeat 0 (Z.to_nat (c_outlen c))).
Proof. intros P. arr (array_out c ds rest FUN) k_out. Qed.
Lemma a_dirty : 0 < c_outlen c -> array lines us (lit "m_outPortDirtyFlags") = Some (repeat 0 (Z.to_nat (c_outlen c))).
Proof. intros P. arr (array_dirty c ds rest FUN) k_out. Qed.

(** The statements of ApxNode_Init: declaring, the input, the output, creating, the
    handler, returning. *)
Definition in_side : cx * cx * cx :=
  if 0 <? c_inlen c then (addr0 (lit "m_inPortdata"), if c_synced c then addr0 (lit "m_inPortSyncedFlags") else XId (lit "NULL"), XId (lit INLEN)) else (XNum 0, XNum 0, XNum 0).
Definition out_side : cx * cx * cx :=
  if 0 <? c_outlen c then (addr0 (lit "m_outPortdata"), addr0 (lit "m_outPortDirtyFlags"), XId (lit OUTLEN)) else (XNum 0, XNum 0, XNum 0).
Lemma create_is : pst (create_toks c) =
  GExpr (XCall (XId (lit "apx_nodeData_create")) [ndx; XStr (opt_text (c_node c)); XCastPtr BU8 (addr0 (lit "m_apxDefinitionData")); XId (lit "APX_DEFINITON_LEN");
    fst (fst in_side); snd (fst in_side); snd in_side; fst (fst out_side); snd (fst out_side); snd out_side]).
Proof. unfold create_toks, in_side, out_side. destruct (0 <? c_inlen c), (0 <? c_outlen c), (c_synced c); vm_compute; reflexivity. Qed.
Lemma handler_is : pst (handler_toks c) = GExpr (XAssign (XField (XId (lit "nodeDataHandler")) (lit "inPortDataWritten")) (XId (handler_name c))).
Proof. vm_compute. reflexivity. Qed.

Definition in_data : list (str * bytes) :=
  if 0 <? c_inlen c then (if c_synced c then [(lit "m_inPortSyncedFlags", repeat 0 (length (repeat 0 (Z.to_nat (c_inlen c)))))] else []) ++ [(lit "m_inPortdata", c_ininit c)] else [].
Definition out_data : list (str * bytes) :=
  if 0 <? c_outlen c then [(lit "m_outPortDirtyFlags", repeat 0 (length (repeat 0 (Z.to_nat (c_outlen c))))); (lit "m_outPortdata", c_outinit c)] else [].
Notation init := (initialize lines us).
Lemma run_in r : init ((if 0 <? c_inlen c then
        [snd (fixed "memcpy(&m_inPortdata[0], &m_inPortInitData[0], APX_IN_PORT_DATA_LEN);")]
        ++ (if c_synced c then [snd (fixed "memset(&m_inPortSyncedFlags[0], 0, sizeof(m_inPortSyncedFlags));")] else [])
      else []) ++ r) (mk_istate [] None None) = init r (mk_istate in_data None None).
Proof.
  unfold in_data. destruct (0 <? c_inlen c) eqn:E; [|reflexivity]. assert (0 < c_inlen c) as P by lia.
  change (snd (fixed "memcpy(&m_inPortdata[0], &m_inPortInitData[0], APX_IN_PORT_DATA_LEN);")) with
    (GExpr (XCall (XId (lit "memcpy")) [addr0 (lit "m_inPortdata"); addr0 (lit "m_inPortInitData"); XId (lit INLEN)])).
  change (snd (fixed "memset(&m_inPortSyncedFlags[0], 0, sizeof(m_inPortSyncedFlags));")) with
    (GExpr (XCall (XId (lit "memset")) [addr0 (lit "m_inPortSyncedFlags"); XNum 0; XSize (XId (lit "m_inPortSyncedFlags"))])).
  rewrite <- app_assoc. cbn [app]. rewrite (step_memcpy lines us _ _ _ _ (mk_istate [] None None) _ _ _ (a_in P : contents lines us (mk_istate [] None None) _ = _) (t_in P) k_in); [|rewrite len_repeat; lia|lia]. cbn [is_data is_table is_node].
  destruct (c_synced c) eqn:S; [|reflexivity]. cbn [app]. rewrite (step_memset _ _ _ _ _ (repeat 0 (Z.to_nat (c_inlen c)))); [reflexivity|exact (a_synced P S)|discriminate].
Qed.
Lemma run_out d r : contents lines us (mk_istate d None None) (lit "m_outPortdata") = array lines us (lit "m_outPortdata") ->
  contents lines us (mk_istate ((lit "m_outPortdata", c_outinit c) :: d) None None) (lit "m_outPortDirtyFlags") = array lines us (lit "m_outPortDirtyFlags") ->
  init ((if 0 <? c_outlen c then
        [snd (fixed "memcpy(&m_outPortdata[0], &m_outPortInitData[0], APX_OUT_PORT_DATA_LEN);");
         snd (fixed "memset(&m_outPortDirtyFlags[0], 0, sizeof(m_outPortDirtyFlags));")]
      else []) ++ r) (mk_istate d None None) = init r (mk_istate (out_data ++ d) None None).
Proof.
  intros A B. unfold out_data. destruct (0 <? c_outlen c) eqn:E; [|reflexivity]. assert (0 < c_outlen c) as P by lia.
  change (snd (fixed "memcpy(&m_outPortdata[0], &m_outPortInitData[0], APX_OUT_PORT_DATA_LEN);")) with
    (GExpr (XCall (XId (lit "memcpy")) [addr0 (lit "m_outPortdata"); addr0 (lit "m_outPortInitData"); XId (lit OUTLEN)])).
  change (snd (fixed "memset(&m_outPortDirtyFlags[0], 0, sizeof(m_outPortDirtyFlags));")) with
    (GExpr (XCall (XId (lit "memset")) [addr0 (lit "m_outPortDirtyFlags"); XNum 0; XSize (XId (lit "m_outPortDirtyFlags"))])).
  cbn [app]. rewrite (step_memcpy lines us _ _ _ _ (mk_istate d None None) _ _ _ (eq_trans A (a_out P)) (t_out P) k_out); [|rewrite len_repeat; lia|lia]. cbn [is_data is_table is_node].
  rewrite (step_memset _ _ _ _ _ (repeat 0 (Z.to_nat (c_outlen c)))); [reflexivity|rewrite B; exact (a_dirty P)|discriminate].
Qed.
Lemma len_zeros n : 0 < n -> len (repeat 0 (length (repeat 0 (Z.to_nat n)))) = n.
Proof. intros P. unfold len. rewrite !repeat_length. lia. Qed.
Lemma nil_len (b : bytes) n : len b = n -> ~ 0 < n -> b = [].
Proof. destruct b; [reflexivity|]. unfold len. cbn [length]. lia. Qed.
Lemma run_init : init (map snd (init_list c)) (mk_istate [] None None) = Some (made_of c (concat ds)).
Proof.
  unfold init_list. rewrite !map_app.
  assert (forall r, init (map snd (if c_callbacks c then [fixed "apx_nodeDataHandlerTable_t nodeDataHandler;"] else []) ++ r) (mk_istate [] None None) = init r (mk_istate [] None None)) as ->.
  { intros r. destruct (c_callbacks c); [|reflexivity]. cbn [map app]. change (snd (fixed "apx_nodeDataHandlerTable_t nodeDataHandler;")) with (GDecl (lit "apx_nodeDataHandlerTable_t", false, lit "nodeDataHandler", None) None). reflexivity. }
  assert (map snd (if 0 <? c_inlen c then [fixed "memcpy(&m_inPortdata[0], &m_inPortInitData[0], APX_IN_PORT_DATA_LEN);"]
        ++ (if c_synced c then [fixed "memset(&m_inPortSyncedFlags[0], 0, sizeof(m_inPortSyncedFlags));"] else []) else []) =
    if 0 <? c_inlen c then [snd (fixed "memcpy(&m_inPortdata[0], &m_inPortInitData[0], APX_IN_PORT_DATA_LEN);")]
        ++ (if c_synced c then [snd (fixed "memset(&m_inPortSyncedFlags[0], 0, sizeof(m_inPortSyncedFlags));")] else []) else []) as -> by (destruct (0 <? c_inlen c), (c_synced c); reflexivity).
  rewrite run_in.
  assert (map snd (if 0 <? c_outlen c then [fixed "memcpy(&m_outPortdata[0], &m_outPortInitData[0], APX_OUT_PORT_DATA_LEN);"; fixed "memset(&m_outPortDirtyFlags[0], 0, sizeof(m_outPortDirtyFlags));"] else []) =
    if 0 <? c_outlen c then [snd (fixed "memcpy(&m_outPortdata[0], &m_outPortInitData[0], APX_OUT_PORT_DATA_LEN);"); snd (fixed "memset(&m_outPortDirtyFlags[0], 0, sizeof(m_outPortDirtyFlags));")] else []) as -> by (destruct (0 <? c_outlen c); reflexivity).
  rewrite run_out; [|unfold in_data; destruct (0 <? c_inlen c), (c_synced c); reflexivity|unfold in_data; destruct (0 <? c_inlen c), (c_synced c); reflexivity].
  cbn [map app snd]. rewrite create_is.
  set (st := mk_istate (out_data ++ in_data) None None).
  assert (0 < c_inlen c -> contents lines us st (lit "m_inPortdata") = Some (c_ininit c)) as CI.
  { intros P. unfold st, contents, out_data, in_data. cbn [is_data]. replace (0 <? c_inlen c) with true by lia. destruct (0 <? c_outlen c), (c_synced c); reflexivity. }
  assert (0 < c_inlen c -> c_synced c = true -> contents lines us st (lit "m_inPortSyncedFlags") = Some (repeat 0 (length (repeat 0 (Z.to_nat (c_inlen c)))))) as CS.
  { intros P Q. unfold st, contents, out_data, in_data. cbn [is_data]. rewrite Q. replace (0 <? c_inlen c) with true by lia. destruct (0 <? c_outlen c); reflexivity. }
  assert (0 < c_outlen c -> contents lines us st (lit "m_outPortdata") = Some (c_outinit c)) as CO.
  { intros P. unfold st, contents, out_data, in_data. cbn [is_data]. replace (0 <? c_outlen c) with true by lia. reflexivity. }
  assert (0 < c_outlen c -> contents lines us st (lit "m_outPortDirtyFlags") = Some (repeat 0 (length (repeat 0 (Z.to_nat (c_outlen c)))))) as CD.
  { intros P. unfold st, contents, out_data, in_data. cbn [is_data]. replace (0 <? c_outlen c) with true by lia. reflexivity. }
  assert (side lines us st (fst (fst in_side)) (snd (fst in_side)) (snd in_side) = Some (c_ininit c, (0 <? c_inlen c) && c_synced c)) as SI.
  { unfold in_side. destruct (0 <? c_inlen c) eqn:E.
    - assert (0 < c_inlen c) as P by lia. destruct (c_synced c) eqn:Q; cbn [fst snd andb].
      + exact (side_flags _ _ _ _ _ _ _ _ _ (CI P) k_in INN (CS P eq_refl) (len_zeros _ P)).
      + exact (side_null _ _ _ _ _ _ _ (CI P) k_in INN).
    - rewrite (nil_len _ _ INN) by lia. reflexivity. }
  assert (side lines us st (fst (fst out_side)) (snd (fst out_side)) (snd out_side) = Some (c_outinit c, 0 <? c_outlen c)) as SO.
  { unfold out_side. destruct (0 <? c_outlen c) eqn:E.
    - assert (0 < c_outlen c) as P by lia. exact (side_flags _ _ _ _ _ _ _ _ _ (CO P) k_out OUT (CD P) (len_zeros _ P)).
    - rewrite (nil_len _ _ OUT) by lia. reflexivity. }
  rewrite (step_create _ _ _ _ _ (concat ds) _ _ _ _ _ _ _ _ _ _ (text_definition c ds rest FUN DS) k_def SI SO) by (cbn [fst snd]; rewrite OUT; lia).
  cbn [fst snd is_data is_table is_node]. unfold made_of. destruct (c_callbacks c); [|reflexivity]. cbn [map app snd].
  change (snd (fixed "memset(&nodeDataHandler, 0, sizeof(nodeDataHandler));")) with (GExpr (XCall (XId (lit "memset")) [XAddr (XId (lit "nodeDataHandler")); XNum 0; XSize (XId (lit "nodeDataHandler"))])).
  change (snd (fixed "apx_nodeData_setHandlerTable(&m_nodeData, &nodeDataHandler);")) with (GExpr (XCall (XId (lit "apx_nodeData_setHandlerTable")) [ndx; XAddr (XId (lit "nodeDataHandler"))])).
  change (snd (fixed "return &m_nodeData;")) with (GReturn ndx). rewrite handler_is. reflexivity.
Qed.
End Run.

(** ** New input *)

Definition is_case (x : cbpart) : bool := match x with PCase _ _ _ => true | PComment _ => false end.
Definition plain_var (v : str * option str * option Z) : str * option str * option Z := (fst (fst v), Some (opt_text (snd (fst v))), snd v).
(** Without comments. *)
Definition stripped (x : notifier) : notifier :=
  match x with Switch g parts vars => Switch g (filter is_case parts) (map plain_var vars) | _ => x end.
Lemma member_mx k : member_of (mx k) = Some (cl_port k, cl_array k).
Proof. unfold mx. destruct (cl_array k); reflexivity. Qed.
Lemma same_member_refl a : same_member a a = true.
Proof. unfold same_member. rewrite str_eqb_refl. destruct (snd a); reflexivity. Qed.
Lemma as_calls k : as_callback (XVoid (XCall (XId (cl_read k)) [XAddr (mx k)])) (XCall (XId (cl_func k)) [if cl_ref k then XAddr (mx k) else mx k]) = Some k.
Proof.
  unfold as_callback. rewrite member_mx. cbn [obind]. destruct (cl_ref k) eqn:R.
  - rewrite member_mx. cbn [obind]. rewrite same_member_refl. destruct k; cbn in *. rewrite R. reflexivity.
  - assert (match mx k with XAddr y => let? q := member_of y in if same_member (cl_port k, cl_array k) q then Some (mk_cbcall (fst (cl_port k, cl_array k)) (cl_read k) (cl_func k) (snd (cl_port k, cl_array k)) true) else None
      | _ => let? q := member_of (mx k) in if same_member (cl_port k, cl_array k) q then Some (mk_cbcall (fst (cl_port k, cl_array k)) (cl_read k) (cl_func k) (snd (cl_port k, cl_array k)) false) else None end =
      (let? q := member_of (mx k) in if same_member (cl_port k, cl_array k) q then Some (mk_cbcall (fst (cl_port k, cl_array k)) (cl_read k) (cl_func k) (snd (cl_port k, cl_array k)) false) else None)) as ->.
    { unfold mx. destruct (cl_array k); reflexivity. }
    rewrite member_mx. cbn [obind]. rewrite same_member_refl. destruct k; cbn in *. rewrite R. reflexivity.
Qed.
Lemma as_switch parts : as_cases (map snd (switch_pairs parts)) = Some (filter is_case parts).
Proof.
  unfold switch_pairs. rewrite map_app. generalize (eq_refl : map snd [(tk "default:", GDefault); fixed "offset = endOffset;"] = map snd [(tk "default:", GDefault); fixed "offset = endOffset;"]).
  generalize (map snd [(tk "default:", GDefault); fixed "offset = endOffset;"]) at 1 3. intros e E. induction parts as [|x l IH]; [rewrite E; reflexivity|]. cbn [flat_map]. rewrite map_app, <- app_assoc.
  destruct x as [la n [k|]|s]; [| |exact IH]; cbn [ppairs app map snd].
  - unfold read_pair, call_pair. cbn [snd app as_cases]. rewrite as_calls. cbn [obind advances]. rewrite is_refl. cbn [obind]. rewrite IH. reflexivity.
  - cbn [as_cases obind advances]. rewrite is_refl. cbn [obind]. rewrite IH. reflexivity.
Qed.
Lemma as_vars vars : as_members (map mdecl vars) = Some (map plain_var vars).
Proof. induction vars as [|v l IH]; [reflexivity|]. cbn [map as_members as_member mdecl obind]. rewrite IH. reflexivity. Qed.
Lemma as_npairs x : x <> NoNotifier -> as_notifier (map snd (npairs x)) = Some (stripped x).
Proof.
  intros N. destruct x as [| |g parts vars]; [contradiction|reflexivity|]. cbn [npairs].
  change (fixed "uint32_t endOffset = offset + len;") with (tk "uint32_t endOffset = offset + len;", GDecl (lit "uint32_t", false, lit "endOffset", None) (Some (XBin OPlus (XId (lit "offset")) (XId (lit "len"))))).
  change (fixed "(void)arg;") with (tk "(void)arg;", GExpr (XVoid (XId (lit "arg")))).
  change (fixed "(void)nodeData;") with (tk "(void)nodeData;", GExpr (XVoid (XId (lit "nodeData")))).
  destruct g as [g|]; cbn [app map snd union_pair guard_pair while_pair as_notifier].
  - rewrite as_vars. cbn [ignores]. rewrite !is_refl. cbn [andb obind as_guard as_loop]. rewrite !is_refl, str_eqb_refl. cbn [andb obind]. rewrite as_switch. reflexivity.
  - rewrite as_vars. cbn [ignores]. rewrite !is_refl. cbn [andb obind as_loop]. rewrite !is_refl. cbn [andb]. rewrite as_switch. reflexivity.
Qed.

Lemma cases_strip T parts : cases T (filter is_case parts) = cases T parts.
Proof. induction parts as [|[a b k|s] l IH]; [reflexivity| |exact IH]. cbn [filter is_case cases]. rewrite IH. reflexivity. Qed.
Definition rx_part (x : cbpart) : Prop := match x with PCase a b _ => (exists r, a = lit "APX_RX_" ++ r) /\ (exists r, b = lit "APX_RX_" ++ r) | _ => True end.
Lemma cases_three c T parts : Forall rx_part parts -> cases (three c ++ T) parts = cases T parts.
Proof.
  induction 1 as [|x l P _ IH]; [reflexivity|]. destruct x as [a b k|s]; [|exact IH]. destruct P as [[r ->] [q ->]]. cbn [cases]. rewrite IH, !three_rx. reflexivity.
Qed.
Definition calls_in (l : list cfun) (k : option cbcall) : Prop := match k with Some k => In (cl_read k) (map cf_name l) | None => True end.
Lemma cases_calls l T : forall parts cs, Forall (fun x => match x with PCase _ _ k => calls_in l k | _ => True end) parts -> cases T parts = Some cs -> Forall (fun p => calls_in l (snd p)) cs.
Proof.
  induction parts as [|[a b k|s] r IH]; intros cs F E; inversion F; subst.
  - injection E as <-. constructor.
  - cbn [cases] in E. destruct (macro T a); [|discriminate]. cbn [obind] in E. destruct (macro T b); [|discriminate]. cbn [obind] in E. destruct (cases T r) as [q|]; [|discriminate]. cbn [obind] in E.
    destruct (existsb _ q); [discriminate|]. injection E as <-. constructor; [assumption|]. apply IH; [assumption|reflexivity].
  - exact (IH cs H2 E).
Qed.

Lemma same_loop us reads data old cs : (forall s v, In s (map cf_name reads) -> read_text us data s v = read_call reads s data v) ->
  Forall (fun p => calls_in reads (snd p)) cs ->
  forall k a b, loop_text us k data old cs a b = notify_loop k reads data old cs a b.
Proof.
  intros R F. induction k as [|k IH]; intros a b; [reflexivity|]. cbn [loop_text notify_loop]. destruct (a <? b); [|reflexivity].
  destruct (find (fun c => fst (fst c) =? a) cs) as [[[x n] call]|] eqn:E; [|reflexivity]. apply find_some in E as [I _]. rewrite Forall_forall in F. specialize (F _ I). cbn [snd] in F.
  rewrite IH. destruct call as [q|]; [|reflexivity]. cbn [calls_in] in F. rewrite (R _ _ F). reflexivity.
Qed.

Section Notify.
Variable c : cfile.
Variable ds : list str.
Let us := file_units c ds.
Hypothesis ND : NoDup (fun_names us).

Lemma read_in f : In f (c_reads c) -> In (funit (lit "m_inPortdata") f) us.
Proof. intros I. unfold us, file_units. rewrite !in_app_iff. right. right. left. apply in_map, I. Qed.
Lemma write_in f : In f (c_writes c) -> In (funit (lit "m_outPortdata") f) us.
Proof. intros I. unfold us, file_units. rewrite !in_app_iff. right. right. right. left. apply in_map, I. Qed.
Lemma read_is f data v : In f (c_reads c) -> call_text us (lit "m_inPortdata") (cf_name f) data v = call f data v.
Proof.
  intros I. unfold call_text. pose proof (function_one _ _ _ ND (read_in f I)) as E. cbn [cp_name] in E. rewrite E. cbn [obind].
  destruct (as_funit (lit "m_inPortdata") f eq_refl) as (g & A & _ & _ & _ & C). unfold funit in A. rewrite A. apply C.
Qed.
Lemma write_is f data v : In f (c_writes c) -> call_text us (lit "m_outPortdata") (cf_name f) data v = call f data v.
Proof.
  intros I. unfold call_text. pose proof (function_one _ _ _ ND (write_in f I)) as E. cbn [cp_name] in E. rewrite E. cbn [obind].
  destruct (as_funit (lit "m_outPortdata") f eq_refl) as (g & A & _ & _ & _ & C). unfold funit in A. rewrite A. apply C.
Qed.
Lemma fun_names_are : fun_names us = [lit "ApxNode_Init_" ++ c_name c; lit "ApxNode_GetNodeData_" ++ c_name c; lit "ApxNode_IsConnected_" ++ c_name c]
  ++ map cf_name (c_reads c) ++ map cf_name (c_writes c) ++ (match c_notifier c with NoNotifier => [] | _ => [notify_name (c_name c)] end).
Proof.
  unfold us, file_units, fun_names. rewrite !flat_map_app.
  assert (flat_map fun_name (var_units c ds) = []) as ->.
  { unfold var_units, out_units, in_units. destruct (0 <? c_outlen c), (0 <? c_inlen c), (c_synced c); reflexivity. }
  assert (forall b l, flat_map fun_name (map (funit b) l) = map cf_name l) as E by (intros b l; induction l as [|f l IH]; [reflexivity|]; cbn [map flat_map]; rewrite IH; reflexivity).
  rewrite !E. cbn [node_funs nullary map snd flat_map fun_name cp_name app]. do 5 f_equal. f_equal. destruct (c_notifier c); reflexivity.
Qed.
Lemma read_call_is s data v : In s (map cf_name (c_reads c)) -> read_text us data s v = read_call (c_reads c) s data v.
Proof.
  intros I. apply in_map_iff in I as (f & <- & I). unfold read_text. rewrite (read_is f data v I). unfold read_call.
  assert (NoDup (map cf_name (c_reads c))) as N.
  { pose proof ND as N. rewrite fun_names_are in N. apply NoDup_app_r in N. revert N. generalize (map cf_name (c_reads c)). induction l as [|x l IH]; [constructor|]. cbn [app]. inversion 1 as [|? ? A B]; subst.
    constructor; [intros J; apply A, in_or_app; left; exact J|auto]. }
  assert (filter (fun g => str_eqb (cf_name g) (cf_name f)) (c_reads c) = [f]) as ->; [|reflexivity].
  revert I N. induction (c_reads c) as [|g l IH]; [intros []|]. cbn [map filter]. intros I N. inversion N as [|? ? A B]; subst. destruct I as [->|I].
  - rewrite str_eqb_refl. f_equal. clear - A. induction l as [|h l IH]; [reflexivity|]. cbn [filter]. destruct (str_eqb (cf_name h) (cf_name f)) eqn:E; [|apply IH; intros J; apply A; right; exact J].
    apply str_eqb_eq in E. exfalso. apply A. left. exact E.
  - destruct (str_eqb (cf_name g) (cf_name f)) eqn:E; [|auto]. apply str_eqb_eq in E. exfalso. apply A. rewrite E. apply in_map, I.
Qed.
Lemma notifier_is : c_notifier c <> NoNotifier -> notifier_of us (notify_name (c_name c)) = Some (stripped (c_notifier c)).
Proof.
  intros N. unfold notifier_of.
  assert (In (UFun (notify_proto (notify_name (c_name c))) (map snd (npairs (c_notifier c)))) us) as I.
  { unfold us, file_units. rewrite !in_app_iff. right. right. right. right. destruct (c_notifier c); [contradiction|left; reflexivity|left; reflexivity]. }
  pose proof (function_one _ _ _ ND I) as E. cbn [cp_name notify_proto] in E. rewrite E. cbn [obind cp_params notify_proto]. rewrite ?is_refl. cbn [andb cp_ret]. rewrite ?is_refl. cbn [andb]. apply as_npairs, N.
Qed.
Lemma notify_is lines data old offset n : macros lines = three c ++ c_lens c ++ c_offsets c ->
  (match c_notifier c with
   | NoNotifier => False
   | Ignores => True
   | Switch g parts _ => match g with Some g => exists r, g = lit "APX_RX_" ++ r | None => True end /\ Forall rx_part parts /\
       Forall (fun x => match x with PCase _ _ k => calls_in (c_reads c) k | _ => True end) parts
   end) ->
  notify_text lines us (notify_name (c_name c)) data old offset n = callbacks_called c data old offset n.
Proof.
  intros M H. unfold notify_text, callbacks_called. rewrite notifier_is by (destruct (c_notifier c); [destruct H|discriminate|discriminate]). cbn [obind].
  destruct (c_notifier c) as [| |g parts vars]; [destruct H|reflexivity|]. destruct H as (G & P & R). cbn [stripped]. rewrite M.
  rewrite cases_strip, (cases_three c _ parts P). cbv zeta.
  assert (match g with None => Some offset | Some g => let? first := constant lines g in Some (if offset <? first then first else offset) end =
    match g with None => Some offset | Some g => let? first := macro (c_lens c ++ c_offsets c) g in Some (if offset <? first then first else offset) end) as ->.
  { destruct g as [g|]; [|reflexivity]. destruct G as [r ->]. unfold constant. rewrite M, three_rx. reflexivity. }
  destruct (match g with None => Some offset | Some g => _ end) as [a|]; [|reflexivity]. cbn [obind].
  destruct (cases (c_lens c ++ c_offsets c) parts) as [cs|] eqn:E; [|reflexivity]. cbn [obind]. apply same_loop; [intros s v; apply read_call_is|]. apply (cases_calls _ _ _ _ R E).
Qed.
End Notify.
