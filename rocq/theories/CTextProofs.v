(** Proofs about reading C: words, expressions, statements. *)
From Coq Require Import ZifyBool ZifyNat Lia.
From Verif Require Import Py PyLemmas TypesModel TextModel TextProofs AttrModel NodeModel VmModel TypesSpec CompilerModel
  NodeDataModel NodeDataSpec GenModel GenSpec GenProofs GenFilesModel ComModel CTextSpec.
Ltac Zify.zify_post_hook ::= Z.div_mod_to_equations.

(** ** Words *)

Fixpoint lexto (st : lex_state) (s : str) : option (list tok * lex_state) :=
  match s with
  | [] => Some ([], st)
  | c :: r =>
    match goes_on st c with
    | Some x => let? p := x in let? u := lexto (snd p) r in Some (fst p ++ fst u, snd u)
    | None => let? t := finish st in let? st' := start c in let? u := lexto st' r in Some (t ++ fst u, snd u)
    end
  end.
Lemma lexto_lex s : forall st t st', lexto st s = Some (t, st') -> forall u, finish st' = Some u -> lex st s = Some (t ++ u).
Proof.
  induction s as [|c s IH]; intros st t st' E u F; cbn [lexto lex] in *; [injection E as <- <-; exact F|].
  destruct (goes_on st c) as [[[a st1]|]|]; cbn [obind fst snd] in *; try discriminate.
  - destruct (lexto st1 s) as [[t1 st2]|] eqn:E1; [|discriminate]. cbn [obind fst snd] in E. injection E as <- <-. rewrite (IH _ _ _ E1 _ F). cbn [obind]. rewrite app_assoc. reflexivity.
  - destruct (finish st) as [a|]; [|discriminate]. cbn [obind] in *. destruct (start c) as [st1|]; [|discriminate]. cbn [obind] in *.
    destruct (lexto st1 s) as [[t1 st2]|] eqn:E1; [|discriminate]. cbn [obind fst snd] in E. injection E as <- <-. rewrite (IH _ _ _ E1 _ F). cbn [obind]. rewrite app_assoc. reflexivity.
Qed.
Lemma lexto_app s : forall st t st' s' t' st'', lexto st s = Some (t, st') -> lexto st' s' = Some (t', st'') -> lexto st (s ++ s') = Some (t ++ t', st'').
Proof.
  induction s as [|c s IH]; intros st t st' s' t' st'' E F; cbn [lexto app] in *; [injection E as <- <-; exact F|].
  destruct (goes_on st c) as [[[a st1]|]|]; cbn [obind fst snd] in *; try discriminate.
  - destruct (lexto st1 s) as [[t1 st2]|] eqn:E1; [|discriminate]. cbn [obind fst snd] in E. injection E as <- <-. rewrite (IH _ _ _ _ _ _ E1 F). cbn [obind fst snd]. rewrite app_assoc. reflexivity.
  - destruct (finish st) as [a|]; [|discriminate]. cbn [obind] in *. destruct (start c) as [st1|]; [|discriminate]. cbn [obind] in *.
    destruct (lexto st1 s) as [[t1 st2]|] eqn:E1; [|discriminate]. cbn [obind fst snd] in E. injection E as <- <-. rewrite (IH _ _ _ _ _ _ E1 F). cbn [obind fst snd]. rewrite app_assoc. reflexivity.
Qed.

(** The text [s] is the words [t]; the last one may go on as [st] says. *)
Definition reads (s : str) (t : list tok) (st : lex_state) : Prop :=
  exists t0 t1, lexto Between s = Some (t0, st) /\ finish st = Some t1 /\ t = t0 ++ t1.
(** A text after which nothing of the next text is needed. *)
Definition parted (st : lex_state) (s : str) : Prop := match s with [] => False | c :: _ => goes_on st c = None end.

Lemma reads_lex s t st : reads s t st -> lex Between s = Some t.
Proof. intros (t0 & t1 & E & F & ->). exact (lexto_lex _ _ _ _ E _ F). Qed.
Lemma reads_app s t st s' t' st' : reads s t st -> reads s' t' st' -> parted st s' -> reads (s ++ s') (t ++ t') st'.
Proof.
  intros (t0 & t1 & E & F & ->) (u0 & u1 & E' & F' & ->) P. destruct s' as [|c r]; [destruct P|]. exists ((t0 ++ t1) ++ u0), u1.
  split; [|split; [exact F'|rewrite !app_assoc; reflexivity]]. rewrite <- app_assoc. refine (lexto_app _ _ _ _ _ _ _ E _). cbn [parted] in P.
  cbn [lexto] in *. rewrite P, F. cbn [obind]. cbn [goes_on finish obind] in E'. destruct (start c) as [st1|]; [|discriminate]. cbn [obind] in *.
  destruct (lexto st1 r) as [[a b]|]; [|discriminate]. cbn [obind fst snd app] in *. injection E' as <- <-. reflexivity.
Qed.
Lemma reads_lit s t st : (let? p := lexto Between s in let? u := finish (snd p) in Some (fst p ++ u, snd p)) = Some (t, st) -> reads s t st.
Proof.
  destruct (lexto Between s) as [[a b]|] eqn:E; cbn [obind fst snd]; [|discriminate]. destruct (finish b) as [u|] eqn:F; cbn [obind]; [|discriminate].
  intros Q. injection Q as <- <-. exists a, u. auto.
Qed.
Lemma reads_nil_after s t st : reads s t st -> reads (s ++ []) t st.
Proof. rewrite app_nil_r. auto. Qed.

Lemma lexto_word w : forall u, forallb name_char w = true -> lexto (InWord u) w = Some ([], InWord (u ++ w)).
Proof.
  induction w as [|c w IH]; intros u F; cbn [lexto]; [rewrite app_nil_r; reflexivity|]. cbn [forallb] in F. apply andb_prop in F as [C F].
  cbn [goes_on]. rewrite C. cbn [obind fst snd]. rewrite (IH _ F). cbn [obind fst snd app]. rewrite <- app_assoc. reflexivity.
Qed.
Lemma lexto_number w : forall u, forallb name_char w = true -> lexto (InNumber u) w = Some ([], InNumber (u ++ w)).
Proof.
  induction w as [|c w IH]; intros u F; cbn [lexto]; [rewrite app_nil_r; reflexivity|]. cbn [forallb] in F. apply andb_prop in F as [C F].
  cbn [goes_on]. rewrite C. cbn [obind fst snd]. rewrite (IH _ F). cbn [obind fst snd app]. rewrite <- app_assoc. reflexivity.
Qed.
(** An identifier or keyword. *)
Definition wordlike (s : str) : Prop := match s with [] => False | c :: _ => letter c = true end /\ forallb name_char s = true.
Lemma reads_word s : wordlike s -> reads s [word s] (InWord s).
Proof.
  intros [L F]. destruct s as [|c r]; [destruct L|]. cbn [forallb] in F. apply andb_prop in F as [_ F]. exists [], [word (c :: r)]. split; [|split; reflexivity].
  cbn [lexto goes_on finish obind]. unfold start. assert (c =? 32 = false) as -> by (unfold letter in L; lia). rewrite L. cbn [obind]. rewrite (lexto_word r [c] F). reflexivity.
Qed.
Lemma word_name s : ~ In s (map (fun p => lit (fst p)) keywords) -> word s = TId s.
Proof.
  intros N. unfold word. destruct (find _ keywords) as [p|] eqn:E; [|reflexivity]. apply find_some in E as [I E]. apply str_eqb_eq in E. destruct N. rewrite <- E.
  exact (in_map (fun p => lit (fst p)) _ _ I).
Qed.
Lemma reads_name s : c_ident s -> reads s [TId s] (InWord s).
Proof. intros (L & F & N). rewrite <- (word_name s N). apply reads_word. split; assumption. Qed.

Lemma digits_loop_first : forall fuel n acc, 0 <= n -> exists c r, digits_loop (S fuel) n acc = c :: r /\ (c = 48 -> (exists k, n < 10 ^ Z.of_nat k /\ (k <= fuel)%nat) \/ n = 0 -> n = 0 /\ r = acc).
Proof.
  induction fuel as [|fuel IH]; intros n acc N; cbn [digits_loop].
  - destruct (n <? 10) eqn:T; eexists _, _; (split; [reflexivity|]); intros C; [intros _; split; [lia|reflexivity]|].
    intros [(k & K & L)|Q]; [|lia]. assert (k = O) as -> by lia. change (10 ^ Z.of_nat 0) with 1 in K. lia.
  - destruct (n <? 10) eqn:T; [eexists _, _; split; [reflexivity|]; intros C _; split; [lia|reflexivity]|].
    destruct (IH (n / 10) ((48 + n mod 10) :: acc) ltac:(lia)) as (c & r & E & P). exists c, r. split; [exact E|]. intros C Q. exfalso.
    destruct Q as [(k & K & L)|Q]; [|lia]. destruct k as [|k]; [change (10 ^ Z.of_nat 0) with 1 in K; lia|]. rewrite Nat2Z.inj_succ, Z.pow_succ_r in K by lia.
    destruct (P C) as [Z0 _]; [left; exists k; split; lia|lia].
Qed.
Lemma decimal_digits s : forall acc, forallb digit s = true -> decimal acc s = Some (digits_val acc s).
Proof.
  induction s as [|c s IH]; intros acc F; [reflexivity|]. cbn [forallb] in F. apply andb_prop in F as [C F]. cbn [decimal]. rewrite C, (IH _ F).
  unfold digits_val. cbn [fold_left]. do 2 f_equal; try lia.
Qed.
Lemma dec_word n : 0 <= n -> forallb digit (dec_nat n) = true /\ c_number (dec_nat n) = Some (TNum n) /\ c_number (dec_nat n ++ lit "u") = Some (TNum n).
Proof.
  intros N. destruct (dec_nat_spec n N) as (NE & A & V). assert (forallb digit (dec_nat n) = true) as F.
  { apply forallb_forall. intros c I. unfold all in A. rewrite Forall_forall in A. exact (A c I). }
  split; [exact F|].
  assert (forall c d r, dec_nat n = c :: d :: r -> c <> 48) as Z48.
  { intros c d r E ->. unfold dec_nat in E. destruct (digits_loop_first (Z.to_nat (Z.log2 n)) n [] N) as (c & r' & E' & P). rewrite E' in E. injection E as -> ->.
    destruct (Z.eq_dec n 0) as [->|NZ]; [destruct (P eq_refl (or_intror eq_refl)) as [_ Q]; discriminate|].
    destruct (Z.eq_dec (Z.log2 n) 0) as [L0|L0].
    - assert (n = 1) as -> by (pose proof (Z.log2_spec n ltac:(lia)) as [U1 U2]; rewrite L0 in *; cbn in U2; lia). cbn in E'. discriminate.
    - destruct P as [Q _]; [reflexivity| |congruence]. left. exists (Z.to_nat (Z.log2 n)). split; [|lia]. pose proof (Z.log2_nonneg n).
      rewrite Z2Nat.id by lia. pose proof (Z.log2_spec n ltac:(lia)) as [_ U]. eapply Z.lt_le_trans; [exact U|]. rewrite <- Z.add_1_r.
      assert (2 ^ (Z.log2 n + 1) <= 10 ^ Z.log2 n); [|lia]. rewrite Z.pow_add_r by lia. change (2 ^ 1) with 2.
      replace (10 ^ Z.log2 n) with (2 ^ Z.log2 n * 5 ^ Z.log2 n) by (rewrite <- Z.pow_mul_l; reflexivity). apply Z.mul_le_mono_nonneg_l; [lia|].
      transitivity (5 ^ 1); [lia|]. apply Z.pow_le_mono_r; lia. }
  assert (forall s, decimal 0 s = Some n -> match s with c :: _ :: _ => c <> 48 \/ match tl s with d :: _ => digit d = false | [] => True end | _ => True end -> c_number s = Some (TNum n)) as C.
  { intros s D X. unfold c_number. destruct s as [|c [|d r]]; [rewrite D; reflexivity|rewrite D; reflexivity|]. destruct ((c =? 48) && digit d) eqn:B; [|rewrite D; reflexivity].
    apply andb_prop in B as [B1 B2]. cbn [tl] in X. destruct X as [X|X]; [lia|congruence]. }
  split.
  - apply C; [rewrite decimal_digits by exact F; rewrite V; reflexivity|]. destruct (dec_nat n) as [|c [|d r]] eqn:E; auto. left. exact (Z48 _ _ _ eq_refl).
  - apply C.
    + assert (forall s acc, forallb digit s = true -> decimal acc (s ++ lit "u") = Some (digits_val acc s)) as D.
      { induction s as [|c s IH]; intros acc Fs; [reflexivity|]. cbn [forallb] in Fs. apply andb_prop in Fs as [Cc Fs]. cbn [decimal app]. rewrite Cc, (IH _ Fs).
        unfold digits_val. cbn [fold_left]. do 2 f_equal; try lia. }
      rewrite D by exact F. rewrite V. reflexivity.
    + destruct (dec_nat n) as [|c [|d r]] eqn:E; cbn [app]; [exact Logic.I|right; reflexivity|left; exact (Z48 _ _ _ eq_refl)].
Qed.
Lemma digit_name s : forallb digit s = true -> forallb name_char s = true.
Proof. rewrite !forallb_forall. intros F c I. unfold name_char. rewrite (F c I). apply orb_true_r. Qed.
Lemma reads_number s n : (exists c r, s = c :: r /\ digit c = true /\ forallb name_char r = true) -> c_number s = Some (TNum n) -> reads s [TNum n] (InNumber s).
Proof.
  intros (c & r & -> & D & F) E. exists [], [TNum n]. cbn [finish]. rewrite E. split; [|split; reflexivity]. cbn [lexto goes_on finish obind]. unfold start.
  assert (c =? 32 = false) as -> by (unfold digit in D; lia). assert (letter c = false) as -> by (unfold letter, digit in *; lia). rewrite D. cbn [obind].
  rewrite (lexto_number r [c] F). reflexivity.
Qed.
Lemma reads_dec n : 0 <= n -> reads (dec_str n) [TNum n] (InNumber (dec_str n)).
Proof.
  intros N. unfold dec_str. assert (n <? 0 = false) as -> by lia. destruct (dec_word n N) as (F & E & _). destruct (dec_nat_spec n N) as (NE & _).
  apply reads_number; [|exact E]. destruct (dec_nat n) as [|c r]; [congruence|]. cbn [forallb] in F. apply andb_prop in F as [D F]. exists c, r. auto using digit_name.
Qed.
Lemma dec_first n : 0 <= n -> exists c r, dec_str n = c :: r /\ digit c = true.
Proof.
  intros N. unfold dec_str. assert (n <? 0 = false) as -> by lia. destruct (dec_word n N) as (F & _). destruct (dec_nat_spec n N) as (NE & _).
  destruct (dec_nat n) as [|c r]; [congruence|]. cbn [forallb] in F. apply andb_prop in F as [D _]. eauto.
Qed.

Lemma two_name a c : name_char c = true -> goes_on (InPunct a) c = None.
Proof.
  intros N. cbn [goes_on]. assert ((a =? 47) && (c =? 47) = false) as -> by (unfold name_char, letter, digit in N; lia).
  assert ((a =? 47) && (c =? 42) = false) as -> by (unfold name_char, letter, digit in N; lia).
  assert (two_chars a c = None) as ->; [|reflexivity]. unfold two_chars.
  assert (forall d e : Z, (name_char e = false) -> str_eqb [a; c] [d; e] = false) as X.
  { intros d e E. destruct (str_eqb [a; c] [d; e]) eqn:Q; [|reflexivity]. apply str_eqb_eq in Q. injection Q as -> ->. congruence. }
  cbn [existsb]. change (lit "->") with [45; 62]. change (lit "+=") with [43; 61]. change (lit "++") with [43; 43]. change (lit "!=") with [33; 61]. change (lit "&&") with [38; 38].
  change (lit "--") with [45; 45]. change (lit "-=") with [45; 61]. change (lit "*=") with [42; 61]. change (lit "/=") with [47; 61]. change (lit "%=") with [37; 61]. change (lit "==") with [61; 61].
  change (lit "<=") with [60; 61]. change (lit ">=") with [62; 61]. change (lit "<<") with [60; 60]. change (lit ">>") with [62; 62]. change (lit "||") with [124; 124].
  change (lit "&=") with [38; 61]. change (lit "|=") with [124; 61]. change (lit "^=") with [94; 61].
  repeat (rewrite X by reflexivity). reflexivity.
Qed.
(** After a word, a number or a closing bracket any other character starts a new word. *)
Definition closed (st : lex_state) : Prop := forall c, name_char c = false -> goes_on st c = None.
Lemma closed_word s : closed (InWord s). Proof. intros c C. cbn [goes_on]. rewrite C. reflexivity. Qed.
Lemma closed_number s : closed (InNumber s). Proof. intros c C. cbn [goes_on]. rewrite C. reflexivity. Qed.
Lemma closed_between : closed Between. Proof. intros c C. reflexivity. Qed.
Lemma closed_brk : closed (InPunct 93). Proof. intros c C. reflexivity. Qed.
Lemma closed_par : closed (InPunct 41). Proof. intros c C. reflexivity. Qed.

(** Lines. *)
Lemma lex_spaces n s : lex Between (repeat 32 n ++ s) = lex Between s.
Proof. induction n as [|n IH]; [reflexivity|]. cbn [repeat app lex goes_on finish obind]. change (start 32) with (Some Between). cbn [obind]. rewrite IH. destruct (lex Between s); reflexivity. Qed.
(** The line is the words [t]. *)
Definition lx (x : str) (t : list tok) : Prop := directive x = false /\ lex Between x = Some t.
Lemma words_line x t l u : lx x t -> words l = Some u -> words (x :: l) = Some (t ++ u).
Proof. intros [D E] W. cbn [words]. rewrite D, E, W. reflexivity. Qed.
Lemma words_app a b t u : words a = Some t -> words b = Some u -> words (a ++ b) = Some (t ++ u).
Proof.
  revert t. induction a as [|x a IH]; intros t A B; cbn [words app] in *; [injection A as <-; exact B|]. destruct (directive x); [auto|].
  destruct (lex Between x) as [p|]; [|discriminate]. cbn [obind] in *. destruct (words a) as [q|]; [|discriminate]. cbn [obind] in A. injection A as <-.
  rewrite (IH _ eq_refl B). cbn [obind]. rewrite app_assoc. reflexivity.
Qed.
Lemma words_one x t : lx x t -> words [x] = Some t.
Proof. intros L. rewrite (words_line x t [] [] L eq_refl), app_nil_r. reflexivity. Qed.
Lemma words_eq x t' t : lx x t' -> t' = t -> words [x] = Some t.
Proof. intros L <-. exact (words_one _ _ L). Qed.
Lemma words_map {A} (f : A -> list str) (g : A -> list tok) l : (forall x, In x l -> words (f x) = Some (g x)) -> words (flat_map f l) = Some (flat_map g l).
Proof. induction l as [|x l IH]; intros H; [reflexivity|]. cbn [flat_map]. apply words_app; [apply H; left; reflexivity|apply IH; intros y Y; apply H; right; exact Y]. Qed.
Lemma lx_line n s t st : reads s t st -> (0 < n)%nat -> lx (line n s) t.
Proof. intros R N. split; [destruct n; [lia|reflexivity]|]. unfold line. rewrite lex_spaces. exact (reads_lex _ _ _ R). Qed.
Lemma lx_stmt n s t st : reads s t st -> goes_on st 59 = None -> (0 < n)%nat -> lx (stmt n s) (t ++ [TOp OSemi]).
Proof.
  intros R G N. eapply lx_line; [|exact N]. eapply reads_app; [exact R| |exact G]. apply reads_lit. vm_compute. reflexivity.
Qed.
Lemma reads_eq s t t' st : reads s t st -> t = t' -> reads s t' st.
Proof. intros R <-. exact R. Qed.

(** ** The words of the statements *)

Fixpoint path (e : cexpr) : Prop :=
  match e with
  | EVal => True
  | EDeref _ => False
  | EArrow e s | EDot e s => path e /\ c_ident s
  | EIdx e => path e
  end.
Definition okx (e : cexpr) : Prop := match e with EDeref e => path e | _ => path e end.
Fixpoint et (e : cexpr) : list tok :=
  match e with
  | EVal => [TId (lit "val")]
  | EDeref e => TOp OStar :: et e
  | EArrow e s => et e ++ [TOp OArrow; TId s]
  | EDot e s => et e ++ [TOp ODot; TId s]
  | EIdx e => et e ++ [TOp OLbrk; TId (lit "i"); TOp ORbrk]
  end.
Fixpoint ex (e : cexpr) : cx :=
  match e with
  | EVal => XId (lit "val")
  | EDeref e => XDeref (ex e)
  | EArrow e s => XArrow (ex e) s
  | EDot e s => XField (ex e) s
  | EIdx e => XIndex (ex e) (XId (lit "i"))
  end.

Lemma ident_first s : c_ident s -> exists c r, s = c :: r /\ name_char c = true.
Proof. intros (L & F & _). destruct s as [|c r]; [destruct L|]. exists c, r. unfold name_char. rewrite L. auto. Qed.
Lemma parted_ident st s r : (forall c, name_char c = true -> goes_on st c = None) -> c_ident s -> parted st (s ++ r).
Proof. intros P I. destruct (ident_first s I) as (c & q & -> & N). exact (P c N). Qed.
Lemma parted_dec st n r : (forall c, name_char c = true -> goes_on st c = None) -> 0 <= n -> parted st (dec_str n ++ r).
Proof. intros P N. destruct (dec_first n N) as (c & q & -> & D). apply P. unfold name_char. rewrite D. apply orb_true_r. Qed.
Lemma closed_parted st c r : closed st -> name_char c = false -> parted st (c :: r).
Proof. intros C N. exact (C c N). Qed.

Lemma reads_path e : path e -> exists st, reads (expr_text e) (et e) st /\ closed st.
Proof.
  induction e as [|e IH|e IH s|e IH s|e IH]; intros P; cbn [path expr_text et] in *.
  - exists (InWord (lit "val")). split; [apply reads_lit; vm_compute; reflexivity|apply closed_word].
  - destruct P.
  - destruct P as [P I]. destruct (IH P) as (st & R & C). exists (InWord s). split; [|apply closed_word].
    eapply reads_app; [exact R| |apply (closed_parted st 45); [exact C|reflexivity]].
    change [TOp OArrow; TId s] with ([TOp OArrow] ++ [TId s]). eapply reads_app; [apply reads_lit; vm_compute; reflexivity|apply reads_name, I|].
    rewrite <- (app_nil_r s). apply parted_ident; [reflexivity|exact I].
  - destruct P as [P I]. destruct (IH P) as (st & R & C). exists (InWord s). split; [|apply closed_word].
    eapply reads_app; [exact R| |apply (closed_parted st 46); [exact C|reflexivity]].
    change [TOp ODot; TId s] with ([TOp ODot] ++ [TId s]). eapply reads_app; [apply reads_lit; vm_compute; reflexivity|apply reads_name, I|].
    rewrite <- (app_nil_r s). apply parted_ident; [apply two_name|exact I].
  - destruct (IH P) as (st & R & C). exists (InPunct 93). split; [|apply closed_brk].
    eapply reads_app; [exact R| |apply (closed_parted st 91); [exact C|reflexivity]]. apply reads_lit. vm_compute. reflexivity.
Qed.
Lemma path_first e : path e -> exists r, expr_text e = 118 :: r.
Proof.
  induction e as [|e IH|e IH s|e IH s|e IH]; intros P; cbn [path expr_text] in *; [eexists; reflexivity|destruct P|destruct P as [P _]|destruct P as [P _]|];
    (destruct (IH P) as (r & ->); eexists; reflexivity).
Qed.
Lemma reads_expr e : okx e -> exists st, reads (expr_text e) (et e) st /\ closed st.
Proof.
  destruct e; try apply reads_path. cbn [okx expr_text et]. intros P. destruct (reads_path e P) as (st & R & C). exists st. split; [|exact C].
  change (TOp OStar :: et e) with ([TOp OStar] ++ et e). eapply reads_app; [apply reads_lit; vm_compute; reflexivity|exact R|].
  destruct (path_first e P) as (r & ->). reflexivity.
Qed.
Lemma parted_expr st e r : okx e -> goes_on st 118 = None -> goes_on st 42 = None -> parted st (expr_text e ++ r).
Proof.
  intros O A B. destruct e; cbn [okx] in O; [exact A|exact B| | |]; destruct (path_first _ O) as (q & ->); exact A.
Qed.

Section Buffer.
Variable buf : str.
Hypothesis buf_ident : c_ident buf.
Hypothesis buf_p : buf <> lit "p".

Definition ab (n : Z) : list tok := [TOp OLbrk; TNum n; TOp ORbrk].
Definition at_ (a : addr) : list tok := match a with AP => [TId (lit "p")] | AOff o => [TOp OAmp; TId buf] ++ ab o end.
Definition bt (a : addr) : list tok := match a with AP => [TOp OStar; TId (lit "p")] | AOff o => TId buf :: ab o end.
Definition nt (a : addr) (n : Z) : list tok := match a with AP => TId (lit "p") :: ab n | AOff o => TId buf :: ab (o + n) end.
Definition ax (a : addr) : cx := match a with AP => XId (lit "p") | AOff o => XAddr (XIndex (XId buf) (XNum o)) end.
Definition bx (a : addr) : cx := match a with AP => XDeref (XId (lit "p")) | AOff o => XIndex (XId buf) (XNum o) end.
Definition nx (a : addr) (n : Z) : cx := match a with AP => XIndex (XId (lit "p")) (XNum n) | AOff o => XIndex (XId buf) (XNum (o + n)) end.
Definition oka (a : addr) : Prop := match a with AP => True | AOff o => 0 <= o end.
Definition szt (b : basetype) : list tok := [TKw KSizeof; TOp OLpar; TType b; TOp ORpar].
Definition u8 : list tok := [TOp OLpar; TType BU8; TOp ORpar].

Fixpoint stoks (s : cstmt) : list tok :=
  match s with
  | SStore a e => bt a ++ [TOp OEq] ++ u8 ++ et e ++ [TOp OSemi]
  | SLoad e b a => et e ++ [TOp OEq; TOp OLpar; TType b; TOp ORpar] ++ bt a ++ [TOp OSemi]
  | SPack a e b =>
    [TId (lit "packLE"); TOp OLpar] ++ at_ a ++ [TOp OComma; TOp OLpar; TType BU32; TOp ORpar] ++ et e ++ [TOp OComma] ++ u8 ++ szt b ++ [TOp ORpar; TOp OSemi]
  | SUnpack e b a =>
    et e ++ [TOp OEq; TOp OLpar; TType b; TOp ORpar; TId (lit "unpackLE"); TOp OLpar] ++ at_ a ++ [TOp OComma] ++ u8 ++ szt b ++ [TOp ORpar; TOp OSemi]
  | SCopyTo a e n => [TId (lit "memcpy"); TOp OLpar] ++ at_ a ++ [TOp OComma] ++ et e ++ [TOp OComma; TNum n; TOp ORpar; TOp OSemi]
  | SCopyFrom e a n => [TId (lit "memcpy"); TOp OLpar] ++ et e ++ [TOp OComma] ++ at_ a ++ [TOp OComma; TNum n; TOp ORpar; TOp OSemi]
  | SNul a n => nt a n ++ [TOp OEq; TChr 0; TOp OSemi]
  | SInc => [TId (lit "p"); TOp OInc; TOp OSemi]
  | SAddT b => [TId (lit "p"); TOp OAddEq] ++ szt b ++ [TOp OSemi]
  | SAddN n => [TId (lit "p"); TOp OAddEq; TNum n; TOp OSemi]
  | SFor n body =>
    [TKw KFor; TOp OLpar; TId (lit "i"); TOp OEq; TNum 0; TOp OSemi; TId (lit "i"); TOp OLess; TNum n; TOp OSemi; TId (lit "i"); TOp OInc; TOp ORpar; TOp OLbrc]
    ++ flat_map stoks body ++ [TOp ORbrc]
  end.
Fixpoint gs (s : cstmt) : cs :=
  match s with
  | SStore a e => GExpr (XAssign (bx a) (XCast BU8 (ex e)))
  | SLoad e b a => GExpr (XAssign (ex e) (XCast b (bx a)))
  | SPack a e b => GExpr (XCall (XId (lit "packLE")) [ax a; XCast BU32 (ex e); XCast BU8 (XSizeT b)])
  | SUnpack e b a => GExpr (XAssign (ex e) (XCast b (XCall (XId (lit "unpackLE")) [ax a; XCast BU8 (XSizeT b)])))
  | SCopyTo a e n => GExpr (XCall (XId (lit "memcpy")) [ax a; ex e; XNum n])
  | SCopyFrom e a n => GExpr (XCall (XId (lit "memcpy")) [ex e; ax a; XNum n])
  | SNul a n => GExpr (XAssign (nx a n) (XChr 0))
  | SInc => GExpr (XInc (XId (lit "p")))
  | SAddT b => GExpr (XAddTo (XId (lit "p")) (XSizeT b))
  | SAddN n => GExpr (XAddTo (XId (lit "p")) (XNum n))
  | SFor n body =>
    GFor (XAssign (XId (lit "i")) (XNum 0)) (XBin OLess (XId (lit "i")) (XNum n)) (XInc (XId (lit "i"))) (GBlock (map gs body))
  end.
Fixpoint oks (s : cstmt) : Prop :=
  match s with
  | SStore a e | SPack a e _ => oka a /\ okx e
  | SLoad e _ a | SUnpack e _ a => oka a /\ okx e
  | SCopyTo a e n | SCopyFrom e a n => oka a /\ okx e /\ 0 <= n
  | SNul a n => oka a /\ 0 <= n
  | SInc | SAddT _ => True
  | SAddN n => 0 <= n
  | SFor n body => 0 <= n /\ (fix all l := match l with [] => True | x :: r => oks x /\ all r end) body
  end.
Lemma oks_for n body : oks (SFor n body) <-> 0 <= n /\ Forall oks body.
Proof.
  cbn [oks]. apply and_iff_compat_l. induction body as [|x r IH]; [split; auto|]. rewrite IH. split; [intros [A B]; constructor; assumption|intros F; inversion F; auto].
Qed.
Lemma cstmt_rect' (P : cstmt -> Prop) :
  (forall s, match s with SFor n body => Forall P body | _ => True end -> P s) -> forall s, P s.
Proof.
  intros H. fix IH 1. intros s. apply H. destruct s; try exact Logic.I. induction body as [|x r IHr]; constructor; [apply IH|exact IHr].
Qed.

Ltac piece := first [apply reads_name; assumption | apply reads_dec; (assumption || lia) | eassumption | apply reads_lit; vm_compute; reflexivity].
Lemma reads_bracket n : 0 <= n -> reads (bracket n) (ab n) (InPunct 93).
Proof.
  intros N. unfold bracket. eapply reads_eq; [eapply reads_app; [piece|eapply reads_app; [piece|piece|]|]|reflexivity].
  - apply closed_number. reflexivity.
  - apply parted_dec; [apply two_name|exact N].
Qed.
Lemma reads_addr a : oka a -> exists st, reads (addr_text buf a) (at_ a) st /\ closed st.
Proof.
  destruct a as [|o]; cbn [oka addr_text at_]; intros O.
  - eexists. split; [piece|apply closed_word].
  - exists (InPunct 93). split; [|apply closed_brk]. eapply reads_eq; [eapply reads_app; [piece|eapply reads_app; [piece|apply reads_bracket, O|]|]|reflexivity].
    + apply closed_word. reflexivity.
    + apply parted_ident; [apply two_name|exact buf_ident].
Qed.
Lemma reads_byte a : oka a -> exists st, reads (byte_text buf a) (bt a) st /\ closed st.
Proof.
  destruct a as [|o]; cbn [oka byte_text bt]; intros O.
  - eexists. split; [apply reads_lit; vm_compute; reflexivity|apply closed_word].
  - exists (InPunct 93). split; [|apply closed_brk]. eapply reads_eq; [eapply reads_app; [piece|apply reads_bracket, O|]|reflexivity].
    apply closed_word. reflexivity.
Qed.
Lemma reads_later a n : oka a -> 0 <= n -> exists st, reads (later_text buf a n) (nt a n) st /\ closed st.
Proof.
  destruct a as [|o]; cbn [oka later_text nt]; intros O N; exists (InPunct 93); (split; [|apply closed_brk]).
  - eapply reads_eq; [eapply reads_app; [apply reads_lit; vm_compute; reflexivity|apply reads_bracket, N|reflexivity]|reflexivity].
  - eapply reads_eq; [eapply reads_app; [piece|apply reads_bracket; lia|]|reflexivity]. apply closed_word. reflexivity.
Qed.
Lemma parted_addr st a r : goes_on st 112 = None -> goes_on st 38 = None -> parted st (addr_text buf a ++ r).
Proof. destruct a; cbn [addr_text]; auto. Qed.
Lemma parted_byte st a r : goes_on st 42 = None -> (forall c, name_char c = true -> goes_on st c = None) -> parted st (byte_text buf a ++ r).
Proof. destruct a; cbn [byte_text]; intros A B; [exact A|]. rewrite <- app_assoc. apply parted_ident; assumption. Qed.
Lemma reads_size b : reads (size_text b) (u8 ++ szt b) (InPunct 41).
Proof. apply reads_lit. destruct b; vm_compute; reflexivity. Qed.
Lemma reads_base b : reads (base_text b) [TType b] (InWord (base_text b)).
Proof. apply reads_lit. destruct b; vm_compute; reflexivity. Qed.
Lemma base_parted st b r : (forall c, name_char c = true -> goes_on st c = None) -> parted st (base_text b ++ r).
Proof. destruct b; intros P; apply P; reflexivity. Qed.

Ltac side :=
  lazymatch goal with
  | |- parted _ (expr_text _ ++ _) => apply parted_expr; [assumption|reflexivity|reflexivity]
  | |- parted _ (expr_text ?e) => rewrite <- (app_nil_r (expr_text e)); apply parted_expr; [assumption|reflexivity|reflexivity]
  | |- parted _ (addr_text _ _ ++ _) => apply parted_addr; reflexivity
  | |- parted _ (byte_text _ ?a) => rewrite <- (app_nil_r (byte_text _ a)); apply parted_byte; [reflexivity|first [apply two_name|reflexivity]]
  | |- parted _ (dec_str _ ++ _) => apply parted_dec; [first [reflexivity|apply two_name]|assumption || lia]
  | |- parted _ (dec_str ?n) => rewrite <- (app_nil_r (dec_str n)); apply parted_dec; [first [reflexivity|apply two_name]|assumption || lia]
  | |- parted _ (base_text _ ++ _) => apply base_parted; apply two_name
  | |- parted _ (size_text _ ++ _) => reflexivity
  | |- parted _ (lit _ ++ _) => first [(apply closed_parted; [first [assumption|apply closed_number|apply closed_word|apply closed_brk|apply closed_par|apply closed_between]|reflexivity]) | reflexivity]
  | |- parted _ (lit _) => first [(apply closed_parted; [first [assumption|apply closed_number|apply closed_word|apply closed_brk|apply closed_par|apply closed_between]|reflexivity]) | reflexivity]
  | |- parted _ (?s ++ _) => apply parted_ident; [first [reflexivity|apply two_name]|assumption]
  | |- parted _ ?s => rewrite <- (app_nil_r s); apply parted_ident; [first [reflexivity|apply two_name]|assumption]
  end.
Ltac leaf :=
  lazymatch goal with
  | |- reads (size_text _) _ _ => apply reads_size
  | |- reads (base_text _) _ _ => apply reads_base
  | |- reads (dec_str _) _ _ => apply reads_dec; (assumption || lia)
  | |- reads (lit _) _ _ => apply reads_lit; vm_compute; reflexivity
  | |- _ => first [eassumption | apply reads_name; assumption]
  end.
Ltac chain :=
  lazymatch goal with
  | |- reads (_ ++ _) _ _ => eapply reads_app; [leaf|chain|side]
  | |- _ => leaf
  end.

Lemma words_stmt s : forall n, oks s -> (0 < n)%nat -> words (stmt_lines buf n s) = Some (stoks s).
Proof.
  induction s as [s IH] using cstmt_rect'. intros n O N. destruct s; cbn [oks stmt_lines stoks] in *.
  - destruct O as [A E]. destruct (reads_expr e E) as (se & Re & Ce). destruct (reads_byte a A) as (sa & Ra & Ca). eapply words_eq; [eapply lx_stmt; [chain|apply Ce; reflexivity|exact N]|unfold u8, szt; rewrite <- ?app_assoc; reflexivity].
  - destruct O as [A E]. destruct (reads_expr e E) as (se & Re & Ce). destruct (reads_byte a A) as (sa & Ra & Ca). eapply words_eq; [eapply lx_stmt; [chain|apply Ca; reflexivity|exact N]|unfold u8, szt; rewrite <- ?app_assoc; reflexivity].
  - destruct O as [A E]. destruct (reads_expr e E) as (se & Re & Ce). destruct (reads_addr a A) as (sa & Ra & Ca). eapply words_eq; [eapply lx_stmt; [chain|reflexivity|exact N]|unfold u8, szt; rewrite <- ?app_assoc; reflexivity].
  - destruct O as [A E]. destruct (reads_expr e E) as (se & Re & Ce). destruct (reads_addr a A) as (sa & Ra & Ca). eapply words_eq; [eapply lx_stmt; [chain|reflexivity|exact N]|unfold u8, szt; rewrite <- ?app_assoc; reflexivity].
  - destruct O as (A & E & L). destruct (reads_expr e E) as (se & Re & Ce). destruct (reads_addr a A) as (sa & Ra & Ca). eapply words_eq; [eapply lx_stmt; [chain|reflexivity|exact N]|unfold u8, szt; rewrite <- ?app_assoc; reflexivity].
  - destruct O as (A & E & L). destruct (reads_expr e E) as (se & Re & Ce). destruct (reads_addr a A) as (sa & Ra & Ca). eapply words_eq; [eapply lx_stmt; [chain|reflexivity|exact N]|unfold u8, szt; rewrite <- ?app_assoc; reflexivity].
  - destruct O as (A & L). destruct (reads_later a n0 A L) as (sa & Ra & Ca). eapply words_eq; [eapply lx_stmt; [chain|reflexivity|exact N]|unfold u8, szt; rewrite <- ?app_assoc; reflexivity].
  - eapply words_eq; [eapply lx_stmt; [chain|reflexivity|exact N]|unfold u8, szt; rewrite <- ?app_assoc; reflexivity].
  - eapply words_eq; [eapply lx_stmt; [chain|reflexivity|exact N]|unfold u8, szt; rewrite <- ?app_assoc; reflexivity].
  - eapply words_eq; [eapply lx_stmt; [chain|apply closed_number; reflexivity|exact N]|unfold u8, szt; rewrite <- ?app_assoc; reflexivity].
  - apply oks_for in O as [L F].
    eassert _ as X. { eapply (lx_line n (lit "for(i=0;i<" ++ dec_str n0 ++ lit ";i++)")); [chain|exact N]. }
    eassert _ as Y. { eapply (lx_line n (lit "{")); [chain|exact N]. }
    eassert _ as Z. { eapply (lx_line n (lit "}")); [chain|exact N]. }
    assert (words (flat_map (stmt_lines buf (n + 3)) body) = Some (flat_map stoks body)) as B.
    { apply words_map. intros x I. rewrite Forall_forall in *. apply IH; [exact I|apply F, I|lia]. }
    exact (words_app _ _ _ _ (words_line _ _ _ _ X (words_one _ _ Y)) (words_app _ _ _ _ B (words_one _ _ Z))).
Qed.
End Buffer.

(** ** Parsing *)

(** With enough fuel. *)
Definition evl {A} (f : nat -> option A) (x : A) : Prop := exists n, forall k, (n <= k)%nat -> f k = Some x.
Lemma evl_at {A} (f : nat -> option A) x n : (forall k, f (n + k)%nat = Some x) -> evl f x.
Proof. intros H. exists n. intros k L. replace k with (n + (k - n))%nat by lia. apply H. Qed.

(** What cannot go on an operand, nor an operator. *)
Definition stop (t : list tok) : bool :=
  match t with TOp (ORpar | ORbrk | OSemi | OComma | OColon | OEq | OAddEq) :: _ => true | _ => false end.
Ltac stops H := match type of H with stop ?t = true => destruct t as [|[?|?|?|?|[]|?|?] ?]; try discriminate H end.

Definition halt (t : list tok) : bool := match t with TOp (ORpar | ORbrk | OSemi | OComma | OColon) :: _ => true | _ => false end.
Lemma halt_stop t : halt t = true -> stop t = true.
Proof. intros H. destruct t as [|[?|?|?|?|[]|?|?] ?]; try discriminate H; reflexivity. Qed.

(** What the parsers make of some words. *)
Definition EU t x r := evl (fun k => p_unary k t) (x, r).
Definition EP a t x r := evl (fun k => p_post k a t) (x, r).
Definition EL l t x r := evl (fun k => p_level k l t) (x, r).
Definition EE t x r := evl (fun k => p_expr k t) (x, r).
Definition EA t l r := evl (fun k => p_args k t) (l, r).
Definition ES t s r := evl (fun k => p_stmt k t) (s, r).
Definition EB t l r := evl (fun k => p_stmts k t) (l, r).

Lemma post_stop k a t : stop t = true -> p_post (S k) a t = Some (a, t).
Proof. intros H. stops H; reflexivity. Qed.
Lemma more_stop k l a t : stop t = true -> p_more (S k) (S l) a t = Some (a, t).
Proof. intros H. stops H; reflexivity. Qed.

Lemma P_stop a t : stop t = true -> EP a t a t.
Proof. intros H. exists 1%nat. intros [|k] L; [lia|]. apply post_stop, H. Qed.
Lemma P_bin a o t : Nat.eqb (level_of o) 0 = false -> EP a (TOp o :: t) a (TOp o :: t).
Proof. intros H. exists 1%nat. intros [|k] L; [lia|]. destruct o; try discriminate H; reflexivity. Qed.
Lemma P_dot a s t x r : EP (XField a s) t x r -> EP a (TOp ODot :: TId s :: t) x r.
Proof. intros (n & H). exists (S n). intros [|k] L; [lia|]. cbn [p_post]. apply H. lia. Qed.
Lemma P_arrow a s t x r : EP (XArrow a s) t x r -> EP a (TOp OArrow :: TId s :: t) x r.
Proof. intros (n & H). exists (S n). intros [|k] L; [lia|]. cbn [p_post]. apply H. lia. Qed.
Lemma P_inc a t x r : EP (XInc a) t x r -> EP a (TOp OInc :: t) x r.
Proof. intros (n & H). exists (S n). intros [|k] L; [lia|]. cbn [p_post]. apply H. lia. Qed.
Lemma P_index a t i t' x r : EE t i (TOp ORbrk :: t') -> EP (XIndex a i) t' x r -> EP a (TOp OLbrk :: t) x r.
Proof. intros (n & H) (m & G). exists (S (n + m)). intros [|k] L; [lia|]. cbn [p_post]. rewrite H by lia. cbn [obind expect]. apply G. lia. Qed.
Lemma P_call a t l t' x r : match t with TOp ORpar :: _ => False | _ => True end -> EA t l t' -> EP (XCall a l) t' x r -> EP a (TOp OLpar :: t) x r.
Proof.
  intros N (n & H) (m & G). exists (S (n + m)). intros [|k] L; [lia|].
  transitivity (let! (args, t) := p_args k t in p_post k (XCall a args) t); [destruct t as [|[?|?|?|?|[]|?|?] ?]; try destruct N; reflexivity|]. rewrite H by lia. cbn [obind]. apply G. lia.
Qed.
Lemma P_call0 a t x r : EP (XCall a []) t x r -> EP a (TOp OLpar :: TOp ORpar :: t) x r.
Proof. intros (n & H). exists (S n). intros [|k] L; [lia|]. cbn [p_post]. apply H. lia. Qed.

Lemma U_id s t x r : EP (XId s) t x r -> EU (TId s :: t) x r.
Proof. intros (n & H). exists (S n). intros [|k] L; [lia|]. cbn [p_unary]. apply H. lia. Qed.
Lemma U_num z t x r : EP (XNum z) t x r -> EU (TNum z :: t) x r.
Proof. intros (n & H). exists (S n). intros [|k] L; [lia|]. cbn [p_unary]. apply H. lia. Qed.
Lemma U_str z t x r : EP (XStr z) t x r -> EU (TStr z :: t) x r.
Proof. intros (n & H). exists (S n). intros [|k] L; [lia|]. cbn [p_unary]. apply H. lia. Qed.
Lemma U_chr z t x r : EP (XChr z) t x r -> EU (TChr z :: t) x r.
Proof. intros (n & H). exists (S n). intros [|k] L; [lia|]. cbn [p_unary]. apply H. lia. Qed.
Lemma U_star t x r : EU t x r -> EU (TOp OStar :: t) (XDeref x) r.
Proof. intros (n & H). exists (S n). intros [|k] L; [lia|]. cbn [p_unary]. rewrite H by lia. reflexivity. Qed.
Lemma U_amp t x r : EU t x r -> EU (TOp OAmp :: t) (XAddr x) r.
Proof. intros (n & H). exists (S n). intros [|k] L; [lia|]. cbn [p_unary]. rewrite H by lia. reflexivity. Qed.
Lemma U_cast b t x r : EU t x r -> EU (TOp OLpar :: TType b :: TOp ORpar :: t) (XCast b x) r.
Proof. intros (n & H). exists (S n). intros [|k] L; [lia|]. cbn [p_unary]. rewrite H by lia. reflexivity. Qed.
Lemma U_castp b t x r : EU t x r -> EU (TOp OLpar :: TType b :: TOp OStar :: TOp ORpar :: t) (XCastPtr b x) r.
Proof. intros (n & H). exists (S n). intros [|k] L; [lia|]. cbn [p_unary]. rewrite H by lia. reflexivity. Qed.
Lemma U_void t x r : EU t x r -> EU (TOp OLpar :: TKw KVoid :: TOp ORpar :: t) (XVoid x) r.
Proof. intros (n & H). exists (S n). intros [|k] L; [lia|]. cbn [p_unary]. rewrite H by lia. reflexivity. Qed.
Lemma U_size b t : EU (TKw KSizeof :: TOp OLpar :: TType b :: TOp ORpar :: t) (XSizeT b) t.
Proof. exists 1%nat. intros [|k] L; [lia|]. reflexivity. Qed.
Lemma U_sizeid s t x r : EE (TId s :: t) x (TOp ORpar :: r) -> EU (TKw KSizeof :: TOp OLpar :: TId s :: t) (XSize x) r.
Proof. intros (n & H). exists (S n). intros [|k] L; [lia|]. cbn [p_unary]. rewrite H by lia. reflexivity. Qed.
Lemma U_par s t x r y q : EE (TId s :: t) x (TOp ORpar :: r) -> EP x r y q -> EU (TOp OLpar :: TId s :: t) y q.
Proof. intros (n & H) (m & G). exists (S (n + m)). intros [|k] L; [lia|]. cbn [p_unary]. rewrite H by lia. cbn [obind expect]. apply G. lia. Qed.

(** [t] is an expression without operators up to level [l]. *)
Definition free (l : nat) (t : list tok) : bool := match t with TOp o :: _ => Nat.eqb (level_of o) 0 || Nat.ltb l (level_of o) | _ => true end.
Lemma L_unary l t x r : EU t x r -> free l r = true -> EL l t x r.
Proof.
  intros (n & H) F. exists (S (l + n)). intros k L. remember (k - S l)%nat as q. replace k with (S (l + q)) by lia. assert (n <= q)%nat as Q by lia. clear L Heqq k.
  induction l as [|l IH]; [exact (H q Q)|]. cbn [Nat.add].
  change (p_level (S (S (l + q))) (S l) t) with (let! (a, t) := p_level (S (l + q)) l t in p_more (S (l + q)) (S l) a t).
  assert (free l r = true) as F'. { unfold free in *. destruct r as [|[?|?|?|?|o|?|?] ?]; auto. apply orb_true_iff in F as [F|F]; [rewrite F; reflexivity|].
    apply Nat.ltb_lt in F. apply orb_true_iff. right. apply Nat.ltb_lt. lia. }
  rewrite (IH F'). cbn [obind]. cbn [p_more]. unfold free in F. destruct r as [|[?|?|?|?|o|?|?] ?]; auto.
  assert (Nat.eqb (level_of o) (S l) = false) as ->; [|reflexivity]. apply Nat.eqb_neq. apply orb_true_iff in F as [F|F]; [apply Nat.eqb_eq in F; lia|apply Nat.ltb_lt in F; lia].
Qed.
(** One operator of level [l]. *)
Lemma L_up l t x r : EL l t x r -> free (S l) r = true -> EL (S l) t x r.
Proof.
  intros (n & H) F. exists (S (S n)). intros [|k] L; [lia|]. destruct k as [|k]; [lia|].
  change (p_level (S (S k)) (S l) t) with (let! (a, t) := p_level (S k) l t in p_more (S k) (S l) a t). rewrite H by lia. cbn [obind p_more].
  unfold free in F. destruct r as [|[?|?|?|?|o|?|?] ?]; auto.
  assert (Nat.eqb (level_of o) (S l) = false) as ->; [|reflexivity]. apply Nat.eqb_neq. apply orb_true_iff in F as [F|F]; [apply Nat.eqb_eq in F; lia|apply Nat.ltb_lt in F; lia].
Qed.
Lemma L_bin l o t a t' b r : level_of o = S l -> EL l t a (TOp o :: t') -> EL l t' b r -> free (S l) r = true -> EL (S l) t (XBin o a b) r.
Proof.
  intros Lo (n & H) (m & G) F. exists (S (S (S (n + m)))). intros [|k] L; [lia|]. destruct k as [|k]; [lia|].
  change (p_level (S (S k)) (S l) t) with (let! (a, t) := p_level (S k) l t in p_more (S k) (S l) a t). rewrite H by lia. cbn [obind p_more]. rewrite Lo, Nat.eqb_refl. cbn [pred].
  rewrite G by lia. cbn [obind]. destruct k as [|k]; [lia|]. cbn [p_more].
  unfold free in F. destruct r as [|[?|?|?|?|o'|?|?] ?]; auto.
  assert (Nat.eqb (level_of o') (S l) = false) as ->; [|reflexivity]. apply Nat.eqb_neq. apply orb_true_iff in F as [F|F]; [apply Nat.eqb_eq in F; lia|apply Nat.ltb_lt in F; lia].
Qed.
Lemma E_level t x r : EL 4 t x r -> halt r = true -> EE t x r.
Proof.
  intros (n & H) F. exists (S n). intros [|k] L; [lia|]. cbn [p_expr]. rewrite H by lia. cbn [obind]. destruct r as [|[?|?|?|?|[]|?|?] ?]; try discriminate F; reflexivity.
Qed.
Lemma E_unary t x r : EU t x r -> halt r = true -> EE t x r.
Proof. intros U H. apply E_level; [|exact H]. apply L_unary; [exact U|]. destruct r as [|[?|?|?|?|[]|?|?] ?]; try discriminate H; reflexivity. Qed.
Lemma E_assign t a t' b r : EU t a (TOp OEq :: t') -> EE t' b r -> EE t (XAssign a b) r.
Proof.
  intros U (m & G). destruct (L_unary 4 _ _ _ U eq_refl) as (n & H). exists (S (n + m)). intros [|k] L; [lia|]. cbn [p_expr]. rewrite H by lia. cbn [obind]. rewrite G by lia. reflexivity.
Qed.
Lemma E_addto t a t' b r : EU t a (TOp OAddEq :: t') -> EE t' b r -> EE t (XAddTo a b) r.
Proof.
  intros U (m & G). destruct (L_unary 4 _ _ _ U eq_refl) as (n & H). exists (S (n + m)). intros [|k] L; [lia|]. cbn [p_expr]. rewrite H by lia. cbn [obind]. rewrite G by lia. reflexivity.
Qed.
Lemma E_bin o l t a t' b r : level_of o = S l -> (l < 4)%nat -> EU t a (TOp o :: t') -> EU t' b r -> halt r = true -> EE t (XBin o a b) r.
Proof.
  intros Lo L4 U V H. apply E_level; [|exact H].
  assert (forall i, free i r = true) as F by (intros i; destruct r as [|[?|?|?|?|[]|?|?] ?]; try discriminate H; reflexivity).
  assert (EL (S l) t (XBin o a b) r) as A.
  { eapply L_bin; [exact Lo|apply L_unary; [exact U|]|apply L_unary; [exact V|apply F]|apply F]. cbn [free]. rewrite Lo. apply orb_true_iff. right. apply Nat.ltb_lt. lia. }
  clear - A F L4. remember (3 - l)%nat as d. revert l L4 A Heqd. induction d as [|d IH]; intros l L4 A D; [replace 4%nat with (S l) by lia; exact A|].
  apply (IH (S l)); [lia|apply L_up; [exact A|apply F]|lia].
Qed.

Lemma A_one t e r : EE t e (TOp ORpar :: r) -> EA t [e] r.
Proof. intros (n & H). exists (S n). intros [|k] L; [lia|]. cbn [p_args]. rewrite H by lia. reflexivity. Qed.
Lemma A_more t e t' l r : EE t e (TOp OComma :: t') -> EA t' l r -> EA t (e :: l) r.
Proof. intros (n & H) (m & G). exists (S (n + m)). intros [|k] L; [lia|]. cbn [p_args]. rewrite H by lia. cbn [obind]. rewrite G by lia. reflexivity. Qed.

(** A statement that is an expression. *)
Definition plain (t : list tok) : bool :=
  match t with TId _ :: TId _ :: _ => false | TId _ :: _ | TOp (OStar | OLpar) :: _ => true | _ => false end.
Lemma S_expr t e r : plain t = true -> EE t e (TOp OSemi :: r) -> ES t (GExpr e) r.
Proof.
  intros P (n & H). exists (S n). intros [|k] L; [lia|].
  transitivity (let! (e, t) := p_expr k t in let? t := expect OSemi t in Some (GExpr e, t)); [|rewrite H by lia; reflexivity].
  unfold plain in P. destruct t as [|[?|?|?|?|[]|?|?] [|[?|?|?|?|?|?|?] ?]]; try discriminate P; reflexivity.
Qed.
Lemma S_return t e r : EE t e (TOp OSemi :: r) -> ES (TKw KReturn :: t) (GReturn e) r.
Proof. intros (n & H). exists (S n). intros [|k] L; [lia|]. cbn [p_stmt]. rewrite H by lia. reflexivity. Qed.
Lemma S_block t l r : EB t l r -> ES (TOp OLbrc :: t) (GBlock l) r.
Proof. intros (n & H). exists (S n). intros [|k] L; [lia|]. cbn [p_stmt]. rewrite H by lia. reflexivity. Qed.
Lemma S_for t a t1 b t2 c t3 s r : EE t a (TOp OSemi :: t1) -> EE t1 b (TOp OSemi :: t2) -> EE t2 c (TOp ORpar :: t3) -> ES t3 s r ->
  ES (TKw KFor :: TOp OLpar :: t) (GFor a b c s) r.
Proof.
  intros (n1 & H1) (n2 & H2) (n3 & H3) (n4 & H4). exists (S (n1 + n2 + n3 + n4)). intros [|k] L; [lia|]. cbn [p_stmt expect obind].
  rewrite H1 by lia. cbn [expect obind]. rewrite H2 by lia. cbn [expect obind]. rewrite H3 by lia. cbn [expect obind]. rewrite H4 by lia. reflexivity.
Qed.
Lemma B_nil r : EB (TOp ORbrc :: r) [] r.
Proof. exists 1%nat. intros [|k] L; [lia|]. reflexivity. Qed.
Lemma B_cons t s t' l r : match t with TOp ORbrc :: _ => False | _ => True end -> ES t s t' -> EB t' l r -> EB t (s :: l) r.
Proof.
  intros N (n & H) (m & G). exists (S (n + m)). intros [|k] L; [lia|].
  transitivity (let! (s, t) := p_stmt k t in let! (l, t) := p_stmts k t in Some (s :: l, t)); [destruct t as [|[?|?|?|?|[]|?|?] ?]; try destruct N; reflexivity|].
  rewrite H by lia. cbn [obind]. rewrite G by lia. reflexivity.
Qed.

(** ** Parsing the statements *)

Lemma path_unary e : path e -> forall x r rest, EP (ex e) rest x r -> EU (et e ++ rest) x r.
Proof.
  induction e as [|e IH|e IH s|e IH s|e IH]; intros P x r rest H; cbn [path et ex] in *; rewrite <- ?app_assoc; cbn [app].
  - apply U_id, H.
  - destruct P.
  - destruct P as [P _]. apply (IH P). apply P_arrow, H.
  - destruct P as [P _]. apply (IH P). apply P_dot, H.
  - apply (IH P). eapply P_index; [|exact H]. apply E_unary; [|reflexivity]. apply U_id, P_stop. reflexivity.
Qed.
Lemma expr_unary e rest : okx e -> stop rest = true -> EU (et e ++ rest) (ex e) rest.
Proof.
  intros O S. destruct e; try (apply path_unary; [exact O|apply P_stop, S]). cbn [okx et ex app] in *. apply U_star, path_unary; [exact O|apply P_stop, S].
Qed.
(** How an expression starts. *)
Lemma path_start e o rest : path e -> exists c t, et e ++ TOp o :: rest = TId (lit "val") :: TOp c :: t.
Proof.
  revert o rest. induction e as [|e IH|e IH s|e IH s|e IH]; intros o rest P; cbn [path et] in *; [do 2 eexists; reflexivity|destruct P|destruct P as [P _]|destruct P as [P _]|];
    rewrite <- app_assoc; apply IH, P.
Qed.
Lemma expr_plain e o rest : okx e -> plain (et e ++ TOp o :: rest) = true.
Proof. intros O. destruct e; try (destruct (path_start _ o rest O) as (c & t & ->); reflexivity). reflexivity. Qed.
Lemma expr_open e o rest : okx e -> match et e ++ TOp o :: rest with TOp ORpar :: _ => False | _ => True end.
Proof. intros O. destruct e; try (destruct (path_start _ o rest O) as (c & t & ->); exact Logic.I). exact Logic.I. Qed.
Lemma expr_more e o rest : okx e -> match et e ++ TOp o :: rest with TOp ORbrc :: _ => False | _ => True end.
Proof. intros O. destruct e; try (destruct (path_start _ o rest O) as (c & t & ->); exact Logic.I). exact Logic.I. Qed.

Section Parse.
Variable buf : str.
Lemma U_at a rest : stop rest = true -> EU (at_ buf a ++ rest) (ax buf a) rest.
Proof.
  intros S. destruct a; cbn [at_ ax app ab]; [apply U_id, P_stop, S|]. apply U_amp, U_id. eapply P_index; [|apply P_stop, S]. apply E_unary; [|reflexivity]. apply U_num, P_stop. reflexivity.
Qed.
Lemma U_bt a rest : stop rest = true -> EU (bt buf a ++ rest) (bx buf a) rest.
Proof.
  intros S. destruct a; cbn [bt bx app ab]; [apply U_star, U_id, P_stop, S|]. apply U_id. eapply P_index; [|apply P_stop, S]. apply E_unary; [|reflexivity]. apply U_num, P_stop. reflexivity.
Qed.
Lemma U_nt a n rest : stop rest = true -> EU (nt buf a n ++ rest) (nx buf a n) rest.
Proof.
  intros S. destruct a; cbn [nt nx app ab]; apply U_id; (eapply P_index; [|apply P_stop, S]); (apply E_unary; [|reflexivity]); apply U_num, P_stop; reflexivity.
Qed.
Ltac asc := rewrite <- ?app_assoc; cbn [app u8 szt].
Ltac go :=
  repeat first
  [ reflexivity | assumption
  | (apply U_at; reflexivity) | (apply U_bt; reflexivity) | (apply U_nt; reflexivity) | (apply expr_unary; [assumption|reflexivity])
  | apply U_cast | apply U_size | apply U_void ].
Lemma parse_stmt s : oks s -> forall rest, ES (stoks buf s ++ rest) (gs buf s) rest.
Proof.
  induction s as [s IH] using cstmt_rect'. intros O rest. destruct s; cbn [oks stoks gs] in *; asc.
  - destruct O as [A E]. apply S_expr; [destruct a; reflexivity|]. eapply E_assign; [go|]. apply E_unary; [|reflexivity]. go.
  - destruct O as [A E]. apply S_expr; [apply expr_plain, E|]. eapply E_assign; [go|]. apply E_unary; [|reflexivity]. go.
  - destruct O as [A E]. apply S_expr; [reflexivity|]. apply E_unary; [|reflexivity]. apply U_id. eapply P_call; [destruct a; exact Logic.I| |apply P_stop; reflexivity].
    eapply A_more; [apply E_unary; [go|reflexivity]|]. eapply A_more; [apply E_unary; [go|reflexivity]|]. apply A_one. apply E_unary; [go|reflexivity].
  - destruct O as [A E]. apply S_expr; [apply expr_plain, E|]. eapply E_assign; [go|]. apply E_unary; [|reflexivity]. apply U_cast. apply U_id.
    eapply P_call; [destruct a; exact Logic.I| |apply P_stop; reflexivity]. eapply A_more; [apply E_unary; [go|reflexivity]|]. apply A_one. apply E_unary; [go|reflexivity].
  - destruct O as (A & E & _). apply S_expr; [reflexivity|]. apply E_unary; [|reflexivity]. apply U_id. eapply P_call; [destruct a; exact Logic.I| |apply P_stop; reflexivity].
    eapply A_more; [apply E_unary; [go|reflexivity]|]. eapply A_more; [apply E_unary; [go|reflexivity]|]. apply A_one. apply E_unary; [apply U_num, P_stop; reflexivity|reflexivity].
  - destruct O as (A & E & _). apply S_expr; [reflexivity|]. apply E_unary; [|reflexivity]. apply U_id. eapply P_call; [apply expr_open, E| |apply P_stop; reflexivity].
    eapply A_more; [apply E_unary; [go|reflexivity]|]. eapply A_more; [apply E_unary; [go|reflexivity]|]. apply A_one. apply E_unary; [apply U_num, P_stop; reflexivity|reflexivity].
  - apply S_expr; [destruct a; reflexivity|]. eapply E_assign; [go|]. apply E_unary; [|reflexivity]. apply U_chr, P_stop. reflexivity.
  - apply S_expr; [reflexivity|]. apply E_unary; [|reflexivity]. apply U_id, P_inc, P_stop. reflexivity.
  - apply S_expr; [reflexivity|]. eapply E_addto; [apply U_id, P_stop; reflexivity|]. apply E_unary; [|reflexivity]. apply U_size.
  - apply S_expr; [reflexivity|]. eapply E_addto; [apply U_id, P_stop; reflexivity|]. apply E_unary; [|reflexivity]. apply U_num, P_stop. reflexivity.
  - apply oks_for in O as [_ F].
    eapply S_for; [eapply E_assign; [apply U_id, P_stop; reflexivity|apply E_unary; [apply U_num, P_stop; reflexivity|reflexivity]]
      |eapply (E_bin _ 1); [reflexivity|lia|apply U_id, P_bin; reflexivity|apply U_num, P_stop; reflexivity|reflexivity]
      |apply E_unary; [apply U_id, P_inc, P_stop; reflexivity|reflexivity]|]. apply S_block.
    induction body as [|x l IHl]; [apply B_nil|]. inversion F as [|? ? F1 F2]; subst. inversion IH as [|? ? I1 I2]; subst. cbn [flat_map map]. rewrite <- app_assoc.
    eapply B_cons; [|exact (I1 F1 _)|exact (IHl I2 F2)].
    destruct x; cbn [stoks oks] in *; asc; try exact Logic.I; try (destruct a; exact Logic.I); destruct F1 as [_ F1]; try destruct F1 as [F1 _]; apply expr_more, F1.
Qed.
End Parse.

(** ** Recognising the statements *)

Lemma as_ex e : as_expr (ex e) = Some e.
Proof. induction e as [|e IH|e IH s|e IH s|e IH]; cbn [ex as_expr]; [reflexivity|rewrite IH; reflexivity..|rewrite IH; reflexivity]. Qed.
Lemma is_refl s : is s (lit s) = true.
Proof. apply str_eqb_refl. Qed.
Lemma same_base_eq a b : same_base a b = true <-> a = b.
Proof. split; [destruct a, b; vm_compute; congruence|intros ->; apply str_eqb_refl]. Qed.

(** The byte written last is at an offset that is printed as one number. *)
Fixpoint norm (s : cstmt) : cstmt :=
  match s with
  | SNul (AOff o) n => SNul (AOff (o + n)) 0
  | SFor n body => SFor n (map norm body)
  | _ => s
  end.
Lemma exec_norm ptr lw s : forall m, exec ptr lw (norm s) m = exec ptr lw s m.
Proof.
  induction s as [s IH] using cstmt_rect'. intros m. destruct s; try reflexivity.
  - destruct a; [reflexivity|]. cbn [norm exec address obind]. rewrite Z.add_0_r. reflexivity.
  - cbn [norm]. destruct lw as [w|]; [|reflexivity]. rewrite !exec_for.
    assert (forall m, steps ptr (Some w) (map norm body) m = steps ptr (Some w) body m) as B.
    { induction body as [|x l IHl]; intros m0; [reflexivity|]. inversion IH as [|? ? I1 I2]; subst. cbn [map steps]. rewrite I1. destruct (exec ptr (Some w) x m0); [|reflexivity]. apply IHl, I2. }
    generalize (S (Z.to_nat n)) as k. generalize (with_i m 0) as m0. intros m0 k. revert m0. induction k as [|k IHk]; intros m0; [reflexivity|]. rewrite !turns_S.
    rewrite B. destruct (m_i m0 <? n); [|reflexivity]. destruct (steps ptr (Some w) body m0); [|reflexivity]. cbn [obind]. apply IHk.
Qed.

Section Recognise.
Variable buf : str.
Hypothesis buf_p : is "p" buf = false.

Lemma as_ax a : as_addr buf (ax buf a) = Some a.
Proof. destruct a; cbn [ax as_addr]; [rewrite is_refl|rewrite str_eqb_refl]; reflexivity. Qed.
Lemma as_bx a : as_byte buf (bx buf a) = Some a.
Proof. destruct a; cbn [bx as_byte]; [rewrite is_refl|rewrite str_eqb_refl]; reflexivity. Qed.
Lemma not_addr e : as_addr buf (ex e) = None.
Proof. destruct e; reflexivity. Qed.
Lemma not_byte e : as_byte buf (ex e) = None.
Proof. destruct e; cbn [ex as_byte]; try reflexivity; destruct e; reflexivity. Qed.

Lemma as_cast l b r : as_stmt buf (GExpr (XAssign l (XCast b r))) = as_assign buf l b r.
Proof. destruct l; try reflexivity. destruct l1; try reflexivity. destruct l2; reflexivity. Qed.
Lemma as_gs s : as_stmt buf (gs buf s) = Some (norm s).
Proof.
  induction s as [s IH] using cstmt_rect'. destruct s; cbn [gs norm].
  - cbn [as_stmt]. unfold as_assign. rewrite as_bx, (proj2 (same_base_eq _ _) eq_refl), as_ex. destruct a; reflexivity.
  - rewrite as_cast.
    unfold as_assign. rewrite not_byte, as_ex. cbn [obind]. rewrite as_bx. destruct a; reflexivity.
  - cbn [as_stmt]. unfold as_call. rewrite as_ax, as_ex. reflexivity.
  - rewrite as_cast.
    unfold as_assign. rewrite not_byte, as_ex. cbn [obind]. rewrite as_ax, is_refl, !(proj2 (same_base_eq _ _) eq_refl). reflexivity.
  - cbn [as_stmt]. assert (as_call buf (lit "memcpy") [ax buf a; ex e; XNum n] = match as_addr buf (ax buf a), as_expr (ex e) with
      | Some a, Some e => Some (SCopyTo a e n) | _, _ => let? e' := as_expr (ax buf a) in let? a' := as_addr buf (ex e) in Some (SCopyFrom e' a' n) end) as ->.
    { destruct e; reflexivity. } rewrite as_ax, as_ex. reflexivity.
  - cbn [as_stmt]. assert (as_call buf (lit "memcpy") [ex e; ax buf a; XNum n] = match as_addr buf (ex e), as_expr (ax buf a) with
      | Some a, Some e => Some (SCopyTo a e n) | _, _ => let? e' := as_expr (ex e) in let? a' := as_addr buf (ax buf a) in Some (SCopyFrom e' a' n) end) as ->.
    { destruct a; reflexivity. } rewrite not_addr, as_ax, as_ex. reflexivity.
  - destruct a; cbn [nx as_stmt]; [reflexivity|]. rewrite buf_p, str_eqb_refl. reflexivity.
  - reflexivity.
  - cbn [as_stmt]. reflexivity.
  - reflexivity.
  - cbn [as_stmt]. rewrite !is_refl. cbn [Z.eqb andb].
    match goal with |- (let? l := ?g in _) = _ => assert (g = Some (map norm body)) as -> end; [|reflexivity].
    induction body as [|x l IHl]; [reflexivity|]. inversion IH as [|? ? I1 I2]; subst. cbn [map]. rewrite I1. cbn [obind]. rewrite (IHl I2). reflexivity.
Qed.
End Recognise.

(** ** Functions *)

Section Functions.
Variable buf : str.
Hypothesis buf_ident : c_ident buf.
Hypothesis buf_p : is "p" buf = false.

Definition ltype (w : looptype) : basetype := match w with L8 => BU8 | L16 => BU16 | L32 => BU32 end.
Definition nd : list tok := [TOp OLpar; TOp OAmp; TId (lit "m_nodeData")].
Definition ftoks (s : fstmt) : list tok :=
  match s with
  | FPtr => [TType BU8; TOp OStar; TId (lit "p"); TOp OSemi]
  | FLoop w => [TType (ltype w); TId (lit "i"); TOp OSemi]
  | FLockOut => TId (lit "apx_nodeData_lockOutPortData") :: nd ++ [TOp ORpar; TOp OSemi]
  | FLockIn => TId (lit "apx_nodeData_lockInPortData") :: nd ++ [TOp ORpar; TOp OSemi]
  | FUnlockIn => TId (lit "apx_nodeData_unlockInPortData") :: nd ++ [TOp ORpar; TOp OSemi]
  | FStart o => [TId (lit "p"); TOp OEq; TOp OAmp; TId buf; TOp OLbrk; TNum o; TOp ORbrk; TOp OSemi]
  | FCode s => stoks buf s
  | FNotify o n d =>
    TId (lit "apx_nodeData_outPortDataWriteNotify") :: nd ++
    [TOp OComma; TNum o; TOp OComma; TNum n; TOp OComma; TId (bool_text d); TOp ORpar; TOp OSemi]
  end.
Definition ndx : cx := XAddr (XId (lit "m_nodeData")).
Definition gf (s : fstmt) : cs :=
  match s with
  | FPtr => GDecl (lit "uint8_t", true, lit "p", None) None
  | FLoop w => GDecl (base_text (ltype w), false, lit "i", None) None
  | FLockOut => GExpr (XCall (XId (lit "apx_nodeData_lockOutPortData")) [ndx])
  | FLockIn => GExpr (XCall (XId (lit "apx_nodeData_lockInPortData")) [ndx])
  | FUnlockIn => GExpr (XCall (XId (lit "apx_nodeData_unlockInPortData")) [ndx])
  | FStart o => GExpr (XAssign (XId (lit "p")) (XAddr (XIndex (XId buf) (XNum o))))
  | FCode s => gs buf s
  | FNotify o n d => GExpr (XCall (XId (lit "apx_nodeData_outPortDataWriteNotify")) [ndx; XNum o; XNum n; XId (bool_text d)])
  end.
Definition okf (s : fstmt) : Prop :=
  match s with FStart o => 0 <= o | FCode s => oks s | FNotify o n _ => 0 <= o /\ 0 <= n | _ => True end.
Definition fnorm (s : fstmt) : fstmt := match s with FCode s => FCode (norm s) | _ => s end.

Ltac chain := 
  lazymatch goal with
  | |- reads (_ ++ _) _ _ => eapply reads_app; [leaf|chain|side]
  | |- _ => leaf
  end
with leaf :=
  lazymatch goal with
  | |- reads (dec_str _) _ _ => apply reads_dec; (assumption || lia)
  | |- reads (bracket _) _ _ => apply reads_bracket; (assumption || lia)
  | |- reads (bool_text ?d) _ _ => apply (reads_lit (bool_text d) [TId (bool_text d)] (InWord (bool_text d))); destruct d; vm_compute; reflexivity
  | |- reads (lit _) _ _ => apply reads_lit; vm_compute; reflexivity
  | |- _ => first [eassumption | apply reads_name; assumption]
  end
with side :=
  lazymatch goal with
  | |- parted _ (dec_str _ ++ _) => apply parted_dec; [first [reflexivity|apply two_name]|assumption || lia]
  | |- parted _ (bool_text ?d ++ _) => destruct d; reflexivity
  | |- parted _ (bracket _) => apply closed_parted; [first [assumption|apply closed_number|apply closed_word|apply closed_brk|apply closed_par|apply closed_between]|reflexivity]
  | |- parted _ (lit _ ++ _) => first [(apply closed_parted; [first [assumption|apply closed_number|apply closed_word|apply closed_brk|apply closed_par|apply closed_between]|reflexivity]) | reflexivity]
  | |- parted _ (lit _) => first [(apply closed_parted; [first [assumption|apply closed_number|apply closed_word|apply closed_brk|apply closed_par|apply closed_between]|reflexivity]) | reflexivity]
  | |- parted _ (?s ++ _) => apply parted_ident; [first [reflexivity|apply two_name]|assumption]
  | |- parted _ ?s => rewrite <- (app_nil_r s); apply parted_ident; [first [reflexivity|apply two_name]|assumption]
  end.
Lemma words_fstmt s : okf s -> words (fstmt_lines buf s) = Some (ftoks s).
Proof.
  destruct s; cbn [okf fstmt_lines ftoks]; intros O; try (vm_compute; reflexivity).
  - destruct w; vm_compute; reflexivity.
  - eapply words_eq; [eapply lx_stmt; [chain|reflexivity|lia]|reflexivity].
  - apply words_stmt; [exact buf_ident|exact O|lia].
  - destruct O as [A B]. eapply words_eq; [eapply lx_stmt; [chain|reflexivity|lia]|reflexivity].
Qed.

Lemma S_fixed n t s : (forall k r, p_stmt (n + k) (t ++ r) = Some (s, r)) -> forall r, ES (t ++ r) s r.
Proof. intros H r. apply (evl_at _ _ n). intros k. apply H. Qed.
Lemma parse_fstmt s : okf s -> forall rest, ES (ftoks s ++ rest) (gf s) rest.
Proof.
  destruct s; cbn [okf]; intros O; [| | | | | |apply parse_stmt, O|]; apply (S_fixed 30); intros; vm_compute; reflexivity.
Qed.
Lemma start_stmt s rest : oks s -> match stoks buf s ++ rest with TOp ORbrc :: _ => False | _ => True end.
Proof.
  destruct s; cbn [stoks oks]; intros O; rewrite <- ?app_assoc; try exact Logic.I; try (destruct a; exact Logic.I);
    destruct O as [_ O]; try destruct O as [O _]; cbn [app]; apply expr_more, O.
Qed.
Lemma start_fstmt s rest : okf s -> match ftoks s ++ rest with TOp ORbrc :: _ => False | _ => True end.
Proof. destruct s; cbn [okf ftoks]; intros O; try exact Logic.I. apply start_stmt, O. Qed.

Lemma as_code s : as_fstmt buf (gs buf s) = Some (FCode (norm s)).
Proof.
  assert (as_fstmt buf (gs buf s) = let? x := as_stmt buf (gs buf s) in Some (FCode x)) as ->.
  { destruct s; cbn [gs]; try reflexivity; try (destruct a; reflexivity); try (destruct e; reflexivity). }
  rewrite (as_gs buf buf_p). reflexivity.
Qed.
Lemma as_gf s : as_fstmt buf (gf s) = Some (fnorm s).
Proof.
  destruct s; try reflexivity.
  - destruct w; reflexivity.
  - cbn [gf as_fstmt]. rewrite str_eqb_refl. reflexivity.
  - apply as_code.
  - destruct direct; reflexivity.
Qed.
Lemma gf_return s : match gf s with GReturn _ => False | _ => True end.
Proof. destruct s; try exact Logic.I. destruct s; exact Logic.I. Qed.
Lemma as_gfs l : as_body buf (map gf l ++ [GReturn (XId (lit "E_OK"))]) = Some (map fnorm l).
Proof.
  induction l as [|x l IH]; [reflexivity|]. cbn [map app].
  transitivity (let? a := as_fstmt buf (gf x) in let? b := as_body buf (map gf l ++ [GReturn (XId (lit "E_OK"))]) in Some (a :: b)).
  - pose proof (gf_return x). destruct (gf x); try contradiction; destruct (map gf l ++ _); reflexivity.
  - rewrite as_gf, IH. reflexivity.
Qed.
Lemma run_norm ptr l : forall dp lw m, run ptr dp lw (map fnorm l) m = run ptr dp lw l m.
Proof.
  induction l as [|x l IH]; intros dp lw m; [reflexivity|]. cbn [map run]. destruct x; cbn [fnorm]; rewrite ?IH; try reflexivity.
  rewrite exec_norm. destruct (exec ptr lw s m); [|reflexivity]. cbn [obind]. apply IH.
Qed.

(** The function as a unit of the file. *)
Definition funit (f : cfun) : unit_ :=
  UFun (mk_cproto (lit "Std_ReturnType") false (cf_name f) [(Some (opt_text (cf_type f)), cf_pointer f, lit "val")])
    (map gf (cf_body f) ++ [GReturn (XId (lit "E_OK"))]).
Definition star (b : bool) : list tok := if b then [TOp OStar] else [].
Definition funtoks (f : cfun) : list tok :=
  [TId (lit "Std_ReturnType"); TId (cf_name f); TOp OLpar; TId (opt_text (cf_type f))] ++ star (cf_pointer f) ++ [TId (lit "val"); TOp ORpar; TOp OLbrc]
  ++ flat_map ftoks (cf_body f) ++ [TKw KReturn; TId (lit "E_OK"); TOp OSemi; TOp ORbrc].
Definition okfun (f : cfun) : Prop := c_ident (cf_name f) /\ c_ident (opt_text (cf_type f)) /\ Forall okf (cf_body f).

Lemma ident_directive s r : c_ident s -> directive (s ++ r) = false.
Proof. intros I. destruct (ident_first s I) as (c & q & -> & N). cbn [app directive]. unfold name_char, letter, digit in N. lia. Qed.
Lemma words_fun f : okfun f -> words (fun_lines buf f) = Some (funtoks f).
Proof.
  intros (N & T & B). unfold fun_lines.
  assert (lx (lit "Std_ReturnType " ++ cf_name f ++ lit "(" ++ opt_text (cf_type f) ++ lit " " ++ (if cf_pointer f then lit "*" else []) ++ lit "val)")
    ([TId (lit "Std_ReturnType"); TId (cf_name f); TOp OLpar; TId (opt_text (cf_type f))] ++ star (cf_pointer f) ++ [TId (lit "val"); TOp ORpar])) as H.
  { split; [reflexivity|]. eapply reads_lex. destruct (cf_pointer f); cbn [star app]; (eapply reads_eq; [chain|reflexivity]). }
  unfold funtoks. 
  assert (words (flat_map (fstmt_lines buf) (cf_body f)) = Some (flat_map ftoks (cf_body f))) as W.
  { apply words_map. rewrite Forall_forall in B. intros x I. apply words_fstmt, B, I. }
  assert (words [stmt 3 (lit "return E_OK"); lit "}"; []] = Some [TKw KReturn; TId (lit "E_OK"); TOp OSemi; TOp ORbrc]) as R by (vm_compute; reflexivity).
  pose proof (words_app _ _ _ _ (words_line _ _ _ _ H (words_one (lit "{") [TOp OLbrc] (conj eq_refl eq_refl))) (words_app _ _ _ _ W R)) as X.
  rewrite <- !app_assoc in X. exact X.
Qed.
End Functions.

(** ** Files *)

Definition EH t f r := evl (fun k => p_head k t) (f, r).
Definition EF t us := evl (fun k => p_file k t) us.
Lemma F_nil : EF [] [].
Proof. exists 1%nat. intros [|k] L; [lia|]. reflexivity. Qed.
Lemma F_fun t f t1 b t2 us : t <> [] -> EH t f (TOp OLbrc :: t1) -> EB t1 b t2 -> EF t2 us -> EF t (UFun f b :: us).
Proof.
  intros NE (n1 & H1) (n2 & H2) (n3 & H3). exists (S (n1 + n2 + n3)). intros [|k] L; [lia|]. cbn [p_file]. destruct t as [|x t]; [congruence|].
  rewrite H1 by lia. rewrite H2 by lia. cbn [obind]. rewrite H3 by lia. reflexivity.
Qed.
Lemma F_proto t f t1 us : t <> [] -> EH t f (TOp OSemi :: t1) -> EF t1 us -> EF t (UProto f :: us).
Proof.
  intros NE (n1 & H1) (n3 & H3). exists (S (n1 + n3)). intros [|k] L; [lia|]. cbn [p_file]. destruct t as [|x t]; [congruence|].
  rewrite H1 by lia. rewrite H3 by lia. reflexivity.
Qed.
Lemma F_other t u t1 us : t <> [] -> (forall k, p_head k t = None) -> upto_semi t = Some (u, t1) -> EF t1 us -> EF t (UOther u :: us).
Proof.
  intros NE H1 H2 (n3 & H3). exists (S n3). intros [|k] L; [lia|]. cbn [p_file]. destruct t as [|x t]; [congruence|].
  rewrite H1, H2. cbn [obind]. rewrite H3 by lia. reflexivity.
Qed.
Lemma B_list {A} (toks : A -> list tok) (g : A -> cs) l : (forall x, In x l -> forall r, ES (toks x ++ r) (g x) r) ->
  (forall x, In x l -> forall r, match toks x ++ r with TOp ORbrc :: _ => False | _ => True end) ->
  forall t m r, EB t m r -> EB (flat_map toks l ++ t) (map g l ++ m) r.
Proof.
  intros H N t m r E. induction l as [|x l IH]; [exact E|]. cbn [flat_map map app]. rewrite <- app_assoc. eapply B_cons.
  - apply N. left. reflexivity.
  - apply H. left. reflexivity.
  - apply IH; intros; [apply H|apply N]; right; assumption.
Qed.
Lemma F_cfun buf f rest us : okfun f -> EF rest us -> EF (funtoks buf f ++ rest) (funit buf f :: us).
Proof.
  intros (N & T & B) E. unfold funtoks. rewrite <- !app_assoc. eapply F_fun; [discriminate| | |exact E].
  - apply (evl_at _ _ 3). intros k. destruct (cf_pointer f); reflexivity.
  - rewrite Forall_forall in B. apply B_list.
    + intros x I. apply parse_fstmt, B, I.
    + intros x I r. apply start_fstmt, B, I.
    + eapply B_cons; [exact Logic.I| |apply B_nil]. apply S_return. apply E_unary; [|reflexivity]. apply U_id, P_stop. reflexivity.
Qed.
Lemma as_funit buf f : is "p" buf = false -> exists g, as_fun buf (funit buf f) = Some g /\ cf_name g = cf_name f /\ cf_type g = Some (opt_text (cf_type f)) /\ cf_pointer g = cf_pointer f /\
  forall data arg, call g data arg = call f data arg.
Proof.
  intros P. exists (mk_cfun (cf_name f) (Some (opt_text (cf_type f))) (cf_pointer f) (map fnorm (cf_body f))). split; [|repeat split].
  - unfold funit, as_fun. cbn [cp_star cp_params cp_ret cp_name]. rewrite !is_refl. cbn [andb]. rewrite (as_gfs buf P). reflexivity.
  - intros data arg. unfold call. cbn [cf_pointer cf_body]. apply run_norm.
Qed.
