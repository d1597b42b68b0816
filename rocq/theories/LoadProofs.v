(** Lemmas about texts with and without header, read from texts and from files. *)
From Coq Require Import ZifyBool ZifyNat Lia.
From Verif Require Import Py PyLemmas TypesModel TextModel SigModel AttrModel NodeModel ParserModel.
From Verif Require Import SigSpec NodeSpec ParserSpec TextProofs SigProofs NodeProofs ElemTextProofs ParserProofs RoundTripProofs.
Ltac Zify.zify_post_hook ::= Z.div_mod_to_equations.

(** ** Lines of a text *)

Lemma none_not_in c (s : str) : none (fun x => x =? c) s -> ~ In c s.
Proof. unfold none. rewrite Forall_forall. intros F I. apply F in I. rewrite Z.eqb_refl in I. discriminate. Qed.
Lemma split_lines first rest : Forall (fun l => ~ In NEWLINE l) (first :: rest) ->
  split_on NEWLINE (join [NEWLINE] (first :: rest)) = first :: rest.
Proof. intros F. apply split_join; [|discriminate]. eapply Forall_impl; [|exact F]. intros a. apply not_in_none. Qed.
Lemma lines_of_text text : exists first rest, text = join [NEWLINE] (first :: rest) /\ Forall (fun l => ~ In NEWLINE l) (first :: rest) /\
  split_on NEWLINE text = first :: rest.
Proof.
  destruct (split_on NEWLINE text) as [|first rest] eqn:E; [destruct (split_on_ne _ _ E)|]. exists first, rest.
  rewrite <- E. split; [symmetry; apply join_split|]. split; [|reflexivity].
  eapply Forall_impl; [|apply split_on_each]. intros a. apply none_not_in.
Qed.

(** ** Headers *)

Lemma version_is s a b : header_version s = Some (a, b) <-> exists more, s = lit "APX/" ++ [a; 46; b] ++ more /\ 48 <= a <= 57 /\ 48 <= b <= 57.
Proof.
  split.
  - intros E. unfold header_version in E.
    repeat match type of E with
    | match ?x with _ => _ end = _ => is_var x; destruct x; try discriminate E
    end.
    match type of E with (if ?c then _ else _) = _ => destruct c eqn:X; [|discriminate] end. injection E as <- <-.
    eexists. split; [reflexivity|]. unfold is_digit in X. lia.
  - intros (more & -> & A & B). unfold header_version. cbn [lit app]. cbn -[is_digit].
    replace (is_digit a) with true by (unfold is_digit; lia). replace (is_digit b) with true by (unfold is_digit; lia). reflexivity.
Qed.
Lemma header_none s : header_version s = None <-> ~ is_header s.
Proof.
  split.
  - intros E (a & b & more & S1 & A & B). assert (header_version s = Some (a, b)) by (apply version_is; eauto). congruence.
  - intros N. destruct (header_version s) as [[a b]|] eqn:E; [|reflexivity]. apply version_is in E as (more & S1 & A & B). 
    exfalso. apply N. exists a, b, more. auto.
Qed.
Lemma header_rstrip s : header_version (rstrip is_crlf s) = header_version s.
Proof.
  destruct (rstrip_split is_crlf s) as (t & E & T). set (r := rstrip is_crlf s) in *. clearbody r. subst s.
  destruct (header_version r) as [[a b]|] eqn:X.
  - apply version_is in X as (more & -> & A & B). symmetry. apply version_is. exists (more ++ t). rewrite <- !app_assoc. auto.
  - destruct (header_version (r ++ t)) as [[a b]|] eqn:Y; [|reflexivity]. exfalso.
    apply version_is in Y as (more & Y & A & B).
    assert (forall c, In c t -> c = 13 \/ c = 10) as TC.
    { intros c I. unfold all in T. rewrite Forall_forall in T. apply T in I. unfold is_crlf in I. lia. }
    assert (forall k c, nth_error (r ++ t) k = Some c -> c <> 13 -> c <> 10 -> (k < length r)%nat) as NK.
    { intros k c K C1 C2. destruct (Nat.lt_ge_cases k (length r)) as [|L]; [auto|]. rewrite nth_error_app2 in K by exact L.
      apply nth_error_In, TC in K. lia. }
    assert (6 < length r)%nat as L by (apply (NK 6%nat b); [rewrite Y; reflexivity|lia|lia]).
    assert (header_version r = Some (a, b)); [|congruence]. apply version_is.
    exists (skipn 7 r). split; [|auto]. rewrite <- (firstn_skipn 7 r) at 1. rewrite app_assoc. f_equal.
    assert (firstn 7 (r ++ t) = firstn 7 r) as <-; [|rewrite Y; reflexivity].
    rewrite firstn_app. replace (7 - length r)%nat with 0%nat by lia. cbn [firstn]. apply app_nil_r.
Qed.

Lemma version12_is s : version12 s <-> header_version s = Some (49, 50).
Proof.
  rewrite version_is. unfold version12. split; intros (more & E).
  - exists more. rewrite E. repeat split; lia.
  - exists more. apply E.
Qed.

(** ** loads *)

Definition finish (W : world) (P : parser) : res (world * node) :=
  match p_node P with
  | None => Err RuntimeError
  | Some nd => do W <- resolve_types W nd; Ok (W, nd)
  end.
Lemma loads_body W text body : text_body text body ->
  loads W text = do '(W, P) <- process_lines W new_parser body; finish W P.
Proof.
  intros (first & rest & -> & F & H). unfold loads, loads_with. rewrite split_lines by exact F. cbn [hd tl]. rewrite header_rstrip.
  destruct H as [[V ->]|[N ->]].
  - apply version12_is in V. rewrite V. reflexivity.
  - apply header_none in N. rewrite N. reflexivity.
Qed.
Lemma body_of text : (exists body, text_body text body) \/
  (exists first rest, text = join [NEWLINE] (first :: rest) /\ Forall (fun l => ~ In NEWLINE l) (first :: rest) /\ is_header first /\ ~ version12 first).
Proof.
  destruct (lines_of_text text) as (first & rest & E & F & _). destruct (header_version first) as [[a b]|] eqn:X.
  - destruct (Z.eq_dec a 49) as [->|NA].
    + destruct (Z.eq_dec b 50) as [->|NB].
      * left. exists rest, first, rest. split; [exact E|]. split; [exact F|]. left. split; [apply version12_is; exact X|reflexivity].
      * right. exists first, rest. split; [exact E|]. split; [exact F|]. split; [|rewrite version12_is; congruence].
        apply version_is in X as (m & Y & A & B). exists 49, b, m. auto.
    + right. exists first, rest. split; [exact E|]. split; [exact F|]. split; [|rewrite version12_is; congruence].
      apply version_is in X as (m & Y & A & B). exists a, b, m. auto.
  - left. exists (first :: rest), first, rest. split; [exact E|]. split; [exact F|]. right. split; [apply header_none; exact X|reflexivity].
Qed.
Lemma loads_other W first rest : Forall (fun l => ~ In NEWLINE l) (first :: rest) -> is_header first -> ~ version12 first ->
  loads W (join [NEWLINE] (first :: rest)) = Err NotImplementedError.
Proof.
  intros F H V. unfold loads, loads_with. rewrite split_lines by exact F. cbn [hd tl]. rewrite header_rstrip.
  destruct (header_version first) as [[a b]|] eqn:X; [|apply header_none in X; contradiction].
  assert ((a, b) <> (49, 50)) as NE by (intros Y; rewrite Y in X; apply V, version12_is, X).
  destruct a as [|p|p]; try reflexivity. do 6 (try (destruct p as [p|p|]; try reflexivity)).
  destruct b as [|p|p]; try reflexivity. do 6 (try (destruct p as [p|p|]; try reflexivity)). congruence.
Qed.

(** ** Equal lines *)

Lemma process_line_eq W P l l' : split_line l = split_line l' -> process_line W P l = process_line W P l'.
Proof. unfold process_line. intros ->. reflexivity. Qed.
Lemma process_blank W P l : split_line l = None -> process_line W P l = Ok (W, P).
Proof. unfold process_line. intros ->. reflexivity. Qed.
Lemma process_same l l' : same_lines l l' -> forall W P, process_lines W P l = process_lines W P l'.
Proof.
  induction 1 as [|t l l' T S IH|t l l' T S IH|b t t' l l' B T T' S IH]; intros W P; cbn [process_lines].
  - reflexivity.
  - rewrite process_blank by (apply split_line_trailing, T). apply IH.
  - rewrite process_blank by (apply split_line_trailing, T). apply IH.
  - rewrite (process_line_eq W P (b ++ t) (b ++ t')) by (rewrite !split_line_body by auto; reflexivity).
    destruct (process_line W P (b ++ t')) as [[W1 P1]|]; [|reflexivity]. cbn [bind]. apply IH.
Qed.

(** ** load *)

Inductive line_ends : list str -> list str -> Prop :=
| le_end : line_ends [] [[]]
| le_last f : f <> [] -> line_ends [f] [f]
| le_cons f l m : line_ends l m -> line_ends ((f ++ [10]) :: l) (f :: m).
Lemma read_split s : line_ends (read_lines s) (split_on NEWLINE s).
Proof.
  induction s as [|c s IH]; [constructor|]. cbn [read_lines split_on]. unfold NEWLINE in *. destruct (c =? 10) eqn:E.
  - apply Z.eqb_eq in E. subst c. apply (le_cons [] _ _ IH).
  - inversion IH as [|f NE|f l m R]; subst.
    + apply le_last. discriminate.
    + apply le_last. discriminate.
    + apply (le_cons (c :: f) _ _ R).
Qed.

Lemma strip_crlf_tail t : all is_crlf t -> forall b, all is_crlf (strip_comment b t).
Proof.
  induction 1 as [|c t C A IH]; intros b; [constructor|]. cbn [strip_comment]. destruct (c =? 10); [constructor; [exact C|apply IH]|].
  destruct b; [apply IH|]. destruct (c =? 35) eqn:X; [unfold is_crlf in C; lia|]. constructor; [exact C|apply IH].
Qed.
Lemma strip_end t : all is_crlf t -> forall a b, exists u, strip_comment b (a ++ t) = strip_comment b a ++ u /\ all is_crlf u.
Proof.
  intros T. induction a as [|c a IH]; intros b.
  - exists (strip_comment b t). split; [reflexivity|apply strip_crlf_tail, T].
  - cbn [app strip_comment]. destruct (c =? 10).
    + destruct (IH false) as (u & -> & U). exists u. auto.
    + destruct b; [apply IH|]. destruct (c =? 35); [apply IH|]. destruct (IH false) as (u & -> & U). exists u. auto.
Qed.
Lemma split_rstrip l : split_line (rstrip is_crlf l) = split_line l.
Proof.
  destruct (rstrip_split is_crlf l) as (t & E & T). set (r := rstrip is_crlf l) in *. clearbody r. subst l.
  unfold split_line. destruct (strip_end t T r false) as (u & -> & U). rewrite rstrip_more; [reflexivity|].
  eapply Forall_impl; [|exact U]. intros c. unfold is_crlf, is_eol. lia.
Qed.
Lemma split_newline f : split_line (f ++ [10]) = split_line f.
Proof.
  unfold split_line. destruct (strip_end [10] ltac:(repeat constructor) f false) as (u & -> & U). rewrite rstrip_more; [reflexivity|].
  eapply Forall_impl; [|exact U]. intros c. unfold is_crlf, is_eol. lia.
Qed.
Lemma process_ends l m : line_ends l m -> forall W P, process_lines W P (map (rstrip is_crlf) l) = process_lines W P m.
Proof.
  induction 1 as [|f NE|f l m R IH]; intros W P; cbn [map process_lines].
  - reflexivity.
  - rewrite (process_line_eq W P _ f) by apply split_rstrip. reflexivity.
  - rewrite (process_line_eq W P _ f) by (rewrite split_rstrip; apply split_newline).
    destruct (process_line W P f) as [[W1 P1]|]; [|reflexivity]. cbn [bind]. apply IH.
Qed.

Lemma load_header W first rest : Forall (fun l => ~ In NEWLINE l) (first :: rest) -> is_header first ->
  let text := join [NEWLINE] (first :: rest) in
  load W text = loads W text \/
  (exists W' P, process_lines W new_parser rest = Ok (W', P) /\ p_node P = None /\ load W text = Err AttributeError /\ loads W text = Err RuntimeError).
Proof.
  intros F H text. pose proof (read_split text) as RS. unfold text in RS. rewrite split_lines in RS by exact F. fold text in RS.
  destruct H as (a & b & more & E1 & A & B).
  assert (first <> []) as NE by (rewrite E1; discriminate).
  assert (header_version first = Some (a, b)) as HV by (apply version_is; eauto).
  assert ((read_lines text = [first] /\ rest = []) \/ exists l, read_lines text = (first ++ [10]) :: l /\ line_ends l rest) as RL.
  { inversion RS as [X Y|f NF X Y|f l m R X Y]; [congruence|left; auto|right; eauto]. }
  assert (header_version (rstrip is_crlf (hd [] (read_lines text))) = Some (a, b)) as HH.
  { rewrite header_rstrip. destruct RL as [[-> _]|(l & -> & _)]; cbn [hd]; [exact HV|]. apply version_is. exists (more ++ [10]).
    rewrite E1, <- !app_assoc. auto. }
  destruct (Z.eq_dec a 49) as [->|NA]; [destruct (Z.eq_dec b 50) as [->|NB]|].
  - assert (text_body text rest) as TB by (exists first, rest; split; [reflexivity|]; split; [exact F|]; left; split; [apply version12_is; exact HV|reflexivity]).
    pose proof (loads_body W text rest TB) as LB.
    assert (load W text = do '(W, P) <- process_lines W new_parser rest;
      match p_node P with None => Err AttributeError | Some nd => do W <- resolve_types W nd; Ok (W, nd) end) as LD.
    { unfold load, load_with. rewrite HH. cbn [bind]. destruct RL as [[-> ->]|(l & -> & R)]; cbn [tl map]; [reflexivity|].
      rewrite (process_ends _ _ R). reflexivity. }
    rewrite LB, LD. destruct (process_lines W new_parser rest) as [[W1 P1]|] eqn:PL; [|left; reflexivity]. cbn [bind]. unfold finish.
    destruct (p_node P1) eqn:PN; [left; reflexivity|]. right. exists W1, P1. auto.
  - left. assert (~ version12 first) as V by (rewrite version12_is; congruence).
    assert (is_header first) as IH by (exists 49, b, more; auto).
    unfold text at 2. rewrite loads_other by auto. unfold load, load_with.
    rewrite HH.
    destruct b as [|p|p]; try reflexivity. do 6 (try (destruct p as [p|p|]; try reflexivity)). congruence.
  - left. assert (~ version12 first) as V by (rewrite version12_is; congruence).
    assert (is_header first) as IH by (exists a, b, more; auto).
    unfold text at 2. rewrite loads_other by auto. unfold load, load_with.
    rewrite HH.
    destruct a as [|p|p]; try reflexivity. do 6 (try (destruct p as [p|p|]; try reflexivity)). congruence.
Qed.

(** ** Every port line *)

Lemma says_fun line p q : line_says line p -> line_says line q -> p = q.
Proof. intros A B. apply line_says_split in A, B. congruence. Qed.

Lemma ports_said (pr : bool) body : forall st st', reads_lines st body st' -> (fst st = START -> snd st = None) ->
  forall D', snd st' = Some D' ->
  exists ns, names_said [if pr then 80 else 82] body ns /\
    map pd_name (if pr then df_provide D' else df_require D') =
    match snd st with Some D => map pd_name (if pr then df_provide D else df_require D) | None => [] end ++ ns.
Proof.
  induction body as [|line body IH]; intros st st' R ST D' E; inversion R as [|? ? s1 ? ? R1 R2]; subst.
  - exists []. rewrite E, app_nil_r. split; [constructor|reflexivity].
  - assert (forall k n0 more0, line_says line (Some (k :: n0 :: more0)) -> k <> Some [if pr then 80 else 82] ->
      forall n more, ~ line_says line (Some (Some [if pr then 80 else 82] :: n :: more))) as SK.
    { intros k n0 more0 A K n more B. pose proof (says_fun _ _ _ A B) as X. injection X as X _ _. contradiction. }
    inversion R1 as [cs D l B|D l n more B|cs D l n s a D2 C B DT|cs D l n s a D2 C B DP|cs D l n s a D2 C B DP|D l k n more B K1 K2]; subst; cbn [fst snd] in *.
    + destruct (IH _ _ R2 ST D' E) as (ns & NS & EQ). exists ns. split; [|exact EQ]. apply ns_skip; [|exact NS].
      intros n more X. pose proof (says_fun _ _ _ B X). discriminate.
    + rewrite (ST eq_refl). destruct (IH _ _ R2) with (D' := D') as (ns & NS & EQ); [discriminate|exact E|]. exists ns. split; [|destruct pr; exact EQ].
      apply ns_skip; [|exact NS]. eapply SK; [exact B|destruct pr; discriminate].
    + destruct (IH _ _ R2) with (D' := D') as (ns & NS & EQ); [discriminate|exact E|]. exists ns. split.
      * apply ns_skip; [|exact NS]. eapply SK; [exact B|destruct pr; discriminate].
      * cbn [snd] in EQ. rewrite EQ. f_equal. destruct DT; destruct pr; reflexivity.
    + destruct (IH _ _ R2) with (D' := D') as (ns & NS & EQ); [discriminate|exact E|]. cbn [snd] in EQ. destruct pr.
      * exists (n :: ns). split; [eapply ns_take; eauto|]. rewrite EQ. destruct DP; cbn [plus_port df_provide]; rewrite map_app, <- app_assoc; reflexivity.
      * exists ns. split; [apply ns_skip; [eapply SK; [exact B|discriminate]|exact NS]|]. rewrite EQ. destruct DP; reflexivity.
    + destruct (IH _ _ R2) with (D' := D') as (ns & NS & EQ); [discriminate|exact E|]. cbn [snd] in EQ. destruct pr.
      * exists ns. split; [apply ns_skip; [eapply SK; [exact B|discriminate]|exact NS]|]. rewrite EQ. destruct DP; reflexivity.
      * exists (n :: ns). split; [eapply ns_take; eauto|]. rewrite EQ. destruct DP; cbn [plus_port df_require]; rewrite map_app, <- app_assoc; reflexivity.
    + destruct (IH _ _ R2) with (D' := D') as (ns & NS & EQ); [discriminate|exact E|]. exists ns. split; [|exact EQ].
      apply ns_skip; [|exact NS]. eapply SK; [exact B|]. destruct pr; assumption.
Qed.

Lemma text_body_lines text body : text_body text body -> Forall (fun l => ~ In 10 l) body.
Proof. intros (first & rest & _ & F & [[_ ->]|[_ ->]]); [inversion F; assumption|exact F]. Qed.

Lemma loads_inv W text body W' nd : text_body text body -> loads W text = Ok (W', nd) ->
  exists cs D, reads_lines (START, None) body (cs, Some D) /\ sound W' nd D.
Proof.
  intros TB E. rewrite (loads_body W text body TB) in E. inv_bind E. destruct a as [W1 P1].
  destruct (lines_sound body (text_body_lines _ _ TB) W new_parser (START, None) W1 P1) as ([cs oD] & R & HC & HN); [split; reflexivity|exact Ha|].
  unfold finish in E. destruct (p_node P1) as [nd1|]; [|discriminate]. cbn [snd] in HN. destruct oD as [D|]; [|contradiction].
  inv_bind E. injection E as <- <-. destruct (resolve_types_sound _ _ _ HN) as (W2 & E2 & S2 & _). rewrite Ha0 in E2. injection E2 as <-.
  exists cs, D. auto.
Qed.

Lemma append_inv W nd D item W' nd' : ~ In 10 item -> sound W nd D -> append_text W nd item = Ok (W', nd') ->
  exists (pr : bool) n s attr D', line_says item (Some [Some [if pr then 80 else 82]; n; Some s; attr]) /\
    declares_port pr D n s attr D' /\ sound W' nd' D'.
Proof.
  intros N10 S0 E. pose proof (split_says item N10) as SY. unfold append_text in E.
  destruct (split_line item) as [parts|] eqn:SL; [|discriminate]. destruct (len parts =? 4) eqn:LP; [|discriminate]. cbn [negb] in E.
  destruct (split_line_shape _ _ SL) as [(k & m & ->)|(k & m & s & b & ->)]; [discriminate LP|].
  destruct (opt_eqb k (Some [82])) eqn:K1.
  - apply is_key in K1. subst k. destruct (apply_port_step false _ _ _ _ _ _ _ _ _ S0 (decl_of _ _ _ _) E) as (D' & DP & S').
    exists false, m, s, b, D'. auto.
  - destruct (opt_eqb k (Some [80])) eqn:K2; [|discriminate]. apply is_key in K2. subst k.
    destruct (apply_port_step true _ _ _ _ _ _ _ _ _ S0 (decl_of _ _ _ _) E) as (D' & DP & S').
    exists true, m, s, b, D'. auto.
Qed.

(** ** References *)

Lemma resolve_loop_end H k : forall e d, resolve_loop k H e = Ok d -> ~ is_ref d.
Proof.
  induction k as [|k IH]; intros e d E; cbn [resolve_loop] in E.
  - destruct e; cbn in E; try discriminate; invc E; auto.
  - destruct e as [| |n [i|s|o]]; try discriminate; try (invc E; cbn; tauto). eapply IH; eauto.
Qed.
Lemma stands_mentions types : forall e a, stands types e a -> forall o, mentions e o -> forall m, below m a ->
  exists j, (j < m)%nat /\ nth_error types j = Some o.
Proof.
  apply (stands_mind types (fun e a _ => forall o, mentions e o -> forall m, below m a -> exists j, (j < m)%nat /\ nth_error types j = Some o)
    (fun es l _ => forall e o, In e es -> mentions e o -> forall m, belows m l -> exists j, (j < m)%nat /\ nth_error types j = Some o)).
  - intros n c lo hi k o M. inversion M.
  - intros n o i E x M m B. inversion M; subst. inversion B as [|n' j J|]; subst. exists i. split; [lia|exact E].
  - intros n es l S IH o M m B. inversion M as [|? ? e ? I M2]; subst. inversion B; subst. eapply IH; eauto.
  - intros e o [].
  - intros e a es l S IH1 SA IH2 x o [<- |I] M m B; inversion B; subst; eauto.
Qed.
