(** Property C58: the language of data signatures. *)
From Coq Require Import ZifyBool ZifyNat Lia.
From Verif Require Import Py PyLemmas TypesModel TextModel SigModel SigSpec TextProofs SigProofs GrammarSpec GrammarProofs.
Ltac Zify.zify_post_hook ::= Z.div_mod_to_equations.

(** [int(s)] yields [z] exactly for the decimal notations of [z]. *)
Theorem int_reads_numerals s z : py_int s = Ok z <-> numeral s z.
Proof. apply py_int_numeral. Qed.
Print Assumptions int_reads_numerals.

(** A text is accepted as a signature, and read as the element [e], exactly if the
    grammar derives it with this meaning. *)
Theorem signature_language s e : parse_signature s = Ok e <-> signature s e.
Proof. apply signature_parses. Qed.
Print Assumptions signature_language.

(** The grammar is unambiguous. *)
Theorem signature_unambiguous s e e' : signature s e -> signature s e' -> e = e'.
Proof. intros H H'. apply signature_parses in H, H'. congruence. Qed.
Print Assumptions signature_unambiguous.

(** A text outside the language is refused with one of five exceptions. *)
Definition refusal (x : exn) : Prop := In x [ParseError; ValueError; AssertionError; IndexError; PlainException].

Lemma prim_err c s x : parse_prim c s = Err x -> refusal x.
Proof.
  unfold parse_prim, refusal. intros M.
  apply bind_err in M as [M|(([lo hi] & s1) & _ & M)].
  { rewrite (head40 _ (fun _ => match match_pair s 40 41 with
      | (None, _) => Err ParseError
      | (Some data, rest) => do '(lo, hi) <- parseExtendedTypeCode data; Ok (Some lo, Some hi, rest)
      end)) in M.
    destruct s as [|y s0]; [discriminate|]. destruct (y =? 40); [|discriminate].
    destruct (match_pair (y :: s0) 40 41) as [[data|] r]; [|injection M as <-; cbn; tauto].
    apply bind_err in M as [M|((l & h) & _ & M)]; [|discriminate]. unfold parseExtendedTypeCode in M.
    destruct (re_split_comma data) as [|a [|b t]]; try (injection M as <-; cbn; tauto).
    apply bind_err in M as [M|(z & _ & M)]; [apply py_int_err in M; subst; cbn; tauto|].
    apply bind_err in M as [M|(z' & _ & M)]; [apply py_int_err in M; subst; cbn; tauto|discriminate]. }
  apply bind_err in M as [M|((al & s2) & _ & M)].
  { rewrite (head91 _ (fun _ => match match_pair s1 91 93 with
      | (None, _) => Err ParseError
      | (Some value, rest) => do n <- py_int value; Ok (Some n, rest)
      end)) in M.
    destruct s1 as [|y s0]; [discriminate|]. destruct (y =? 91); [|discriminate].
    destruct (match_pair (y :: s0) 91 93) as [[data|] r]; [|injection M as <-; cbn; tauto].
    apply bind_err in M as [M|(z & _ & M)]; [apply py_int_err in M; subst; cbn; tauto|discriminate]. }
  apply bind_err in M as [M|(z & _ & M)]; [|discriminate].
  destruct al as [n|]; cbn in M; [|discriminate]. destruct (n <? 0); [injection M as <-; cbn; tauto|discriminate].
Qed.
Lemma ref_err s x : parse_ref s = Err x -> refusal x.
Proof.
  unfold parse_ref, refusal. destruct (match_pair s 91 93) as [[data|] r]; [|intros M; injection M as <-; cbn; tauto].
  destruct (parse_str data) as [[name|] [|d t]]; intros M; try discriminate; try (injection M as <-; cbn; tauto);
    (destruct (py_int data) eqn:P; [discriminate|]; cbn in M; injection M as <-; apply py_int_err in P; subst; cbn; tauto).
Qed.
Lemma sig_err : forall fuel,
  (forall s x, parse_sig fuel s = Err x -> refusal x \/ x = RecursionError) /\
  (forall s x, parse_members fuel s = Err x -> refusal x \/ x = RecursionError).
Proof.
  induction fuel as [|k [IH1 IH2]]; [split; intros s x E; injection E as <-; auto|].
  assert (R : forall x, In x [ParseError; ValueError; AssertionError; IndexError; PlainException] -> refusal x) by auto. split.
  - intros s x E. cbn [parse_sig] in E. destruct s as [|c s]; [injection E as <-; left; apply R; cbn; tauto|].
    destruct (c =? 123); [|destruct (c =? 84); [|destruct (char_code c) as [code|]]]; [| | |discriminate].
    + apply bind_err in E as [E|([es r] & _ & E)]; [eauto|discriminate].
    + apply bind_err in E as [E|([es r] & _ & E)]; [left; eapply ref_err; exact E|discriminate].
    + apply bind_err in E as [E|([es r] & _ & E)]; [left; eapply prim_err; exact E|discriminate].
  - intros s x E. cbn [parse_members] in E. destruct s as [|c s]; [injection E as <-; left; apply R; cbn; tauto|].
    destruct (parse_str (c :: s)) as [name [|d r]] eqn:Q; [injection E as <-; left; apply R; cbn; tauto|].
    apply bind_err in E as [E|((o & r2) & E1 & E)]; [eauto|]. destruct o as [e|].
    + apply bind_err in E as [E|((es & r3) & _ & E)]; [eauto|discriminate].
    + destruct r2 as [|d2 r2]; [injection E as <-; left; apply R; cbn; tauto|]. rewrite is125 in E.
      destruct (d2 =? 125); [discriminate|]. injection E as <-; left; apply R; cbn; tauto.
Qed.

Theorem signature_refusals s : (forall e, ~ signature s e) -> exists x, parse_signature s = Err x /\ refusal x.
Proof.
  intros N. destruct (parse_signature s) as [e|x] eqn:E; [apply signature_parses in E; destruct (N e E)|].
  exists x. split; [reflexivity|]. unfold parse_signature in E.
  apply bind_err in E as [E|((o & r) & _ & E)].
  - pose proof E as E'. apply sig_err in E' as [R| ->]; [exact R|]. exfalso. destruct (parse_sig_fuel (2 * length s + 2)) as [F _]. apply (F s); [lia|exact E].
  - unfold refusal. destruct r; [destruct o; [discriminate|]|]; injection E as <-; cbn; tauto.
Qed.
Print Assumptions signature_refusals.

(** Members and types without a name are printed as if they were called None, so
    the text of an element does not tell the two apart. *)
Definition called (n : option str) : option str := Some (match n with Some s => s | None => lit "None" end).
Fixpoint all_named (e : delem) : delem :=
  match e with
  | DPrim _ c lo hi a => DPrim (called (de_name e)) c lo hi a
  | DRec _ es => DRec (called (de_name e)) (map all_named es)
  | DRef _ r => DRef (called (de_name e)) r
  end.
Definition heap_named (H : theap) : theap :=
  fun o => mk_dtype (called (dt_name (H o))) (dt_elem (H o)) (dt_attr (H o)) (dt_id (H o)) (dt_short (H o)).

Theorem missing_names_print_as_None by_name H e :
  elem_string by_name (heap_named H) (all_named e) = elem_string by_name H e.
Proof.
  induction e as [n c lo hi a|n es IH|n r] using delem_ind2; cbn [all_named].
  - reflexivity.
  - rewrite !elem_string_rec. f_equal. induction IH as [|e es He IH IH']; [reflexivity|]. cbn [map members_string].
    rewrite He, IH'. assert (opt_text (de_name (all_named e)) = opt_text (de_name e)) as -> by (destruct e as [[]|[]|[]]; reflexivity). reflexivity.
  - destruct r as [i|s|o]; reflexivity.
Qed.
Print Assumptions missing_names_print_as_None.

(** So the text does not determine the names of members. *)
Theorem text_determines_names_refuted :
  ~ (forall H e e', elem_string false H e = elem_string false H e' -> de_name e = de_name e' -> e = e').
Proof.
  intros F. specialize (F (fun _ => mk_dtype None (DRec None []) None None None)
    (DRec None [DPrim None CU8 None None None]) (DRec None [DPrim (Some (lit "None")) CU8 None None None]) eq_refl eq_refl).
  discriminate.
Qed.
Print Assumptions text_determines_names_refuted.

(** ** Examples *)

Example ex_signature : signature (lit "{""a""C(0, 1_0,x)[ 3 ]T[""t""]""b""{S}""z""}")
  (DRec None [DPrim (Some (lit "a")) CU8 (Some 0) (Some 10) (Some 3); DRef None (RName (lit "t"));
     DRec (Some (lit "b")) [DPrim None CU16 None None None]]).
Proof. apply signature_language. reflexivity. Qed.

Example ex_refused : map parse_signature [lit "C[-1]"; lit "C[1__0]"; lit "{""a""C}S"; []; lit "C(1)"; lit "T[""a""b]"; lit "X"] =
  [Err ValueError; Err ValueError; Err ParseError; Err IndexError; Err PlainException; Err AssertionError; Err ParseError].
Proof. reflexivity. Qed.

Example ex_numerals : map py_int [lit " +1_000 "; lit "-0"; lit "1_"; lit "_1"; lit "+-1"; lit "0x1"] =
  [Ok 1000; Ok 0; Err ValueError; Err ValueError; Err ValueError; Err ValueError].
Proof. reflexivity. Qed.
