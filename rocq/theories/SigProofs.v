(** Reading back printed signatures. *)
From Coq Require Import ZifyBool ZifyNat Lia.
From Verif Require Import Py PyLemmas TypesModel TextModel SigModel TextProofs SigSpec TypesProofs.
Ltac Zify.zify_post_hook ::= Z.div_mod_to_equations.

Lemma head40 {A} (s : str) (f : str -> A) y :
  match s with 40 :: r => f r | _ => y end = match s with c :: r => if c =? 40 then f r else y | [] => y end.
Proof. destruct s as [|[|p|p] s]; try reflexivity. do 7 (destruct p as [p|p|]; try reflexivity). Qed.
Lemma head91 {A} (s : str) (f : str -> A) y :
  match s with 91 :: r => f r | _ => y end = match s with c :: r => if c =? 91 then f r else y | [] => y end.
Proof. destruct s as [|[|p|p] s]; try reflexivity. do 8 (destruct p as [p|p|]; try reflexivity). Qed.
Lemma is125 {A} d (x y : A) : match d with 125 => x | _ => y end = if d =? 125 then x else y.
Proof. destruct d as [|p|p]; try reflexivity. do 8 (destruct p as [p|p|]; try reflexivity). Qed.

Lemma quoteless_none s : quoteless s -> none (fun c => c =? QUOTE) s.
Proof. intros Q. apply Forall_forall. intros c I. destruct (c =? QUOTE) eqn:E; [|reflexivity]. apply Z.eqb_eq in E. subst. contradiction. Qed.
Lemma bracketed_paired s : bracketed s -> paired 91 93 s.
Proof. induction 1; [constructor|constructor; auto|apply pd_pair; auto]. Qed.

Definition brk (c : Z) : bool := (c =? 40) || (c =? 91).
Definition limits_text (lo hi : option Z) : str :=
  match lo, hi with Some l, Some h => [40] ++ dec_str l ++ [COMMA] ++ dec_str h ++ [41] | _, _ => [] end.
Definition alen_text (a : option Z) : str := match a with Some n => [91] ++ dec_str n ++ [93] | None => [] end.

Lemma dec_paired l r z : is_numch l = false -> is_numch r = false -> paired l r (dec_str z).
Proof.
  intros L R. apply paired_none, dec_str_none. intros c C.
  destruct (c =? l) eqn:X, (c =? r) eqn:Y; try reflexivity; try (apply Z.eqb_eq in X; congruence); apply Z.eqb_eq in Y; congruence.
Qed.
Lemma alen_read a rest : stops brk rest ->
  match alen_text a ++ rest with
  | 91 :: _ =>
    match match_pair (alen_text a ++ rest) 91 93 with
    | (None, _) => Err ParseError
    | (Some value, rest) => do n <- py_int value; Ok (Some n, rest)
    end
  | _ => Ok (None, alen_text a ++ rest)
  end = Ok (a, rest).
Proof.
  intros St. rewrite (head91 _ (fun _ => match match_pair (alen_text a ++ rest) 91 93 with
      | (None, _) => Err ParseError
      | (Some value, rest) => do n <- py_int value; Ok (Some n, rest)
      end)).
  destruct a as [n|]; cbn [alen_text app].
  - rewrite <- app_assoc. cbn [app]. change (91 =? 91) with true. cbn iota.
    rewrite match_pair_paired by (try apply dec_paired; reflexivity || discriminate).
    rewrite py_int_dec. reflexivity.
  - destruct rest as [|c rest]; [reflexivity|]. cbn in St. unfold brk in St.
    destruct (c =? 91); [lia|]. reflexivity.
Qed.

Lemma prim_read c lo hi a rest : stops brk rest -> (lo = None <-> hi = None) ->
  match a with Some n => 0 <= n | None => True end ->
  parse_prim c (limits_text lo hi ++ alen_text a ++ rest) = Ok (DPrim None c lo hi a, rest).
Proof.
  intros St LH A. unfold parse_prim. set (t := alen_text a ++ rest).
  match goal with |- bind ?m _ = _ => assert (m = Ok (lo, hi, t)) as -> end.
  { rewrite (head40 _ (fun _ => match match_pair (limits_text lo hi ++ t) 40 41 with
      | (None, _) => Err ParseError
      | (Some data, rest) => do '(lo, hi) <- parseExtendedTypeCode data; Ok (Some lo, Some hi, rest)
      end)).
    destruct lo as [l|], hi as [h|]; try (exfalso; destruct LH as [L1 L2]; try (specialize (L1 eq_refl)); try (specialize (L2 eq_refl)); discriminate).
    - cbn [limits_text app]. change (40 =? 40) with true. cbn iota.
      replace ((dec_str l ++ COMMA :: dec_str h ++ [41]) ++ t) with ((dec_str l ++ COMMA :: dec_str h) ++ 41 :: t)
        by (rewrite <- !app_assoc; cbn [app]; rewrite <- !app_assoc; reflexivity).
      rewrite match_pair_paired; [|apply paired_app; [apply dec_paired; reflexivity|constructor; [discriminate|discriminate|apply dec_paired; reflexivity]]|discriminate].
      unfold parseExtendedTypeCode. rewrite re_split_two.
      + rewrite !py_int_dec. reflexivity.
      + apply dec_str_none. unfold is_numch, is_digit, is_space, COMMA. intros x. lia.
      + apply dec_str_none. unfold is_numch, is_digit, is_space, COMMA. intros x. lia.
    - cbn [limits_text app]. destruct t as [|x t'] eqn:T; [reflexivity|].
      destruct (x =? 40) eqn:X; [|reflexivity]. exfalso. apply Z.eqb_eq in X. subst x. unfold t in T.
      destruct a; cbn [alen_text app] in T; [congruence|]. rewrite T in St. cbn in St. unfold brk in St. lia. }
  cbn [bind]. match goal with |- bind ?m _ = _ => assert (m = Ok (a, rest)) as -> by exact (alen_read a rest St) end.
  cbn [bind]. destruct a as [n|]; cbn [check_arrayLen]; [|reflexivity].
  destruct (n <? 0) eqn:N; [lia|]. reflexivity.
Qed.

Lemma ref_name_read s rest : quoteless s -> bracketed s ->
  parse_ref (lit "[""" ++ s ++ lit """]" ++ rest) = Ok (DRef None (RName s), rest).
Proof.
  intros Q B. unfold parse_ref. change (lit "[""") with [91; QUOTE]. change (lit """]") with [QUOTE; 93].
  replace ([91; QUOTE] ++ s ++ [QUOTE; 93] ++ rest) with (91 :: (QUOTE :: s ++ [QUOTE]) ++ 93 :: rest)
    by (cbn [app]; rewrite <- app_assoc; reflexivity).
  rewrite match_pair_paired; [|apply (paired_app _ _ (QUOTE :: s))|discriminate].
  - change (QUOTE :: s ++ [QUOTE]) with ([QUOTE] ++ s ++ [QUOTE]).
    rewrite <- (app_nil_r [QUOTE]) at 2. rewrite parse_str_quoted by (apply quoteless_none, Q). reflexivity.
  - constructor; [discriminate|discriminate|apply bracketed_paired, B].
  - constructor; [discriminate|discriminate|constructor].
Qed.
Lemma ref_int_read i rest : parse_ref (lit "[" ++ dec_str i ++ lit "]" ++ rest) = Ok (DRef None (RInt i), rest).
Proof.
  unfold parse_ref. change (lit "[") with [91]. change (lit "]") with [93]. cbn [app].
  rewrite match_pair_paired; [|apply dec_paired; reflexivity|discriminate].
  destruct (dec_str_chars i) as [A NE]. rewrite parse_str_plain; [rewrite py_int_dec; reflexivity| |exact NE].
  apply none_stops, dec_str_none. unfold is_numch, is_digit, QUOTE. intros c. lia.
Qed.

Lemma code_char_read c : char_code (code_char c) = Some c /\ code_char c <> 123 /\ code_char c <> 84 /\ code_char c <> QUOTE.
Proof. destruct c; repeat split; discriminate. Qed.

(** Member texts of a record. *)
Fixpoint members_string (by_name : bool) (H : theap) (l : list delem) : res str :=
  match l with
  | [] => Ok []
  | x :: r => do t <- elem_string by_name H x; do b <- members_string by_name H r;
              Ok ([QUOTE] ++ opt_text (de_name x) ++ [QUOTE] ++ t ++ b)
  end.
Lemma elem_string_rec by_name H n es :
  elem_string by_name H (DRec n es) = do body <- members_string by_name H es; Ok ([123] ++ body ++ [125]).
Proof. cbn [elem_string]. f_equal. induction es as [|e es IH]; [reflexivity|]. cbn [members_string]. rewrite IH. reflexivity. Qed.
Fixpoint printables (by_name : bool) (H : theap) (l : list delem) : Prop :=
  match l with
  | [] => True
  | x :: r => (exists s, de_name x = Some s /\ quoteless s) /\ printable by_name H x /\ printables by_name H r
  end.
Lemma printable_rec by_name H n es : printable by_name H (DRec n es) = printables by_name H es.
Proof. cbn [printable]. induction es as [|e es IH]; [reflexivity|]. cbn [printables]. rewrite IH. reflexivity. Qed.

Lemma delem_ind2 (P : delem -> Prop) :
  (forall n c lo hi a, P (DPrim n c lo hi a)) ->
  (forall n es, Forall P es -> P (DRec n es)) ->
  (forall n r, P (DRef n r)) -> forall e, P e.
Proof.
  intros A B C. fix IH 1. intros [n c lo hi a|n es|n r]; [apply A| |apply C].
  apply B. induction es as [|x es IHes]; constructor; [apply IH|exact IHes].
Qed.

(** A printed element is at least one character, is read back with what follows
    left over, and its first character tells that it is an element. *)
Definition reads (by_name : bool) (H : theap) (e : delem) : Prop :=
  exists t, elem_string by_name H e = Ok t /\ (1 <= length t)%nat /\
    (forall c r, t = c :: r -> c <> QUOTE) /\
    forall rest fuel, stops brk rest -> (2 * length t <= fuel)%nat ->
    parse_sig fuel (t ++ rest) = Ok (Some (nameless (described by_name H e)), rest).

Lemma set_name_described by_name H e : set_name (de_name e) (nameless (described by_name H e)) = described by_name H e.
Proof. destruct e as [| |n [i|s|o]]; reflexivity. Qed.

Lemma parse_sig_rec k s : parse_sig (S k) (123 :: s) = do '(es, rest) <- parse_members k s; Ok (Some (DRec None es), rest).
Proof. reflexivity. Qed.
Lemma parse_sig_ref k s : parse_sig (S k) (84 :: s) = do '(e, rest) <- parse_ref s; Ok (Some e, rest).
Proof. reflexivity. Qed.
Lemma parse_sig_prim k c s : parse_sig (S k) (code_char c :: s) = do '(e, rest) <- parse_prim c s; Ok (Some e, rest).
Proof. destruct c; reflexivity. Qed.

Lemma members_read by_name H : forall es, Forall (fun e => printable by_name H e -> reads by_name H e) es ->
  printables by_name H es ->
  exists t, members_string by_name H es = Ok t /\
    forall rest fuel, (2 * length t + 2 <= fuel)%nat ->
    parse_members fuel (t ++ 125 :: rest) = Ok (map (described by_name H) es, rest).
Proof.
  induction es as [|e es IH]; intros F P.
  - exists []. split; [reflexivity|]. intros rest fuel L. cbn [app map]. cbn in L.
    destruct fuel as [|[|fuel]]; [lia|lia|]. reflexivity.
  - invc F. cbn [printables] in P. destruct P as ((s & N & Q) & P1 & P2).
    destruct (H2 P1) as (t & T & L1 & Fst & R). destruct (IH H3 P2) as (b & B & RB).
    cbn [members_string]. rewrite T, B. cbn [bind]. eexists. split; [reflexivity|]. intros rest fuel L.
    rewrite N in *. cbn [opt_text] in *. rewrite !app_length in L. cbn [length] in L.
    destruct fuel as [|fuel]; [lia|].
    replace (([QUOTE] ++ s ++ [QUOTE] ++ t ++ b) ++ 125 :: rest) with ([QUOTE] ++ s ++ [QUOTE] ++ (t ++ (b ++ 125 :: rest)))
      by (rewrite <- !app_assoc; reflexivity).
    set (w := t ++ (b ++ 125 :: rest)) in *.
    assert (exists c r, w = c :: r) as (c & r & W). { unfold w. destruct t; [cbn in L1; lia|]. eexists _, _. reflexivity. }
    cbn [parse_members]. change (([QUOTE] ++ s ++ [QUOTE] ++ w)) with (QUOTE :: (s ++ [QUOTE] ++ w)) at 1. cbn iota.
    rewrite (parse_str_quoted s w) by (apply quoteless_none, Q). rewrite W at 1. cbn iota. rewrite W at 1. rewrite <- W.
    assert (stops brk (b ++ 125 :: rest)) as St.
    { clear - B. destruct es as [|x es]; cbn [members_string] in B; [invc B; reflexivity|].
      inv_bind B. inv_bind B. invc B. reflexivity. }
    unfold w. rewrite R by (exact St || lia).
    cbn [bind]. rewrite RB by lia. cbn [bind map]. rewrite <- N, set_name_described. reflexivity.
Qed.

Lemma element_read by_name H : forall e, printable by_name H e -> reads by_name H e.
Proof.
  induction e as [n c lo hi a|n es IH|n r] using delem_ind2; intros P.
  - destruct P as [LH A]. exists (code_char c :: (limits_text lo hi ++ alen_text a)).
    split; [reflexivity|]. split; [cbn; lia|]. split; [intros x r E; invc E; apply code_char_read|].
    intros rest fuel St L. destruct fuel as [|k]; [cbn in L; lia|].
    cbn [app]. rewrite parse_sig_prim, <- app_assoc, prim_read by auto. reflexivity.
  - rewrite printable_rec in P. destruct (members_read by_name H es IH P) as (b & B & R).
    unfold reads. rewrite elem_string_rec, B. cbn [bind]. eexists. split; [reflexivity|]. split; [cbn; lia|].
    split; [intros c r E; invc E; discriminate|]. intros rest fuel St L.
    rewrite !app_length in L. cbn [length] in L. destruct fuel as [|k]; [lia|].
    replace (([123] ++ b ++ [125]) ++ rest) with (123 :: (b ++ 125 :: rest)) by (rewrite <- !app_assoc; reflexivity).
    rewrite parse_sig_rec, R by lia. reflexivity.
  - assert (exists t, elem_string by_name H (DRef n r) = Ok (84 :: t) /\ forall rest,
      parse_ref (t ++ rest) = Ok (nameless (described by_name H (DRef n r)), rest)) as (t & T & R).
    { destruct r as [i|s|o]; cbn [printable] in P; [contradiction| |].
      - destruct P as [Q B]. exists (lit "[""" ++ s ++ lit """]"). split; [reflexivity|]. intros rest.
        rewrite <- !app_assoc. apply ref_name_read; auto.
      - cbn [elem_string described nameless]. unfold reference_text.
        assert (by_name = true \/ dt_id (H o) = None -> type_name_ok (dt_name (H o))) as TN.
        { intros X. destruct (dt_id (H o)); [|exact P]. destruct X as [-> |]; [exact P|discriminate]. }
        destruct (if by_name then None else dt_id (H o)) as [i|] eqn:I.
        + exists (lit "[" ++ dec_str i ++ lit "]"). split; [reflexivity|]. intros rest.
          rewrite <- !app_assoc. apply ref_int_read.
        + destruct (dt_name (H o)) as [s|]; cbn [type_name_ok] in TN;
            [|exfalso; apply TN; destruct by_name; auto].
          destruct TN as [Q B]; [destruct by_name; auto|].
          exists (lit "[""" ++ s ++ lit """]"). split; [reflexivity|]. intros rest.
          rewrite <- !app_assoc. apply ref_name_read; auto. }
    exists (84 :: t). split; [exact T|]. split; [cbn; lia|]. split; [intros x y E; invc E; discriminate|].
    intros rest fuel St L. destruct fuel as [|k]; [cbn in L; lia|].
    cbn [app]. rewrite parse_sig_ref, R. reflexivity.
Qed.

Lemma signature_read by_name H e : printable by_name H e ->
  exists t, elem_string by_name H e = Ok t /\ parse_signature t = Ok (nameless (described by_name H e)).
Proof.
  intros P. destruct (element_read by_name H e P) as (t & T & L & _ & R). exists t. split; [exact T|].
  unfold parse_signature. rewrite <- (app_nil_r t) at 2. rewrite R; [reflexivity|exact I|lia].
Qed.

(** ** Linking the references of a text again *)

Lemma find_type_first H types s o k : nth_error types k = Some o -> dt_name (H o) = Some s ->
  (forall j o', (j < k)%nat -> nth_error types j = Some o' -> dt_name (H o') <> Some s) ->
  find_type H s types = Some o.
Proof.
  unfold find_type. revert k. induction types as [|x types IH]; intros k E N F; [destruct k; discriminate|].
  cbn [find]. destruct k as [|k].
  - invc E. rewrite N. cbn [opt_eqb]. rewrite str_eqb_refl. reflexivity.
  - destruct (opt_eqb (dt_name (H x)) (Some s)) eqn:X.
    + exfalso. apply (F 0%nat x); [lia|reflexivity|]. destruct (dt_name (H x)) as [y|]; [|discriminate].
      cbn in X. apply str_eqb_eq in X. congruence.
    + apply (IH k); auto. intros j o' J E'. apply (F (S j)); [lia|exact E'].
Qed.

Lemma ref_located by_name H types n o : printable by_name H (DRef n (RObj o)) -> locates by_name H types o ->
  resolve_type H (Some types) (DRef n (reference_text by_name (H o))) = Ok (DRef n (RObj o)).
Proof.
  cbn [printable]. unfold locates, reference_text. intros P L.
  assert (by_name = true \/ dt_id (H o) = None -> type_name_ok (dt_name (H o))) as TN.
  { intros X. destruct (dt_id (H o)); [|exact P]. destruct X as [-> |]; [exact P|discriminate]. }
  destruct (if by_name then None else dt_id (H o)) as [i|] eqn:I.
  - destruct L as [I0 E]. cbn [resolve_type]. unfold index. destruct (i <? 0) eqn:X; [lia|]. rewrite X, E. reflexivity.
  - destruct (dt_name (H o)) as [s|] eqn:N; [|exfalso; apply TN; destruct by_name; auto].
    destruct L as (k & E & F). cbn [resolve_type]. erewrite find_type_first; eauto.
Qed.

Fixpoint resolve_types_list (H : theap) (tl : option (list nat)) (l : list delem) : res (list delem) :=
  match l with
  | [] => Ok []
  | x :: r => do x' <- resolve_type H tl x; do r' <- resolve_types_list H tl r; Ok (x' :: r')
  end.
Lemma resolve_type_rec H tl n es : resolve_type H tl (DRec n es) = do es' <- resolve_types_list H tl es; Ok (DRec n es').
Proof. cbn [resolve_type]. f_equal. induction es as [|e es IH]; [reflexivity|]. cbn [resolve_types_list]. rewrite IH. reflexivity. Qed.
Fixpoint locateds (by_name : bool) (H : theap) (types : list nat) (l : list delem) : Prop :=
  match l with [] => True | x :: r => located by_name H types x /\ locateds by_name H types r end.
Lemma located_rec by_name H types n es : located by_name H types (DRec n es) = locateds by_name H types es.
Proof. cbn [located]. induction es as [|e es IH]; [reflexivity|]. cbn [locateds]. rewrite IH. reflexivity. Qed.

Lemma described_located by_name H types : forall e, printable by_name H e -> located by_name H types e ->
  resolve_type H (Some types) (described by_name H e) = Ok e.
Proof.
  induction e as [n c lo hi a|n es IH|n r] using delem_ind2; intros P L.
  - reflexivity.
  - cbn [described]. rewrite resolve_type_rec. rewrite printable_rec in P. rewrite located_rec in L.
    assert (resolve_types_list H (Some types) (map (described by_name H) es) = Ok es) as ->; [|reflexivity].
    clear n. induction IH as [|e es E F IHes]; [reflexivity|].
    cbn [printables locateds] in P, L. destruct P as (_ & P1 & P2), L as (L1 & L2).
    cbn [map resolve_types_list]. rewrite E, IHes by auto. reflexivity.
  - destruct r as [i|s|o]; cbn [located] in L; try contradiction. apply ref_located; auto.
Qed.

Lemma resolve_nameless H types e e' : resolve_type H types e = Ok e' -> resolve_type H types (nameless e) = Ok (nameless e').
Proof.
  destruct e as [n c lo hi a|n es|n r]; intros E.
  - cbn in E. invc E. reflexivity.
  - cbn [nameless]. rewrite resolve_type_rec in *. destruct (resolve_types_list H types es); [|discriminate]. cbn in *. invc E. reflexivity.
  - destruct r as [i|s|o]; cbn [resolve_type nameless] in *; [| |invc E; reflexivity]; destruct types; try discriminate.
    + destruct (index l i); [|discriminate]. cbn in *. invc E. reflexivity.
    + destruct (find_type H s l); [|discriminate]. invc E. reflexivity.
Qed.

(** ** Parsed elements *)

Lemma paired_bracketed s : paired 91 93 s -> bracketed s.
Proof. induction 1; [constructor|constructor; auto|apply bk_pair; auto]. Qed.
Lemma none_quoteless s : none (fun c => c =? QUOTE) s -> quoteless s.
Proof. intros N I. unfold none in N. rewrite Forall_forall in N. apply N in I. rewrite Z.eqb_refl in I. discriminate. Qed.

Fixpoint as_parseds (l : list delem) : Prop :=
  match l with
  | [] => True
  | x :: r => match de_name x with Some s => quoteless s | None => True end /\ as_parsed x /\ as_parseds r
  end.
Lemma as_parsed_rec n es : as_parsed (DRec n es) = as_parseds es.
Proof. reflexivity. Qed.
Lemma as_parsed_name n e : as_parsed (set_name n e) = as_parsed e.
Proof. destruct e as [| |? []]; reflexivity. Qed.

Lemma parse_ref_inv s e rest : parse_ref s = Ok (e, rest) -> as_parsed e /\ (length rest < length s)%nat.
Proof.
  unfold parse_ref. destruct (match_pair s 91 93) as [[data|] r] eqn:M; [|discriminate].
  pose proof (match_pair_len _ _ _ _ _ M) as L. apply match_pair_inv in M as [_ P]; [|discriminate].
  destruct (parse_str data) as [[name|] [|c t]] eqn:Q; intros E.
  - invc E. apply parse_str_inv in Q as [-> N]. split; [|lia].
    split; [apply none_quoteless, N|]. apply paired_bracketed. apply (paired_sub _ _ [QUOTE] name [QUOTE]).
    + rewrite !app_nil_r in P. exact P.
    + repeat constructor.
    + repeat constructor.
  - discriminate.
  - inv_bind E. invc E. split; [exact I|lia].
  - inv_bind E. invc E. split; [exact I|lia].
Qed.

Lemma parse_prim_inv c s e rest : parse_prim c s = Ok (e, rest) -> as_parsed e /\ (length rest <= length s)%nat.
Proof.
  unfold parse_prim. intros E. apply bind_ok in E as ([[lo hi] s1] & E1 & E). apply bind_ok in E as ([al s2] & E2 & E).
  apply bind_ok in E as (al' & E3 & E). invc E.
  assert ((lo = None <-> hi = None) /\ (length s1 <= length s)%nat) as [LH L1].
  { rewrite (head40 _ (fun _ => match match_pair s 40 41 with
      | (None, _) => Err ParseError
      | (Some data, rest) => do '(lo, hi) <- parseExtendedTypeCode data; Ok (Some lo, Some hi, rest)
      end)) in E1.
    assert (Ok (None, None, s) = Ok (lo, hi, s1) -> (lo = None <-> hi = None) /\ (length s1 <= length s)%nat) as D.
    { intros X. invc X. split; [tauto|lia]. }
    destruct s as [|x s0]; [auto|]. destruct (x =? 40); [|auto]. clear D.
    destruct (match_pair (x :: s0) 40 41) as [[data|] r] eqn:M; [|discriminate].
    apply match_pair_len in M. apply bind_ok in E1 as ([l h] & _ & X). invc X. split; [split; discriminate|cbn [length] in *; lia]. }
  assert ((length rest <= length s1)%nat) as L2.
  { rewrite (head91 _ (fun _ => match match_pair s1 91 93 with
      | (None, _) => Err ParseError
      | (Some value, rest) => do n <- py_int value; Ok (Some n, rest)
      end)) in E2.
    assert (Ok (None, s1) = Ok (al, rest) -> (length rest <= length s1)%nat) as D.
    { intros X. invc X. lia. }
    destruct s1 as [|x s0]; [auto|]. destruct (x =? 91); [|auto]. clear D.
    destruct (match_pair (x :: s0) 91 93) as [[data|] r] eqn:M; [|discriminate].
    apply match_pair_len in M. apply bind_ok in E2 as (l & _ & X). invc X. cbn [length] in *; lia. }
  split; [|lia]. split; [exact LH|]. destruct al as [n|]; cbn in E3; [|invc E3; exact I].
  destruct (n <? 0) eqn:N; [discriminate|]. invc E3. lia.
Qed.

Lemma parse_str_len s name rest : parse_str s = (name, rest) -> (length rest <= length s)%nat.
Proof. apply match_pair_rest. Qed.

Lemma parse_sig_inv : forall fuel,
  (forall s o rest, parse_sig fuel s = Ok (o, rest) ->
    match o with Some e => as_parsed e /\ (length rest < length s)%nat | None => rest = s end) /\
  (forall s es rest, parse_members fuel s = Ok (es, rest) -> as_parseds es /\ (length rest < length s)%nat).
Proof.
  induction fuel as [|k [IH1 IH2]]; [split; intros; discriminate|]. split.
  - intros s o rest E. cbn [parse_sig] in E. destruct s as [|c s]; [discriminate|].
    destruct (c =? 123); [|destruct (c =? 84); [|destruct (char_code c) as [code|]]].
    + apply bind_ok in E as ([es r] & E1 & E). invc E. apply IH2 in E1 as [A L]. rewrite as_parsed_rec. cbn [length]. split; [exact A|lia].
    + apply bind_ok in E as ([e r] & E1 & E). invc E. apply parse_ref_inv in E1 as [A L]. cbn [length]. split; [exact A|lia].
    + apply bind_ok in E as ([e r] & E1 & E). invc E. apply parse_prim_inv in E1 as [A L]. cbn [length]. split; [exact A|lia].
    + invc E. reflexivity.
  - intros s es rest E. cbn [parse_members] in E. destruct s as [|c s]; [discriminate|].
    destruct (parse_str (c :: s)) as [name [|d r]] eqn:Q; [discriminate|].
    pose proof (parse_str_len _ _ _ Q) as L.
    apply bind_ok in E as ([o r2] & E1 & E). apply IH1 in E1. destruct o as [e|].
    + destruct E1 as [A L1]. apply bind_ok in E as ([es' r3] & E2 & E). invc E. apply IH2 in E2 as [A2 L2].
      split; [|lia]. cbn [as_parseds]. rewrite as_parsed_name. split; [|auto].
      assert (de_name (set_name name e) = name) as -> by (destruct e; reflexivity).
      destruct name as [nm|]; [|exact I]. apply parse_str_inv in Q as [_ N]. apply none_quoteless, N.
    + subst r2. rewrite is125 in E. destruct (d =? 125); [|discriminate].
      invc E. split; [exact I|]. cbn [length] in *. lia.
Qed.

Lemma parse_signature_inv s e : parse_signature s = Ok e -> as_parsed e.
Proof.
  unfold parse_signature. intros E. apply bind_ok in E as ([o r] & E1 & E). apply parse_sig_inv in E1.
  destruct r; [|discriminate]. destruct o; [|discriminate]. invc E. apply E1.
Qed.

(** ** The fuel is enough *)

Lemma py_int_err s e : py_int s = Err e -> e = ValueError.
Proof.
  assert (forall s acc b e, int_digits acc b s = Err e -> e = ValueError) as I.
  { clear. induction s as [|c s IH]; intros acc b e E; cbn [int_digits] in E.
    - destruct b; invc E; reflexivity.
    - destruct (is_digit c); [eauto|]. destruct ((c =? 95) && b); [eauto|]. invc E; reflexivity. }
  unfold py_int. intros E.
  set (t := rstrip int_space (drop_while int_space s)) in *. clearbody t.
  assert (forall r e, (do v <- int_digits 0 false r; Ok (- v)) = Err e -> e = ValueError) as J.
  { intros r e0 X. destruct (int_digits 0 false r) eqn:D; [discriminate|]. cbn in X. invc X. eauto. }
  destruct t as [|c t]; [eauto|]. destruct c as [|p|p]; try (exact (I _ _ _ _ E)).
  do 6 (destruct p as [p|p|]; try exact (I _ _ _ _ E)). exact (J _ _ E).
Qed.

Lemma parse_sig_fuel : forall fuel,
  (forall s, (2 * length s < fuel)%nat -> parse_sig fuel s <> Err RecursionError) /\
  (forall s, (2 * length s + 1 < fuel)%nat -> parse_members fuel s <> Err RecursionError).
Proof.
  induction fuel as [|k [IH1 IH2]]; [split; intros; lia|]. split.
  - intros s L E. cbn [parse_sig] in E. destruct s as [|c s]; [discriminate|]. cbn [length] in L.
    destruct (c =? 123); [|destruct (c =? 84); [|destruct (char_code c) as [code|]]].
    + destruct (parse_members k s) as [[es r]|x] eqn:M; [discriminate|]. cbn in E. invc E. apply (IH2 s); [lia|exact M].
    + destruct (parse_ref s) as [[e r]|x] eqn:M; [discriminate|]. cbn in E. invc E. unfold parse_ref in M.
      destruct (match_pair s 91 93) as [[data|] r]; [|discriminate]. destruct (parse_str data) as [[name|] [|d t]]; try discriminate.
      * destruct (py_int data) eqn:P; [discriminate|]. cbn in M. invc M. apply py_int_err in P. discriminate.
      * destruct (py_int data) eqn:P; [discriminate|]. cbn in M. invc M. apply py_int_err in P. discriminate.
    + destruct (parse_prim code s) as [[e r]|x] eqn:M; [discriminate|]. cbn in E. invc E. unfold parse_prim in M.
      apply bind_err in M as [M|(([lo hi] & s1) & _ & M)].
      { rewrite (head40 _ (fun _ => match match_pair s 40 41 with
          | (None, _) => Err ParseError
          | (Some data, rest) => do '(lo, hi) <- parseExtendedTypeCode data; Ok (Some lo, Some hi, rest)
          end)) in M.
        destruct s as [|y s0]; [discriminate|]. destruct (y =? 40); [|discriminate].
        destruct (match_pair (y :: s0) 40 41) as [[data|] r]; [|discriminate].
        apply bind_err in M as [M|((l & h) & _ & M)]; [|discriminate]. unfold parseExtendedTypeCode in M.
        destruct (re_split_comma data) as [|a [|b t]]; try discriminate.
        apply bind_err in M as [M|(z & _ & M)]; [apply py_int_err in M; discriminate|].
        apply bind_err in M as [M|(z' & _ & M)]; [apply py_int_err in M; discriminate|discriminate]. }
      apply bind_err in M as [M|((al & s2) & _ & M)].
      { rewrite (head91 _ (fun _ => match match_pair s1 91 93 with
          | (None, _) => Err ParseError
          | (Some value, rest) => do n <- py_int value; Ok (Some n, rest)
          end)) in M.
        destruct s1 as [|y s0]; [discriminate|]. destruct (y =? 91); [|discriminate].
        destruct (match_pair (y :: s0) 91 93) as [[data|] r]; [|discriminate].
        apply bind_err in M as [M|(z & _ & M)]; [apply py_int_err in M; discriminate|discriminate]. }
      apply bind_err in M as [M|(z & _ & M)]; [|discriminate].
      destruct al as [n|]; cbn in M; [|discriminate]. destruct (n <? 0); discriminate.
    + discriminate.
  - intros s L E. cbn [parse_members] in E. destruct s as [|c s]; [discriminate|].
    destruct (parse_str (c :: s)) as [name [|d r]] eqn:Q; [discriminate|].
    pose proof (parse_str_len _ _ _ Q) as L0.
    apply bind_err in E as [E|((o & r2) & E1 & E)]; [apply (IH1 (d :: r)); [lia|exact E]|].
    apply parse_sig_inv in E1. destruct o as [e|].
    + destruct E1 as [_ L1]. apply bind_err in E as [E|((es & r3) & _ & E)]; [|discriminate].
      apply (IH2 r2); [lia|exact E].
    + subst r2. rewrite is125 in E. destruct (d =? 125); discriminate.
Qed.
