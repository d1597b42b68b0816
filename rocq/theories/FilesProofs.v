(** Lemmas about definition files. *)
From Coq Require Import ZifyBool ZifyNat Lia.
From Verif Require Import Py PyLemmas TypesModel TextModel SigModel AttrModel NodeModel ParserModel FilesModel.
From Verif Require Import SigSpec NodeSpec ParserSpec MergeSpec FilesSpec TextProofs SigProofs NodeProofs ElemTextProofs ParserProofs RoundTripProofs LoadProofs.
From Verif Require Import MirrorProofs FinalizeProofs ExtendProofs.
Ltac Zify.zify_post_hook ::= Z.div_mod_to_equations.

(** ** Line ends *)

Lemma universal_app s r : ~ In 13 s -> universal (s ++ r) = s ++ universal r.
Proof.
  induction s as [|c s IH]; intros N; [reflexivity|]. cbn [app universal]. destruct (c =? 13) eqn:E; [exfalso; apply N; left; lia|].
  rewrite IH by (intros X; apply N; right; exact X). reflexivity.
Qed.
Lemma universal_id s : ~ In 13 s -> universal s = s.
Proof. intros N. rewrite <- (app_nil_r s) at 1. rewrite universal_app by exact N. apply app_nil_r. Qed.
Lemma universal_crless s : ~ In 13 (universal s).
Proof.
  assert (forall n s, (length s <= n)%nat -> ~ In 13 (universal s)) as X; [|eapply X; reflexivity].
  induction n as [|n IH]; intros [|c r] L; cbn [length] in L; try lia; [intros []|intros []|]. cbn [universal]. destruct (c =? 13) eqn:E.
  - destruct r as [|x r']; [intros [X|[]]; lia|]. destruct (x =? 10); intros [X|X]; try lia; revert X; apply IH; cbn [length] in *; lia.
  - intros [X|X]; [lia|]. revert X. apply IH. lia.
Qed.
Lemma join_cons sep (x y : str) l : join sep (x :: y :: l) = x ++ sep ++ join sep (y :: l).
Proof. reflexivity. Qed.
Lemma file_lines_ne t l : file_lines t l -> exists x r, l = x :: r.
Proof. destruct 1; eauto. Qed.
Lemma file_lines_text t l : file_lines t l -> universal t = join [NEWLINE] l /\ Forall plain_line l.
Proof.
  induction 1 as [s P|s r l P F [E IH]|s r l P F [E IH]|s r l P H F [E IH]].
  - split; [|auto]. rewrite universal_id by apply P. reflexivity.
  - split; [|auto]. destruct (file_lines_ne _ _ F) as (x & m & ->). rewrite universal_app by apply P. cbn [app universal]. change (10 =? 13) with false. cbn iota.
    rewrite E. reflexivity.
  - split; [|auto]. destruct (file_lines_ne _ _ F) as (x & m & ->). rewrite universal_app by apply P. cbn [app universal]. change (13 =? 13) with true. change (10 =? 10) with true. cbn iota.
    rewrite E. reflexivity.
  - split; [|auto]. destruct (file_lines_ne _ _ F) as (x & m & ->). rewrite universal_app by apply P. cbn [app universal]. change (13 =? 13) with true. cbn iota.
    destruct r as [|y r]; [rewrite join_cons, <- E; reflexivity|]. cbn [hd] in H. destruct (y =? 10) eqn:Y; [lia|]. rewrite E. reflexivity.
Qed.
Lemma file_lines_of t : exists l, file_lines t l.
Proof.
  assert (forall n t, (length t <= n)%nat -> exists l, file_lines t l) as X; [|eapply X; reflexivity].
  assert (forall c, c <> 10 -> c <> 13 -> forall s l, file_lines s l -> exists l', file_lines (c :: s) l') as C.
  { intros c A B s l F. assert (forall p, plain_line p -> plain_line (c :: p)) as PL by (intros p [P Q]; split; intros [X|X]; auto).
    destruct F as [s P|s r l P F|s r l P F|s r l P H F]; eexists; rewrite ?app_comm_cons; [apply fl_last|eapply fl_lf|eapply fl_crlf|eapply fl_cr]; eauto. }
  assert (plain_line []) as PN by (split; intros []).
  induction n as [|n IH]; intros [|c r] L; cbn [length] in L; try lia; [exists [[]]; apply fl_last; exact PN|exists [[]]; apply fl_last; exact PN|].
  destruct (IH r) as (l & F); [lia|]. destruct (Z.eq_dec c 10) as [-> |N10]; [exists ([] :: l); apply (fl_lf [] r l PN F)|].
  destruct (Z.eq_dec c 13) as [-> |N13]; [|exact (C c N10 N13 r l F)].
  destruct r as [|x r]; [exists ([] :: l); apply (fl_cr [] [] _ PN); [cbn; lia|exact F]|]. destruct (Z.eq_dec x 10) as [-> |NX].
  - destruct (IH r) as (l' & F'); [cbn [length] in L; lia|]. exists ([] :: l'). apply (fl_crlf [] r l' PN F').
  - exists ([] :: l). apply (fl_cr [] _ _ PN); [exact NX|exact F].
Qed.
Lemma plain_newline (l : list str) : Forall plain_line l -> Forall (fun x : str => ~ In NEWLINE x) l.
Proof. apply Forall_impl. intros a [A _]. exact A. Qed.

(** ** Reading *)

Definition finish_load (W : world) (P : parser) : res (world * node) :=
  match p_node P with
  | None => Err AttributeError
  | Some nd => do W <- resolve_types W nd; Ok (W, nd)
  end.
Lemma load_lines old W (first : str) (rest : list str) : Forall (fun l : str => ~ In NEWLINE l) (first :: rest) ->
  ((is_header first -> version12 first) ->
   load_with old W (join [NEWLINE] (first :: rest)) = do '(W, P) <- process_lines W (mk_parser START old) rest; finish_load W P) /\
  (is_header first -> ~ version12 first -> load_with old W (join [NEWLINE] (first :: rest)) = Err NotImplementedError).
Proof.
  intros F. set (text := join [NEWLINE] (first :: rest)). pose proof (read_split text) as RS. unfold text in RS. rewrite split_lines in RS by exact F. fold text in RS.
  assert ((read_lines text = [] /\ first = [] /\ rest = []) \/ (read_lines text = [first] /\ rest = []) \/
    exists l, read_lines text = (first ++ [10]) :: l /\ line_ends l rest) as RL.
  { inversion RS as [X Y|f NF X Y|f l m R X Y]; [left; auto|right; left; auto|right; right; eauto]. }
  assert (forall s, header_version (s ++ [10]) = header_version s \/ ~ is_header (s ++ [10]) /\ ~ is_header s) as H10.
  { intros s. destruct (header_version (s ++ [10])) as [[a b]|] eqn:X.
    - left. apply version_is in X as (m & E & A & B). symmetry. apply version_is.
      destruct (rev m) as [|y m'] eqn:RM.
      + assert (m = []) as -> by (rewrite <- (rev_involutive m), RM; reflexivity). exfalso.
        assert (rev (s ++ [10]) = rev (lit "APX/" ++ [a; 46; b] ++ [])) as Y by congruence. rewrite rev_app_distr in Y. cbn in Y. injection Y as Y _. lia.
      + assert (m = rev m' ++ [y]) as -> by (rewrite <- (rev_involutive m), RM; reflexivity). rewrite !app_assoc in E. apply app_inj_tail in E as [-> _].
        exists (rev m'). rewrite <- !app_assoc. auto.
    - right. apply header_none in X. split; [exact X|]. intros (a & b & m & -> & A & B). apply X. exists a, b, (m ++ [10]). rewrite <- !app_assoc. auto. }
  assert (header_version (rstrip is_crlf (hd [] (read_lines text))) = header_version first) as HH.
  { rewrite header_rstrip. destruct RL as [(-> & -> & _)|[[-> _]|(l & -> & _)]]; cbn [hd]; try reflexivity.
    destruct (H10 first) as [-> |[A B]]; [reflexivity|]. apply header_none in A, B. congruence. }
  assert (forall W P, process_lines W P (map (rstrip is_crlf) (tl (read_lines text))) = process_lines W P rest) as PL.
  { intros W1 P1. destruct RL as [(-> & -> & ->)|[[-> ->]|(l & -> & R)]]; cbn [tl map]; try reflexivity. apply process_ends. exact R. }
  unfold load_with. rewrite HH. split.
  - intros V. assert (header_version first = None \/ header_version first = Some (49, 50)) as [-> | ->].
    { destruct (header_version first) as [[a b]|] eqn:X; [|auto]. right. rewrite <- X. apply version12_is. apply V. apply version_is in X as (m & E & A). exists a, b, m. auto. }
    + cbn [bind]. rewrite PL. reflexivity.
    + cbn [bind]. rewrite PL. reflexivity.
  - intros H V. destruct (header_version first) as [[a b]|] eqn:X; [|apply header_none in X; contradiction].
    assert ((a, b) <> (49, 50)) as NE by (intros Y; rewrite Y in X; apply V, version12_is, X).
    destruct a as [|p|p]; try reflexivity. do 6 (try (destruct p as [p|p|]; try reflexivity)).
    destruct b as [|p|p]; try reflexivity. do 6 (try (destruct p as [p|p|]; try reflexivity)). congruence.
Qed.

Definition old_sound (W : world) (old : option node) (oD : option ndef) : Prop :=
  match old, oD with
  | Some nd, Some D => sound W nd D
  | None, None => True
  | _, _ => False
  end.
Lemma header_dec first : (is_header first -> version12 first) \/ (is_header first /\ ~ version12 first).
Proof.
  destruct (header_version first) as [[a b]|] eqn:X.
  - assert (is_header first) as H by (apply version_is in X as (m & E & A); exists a, b, m; auto).
    destruct (Z.eq_dec a 49) as [-> |NA]; [destruct (Z.eq_dec b 50) as [-> |NB]|].
    + left. intros _. apply version12_is. exact X.
    + right. split; [exact H|]. rewrite version12_is. congruence.
    + right. split; [exact H|]. rewrite version12_is. congruence.
  - left. intros H. apply header_none in X. contradiction.
Qed.
Lemma load_says old oD W t W' nd : old_sound W old oD -> load_with old W (universal t) = Ok (W', nd) ->
  exists D, file_says oD t D /\ sound W' nd D.
Proof.
  intros OS E. destruct (file_lines_of t) as (l & FL). destruct (file_lines_ne _ _ FL) as (first & rest & ->).
  destruct (file_lines_text _ _ FL) as (UT & PL). rewrite UT in E. apply plain_newline in PL.
  destruct (load_lines old W first rest PL) as [L1 L2]. destruct (header_dec first) as [H|[H1 H2]]; [|rewrite L2 in E by assumption; discriminate].
  rewrite L1 in E by exact H. inv_bind E. destruct a as [W1 P1]. apply Forall_inv_tail in PL as PR.
  destruct (lines_sound rest PR W (mk_parser START old) (START, oD) W1 P1) as ([cs oD'] & R & HC & HN); [|exact Ha|].
  { split; [reflexivity|]. cbn [p_node p_cs snd]. destruct old, oD; cbn in OS; auto. }
  unfold finish_load in E. destruct (p_node P1) as [nd1|]; [|discriminate]. cbn [snd] in HN. destruct oD' as [D|]; [|contradiction].
  inv_bind E. injection E as <- <-. destruct (resolve_types_sound _ _ _ HN) as (W2 & E2 & S2 & _). rewrite Ha0 in E2. injection E2 as <-.
  exists D. split; [|exact S2]. exists first, rest, cs. auto.
Qed.

Lemma process_blank_end l W P : process_lines W P (l ++ [[]]) = process_lines W P l.
Proof.
  rewrite process_app. destruct (process_lines W P l) as [[W1 P1]|]; [|reflexivity]. cbn [bind process_lines]. rewrite process_blank by reflexivity. reflexivity.
Qed.
(** ** Unfinished nodes *)

Definition node_fresh (P : parser) : Prop := forall nd, p_node P = Some nd -> n_final nd = false.
Lemma add_type_final W nd o W' nd' o' : add_type W nd o = Ok (W', nd', o') -> n_final nd' = n_final nd.
Proof. unfold add_type. intros E. destruct (map_find _ _); inv_bind E; [|destruct a]; injection E as <- <- <-; reflexivity. Qed.
Lemma add_port_final W nd o W' nd' : add_port W nd o = Ok (W', nd') -> n_final nd' = n_final nd.
Proof. unfold add_port. intros E. inv_bind E. injection E as _ <-. destruct (pt_provide _); reflexivity. Qed.
Lemma process_line_fresh W P line W' P' : node_fresh P -> process_line W P line = Ok (W', P') -> node_fresh P'.
Proof.
  intros F E. unfold process_line in E. destruct (split_line line) as [parts|]; [|injection E as <- <-; exact F].
  set (t := match parts with t :: _ => t | [] => None end) in *. clearbody t.
  assert (forall nd cs, p_node P = Some nd -> (do '(W, nd) <- apply_type W nd parts; Ok (W, mk_parser cs (Some nd))) = Ok (W', P') -> node_fresh P') as AT.
  { intros nd cs N X. inv_bind X. destruct a as [W2 nd2]. injection X as <- <-. intros nd3 E3. cbn in E3. injection E3 as <-.
    unfold apply_type in Ha. inv_bind Ha. destruct a as [[n s] a]. inv_bind Ha. cbn in Ha. inv_bind Ha. destruct a1 as [[W4 nd4] o4]. injection Ha as <- <-.
    apply add_type_final in Ha2. rewrite Ha2. apply F. exact N. }
  assert (forall pr nd cs, p_node P = Some nd -> (do '(W, nd) <- apply_port pr W nd parts; Ok (W, mk_parser cs (Some nd))) = Ok (W', P') -> node_fresh P') as AP.
  { intros pr nd cs N X. inv_bind X. destruct a as [W2 nd2]. injection X as <- <-. intros nd3 E3. cbn in E3. injection E3 as <-.
    unfold apply_port in Ha. inv_bind Ha. destruct a as [[n s] a]. inv_bind Ha. cbn in Ha. apply add_port_final in Ha. rewrite Ha. apply F. exact N. }
  destruct (p_cs P).
  - destruct (opt_eqb t (Some [78])); [|discriminate]. inv_bind E. injection E as <- <-. intros nd N. cbn in N. injection N as <-. reflexivity.
  - destruct (p_node P) as [nd|] eqn:PN; [|discriminate]. repeat (match type of E with (if ?b then _ else _) = _ => destruct b; [first [eapply AT; [reflexivity|exact E]|eapply AP; [reflexivity|exact E]]|] end). discriminate.
  - destruct (p_node P) as [nd|] eqn:PN; [|discriminate]. repeat (match type of E with (if ?b then _ else _) = _ => destruct b; [first [eapply AT; [reflexivity|exact E]|eapply AP; [reflexivity|exact E]]|] end). discriminate.
  - destruct (p_node P) as [nd|] eqn:PN; [|discriminate]. repeat (match type of E with (if ?b then _ else _) = _ => destruct b; [first [eapply AT; [reflexivity|exact E]|eapply AP; [reflexivity|exact E]]|] end). injection E as <- <-. exact F.
  - destruct (p_node P) as [nd|] eqn:PN; [|discriminate]. repeat (match type of E with (if ?b then _ else _) = _ => destruct b; [first [eapply AT; [reflexivity|exact E]|eapply AP; [reflexivity|exact E]]|] end). discriminate.
Qed.
Lemma process_lines_fresh l : forall W P W' P', node_fresh P -> process_lines W P l = Ok (W', P') -> node_fresh P'.
Proof.
  induction l as [|x l IH]; intros W P W' P' F E; cbn [process_lines] in E; [injection E as <- <-; exact F|].
  inv_bind E. destruct a as [W1 P1]. eapply IH; [|exact E]. eapply process_line_fresh; eauto.
Qed.
Lemma load_fresh old W t W' nd : (forall x, old = Some x -> n_final x = false) -> load_with old W t = Ok (W', nd) -> n_final nd = false.
Proof.
  intros F E. unfold load_with in E. inv_bind E. inv_bind E. destruct a0 as [W1 P1].
  assert (node_fresh P1) as NF by (eapply process_lines_fresh; [|exact Ha0]; exact F). cbv beta in E.
  destruct (p_node P1) as [nd1|] eqn:PN; [|discriminate]. inv_bind E. injection E as <- <-. apply NF. exact PN.
Qed.

(** ** Words *)

Lemma pair_loop_incl l r : forall s count acc inner rest, pair_loop l r count acc s = Some (inner, rest) ->
  (forall c, In c inner -> In c acc \/ In c s) /\ (forall c, In c rest -> In c s).
Proof.
  induction s as [|x s IH]; intros count acc inner rest E; cbn [pair_loop] in E; [discriminate|].
  assert (forall count, pair_loop l r count (x :: acc) s = Some (inner, rest) ->
    (forall c, In c inner -> In c acc \/ In c (x :: s)) /\ (forall c, In c rest -> In c (x :: s))) as X.
  { intros k K. destruct (IH _ _ _ _ K) as [A B]. split; [|intros c C; right; auto]. intros c C. destruct (A c C) as [[<- |Y]|Y]; cbn; auto. }
  destruct (x =? r); [destruct (count - 1 =? 0)|destruct (x =? l)]; eauto. injection E as <- <-.
  split; [intros c C; left; apply in_rev; exact C|intros c C; right; exact C].
Qed.
Lemma match_pair_incl s l r o rest : match_pair s l r = (o, rest) ->
  (forall i c, o = Some i -> In c i -> In c s) /\ (forall c, In c rest -> In c s).
Proof.
  unfold match_pair. destruct s as [|x s]; [intros E; injection E as <- <-; split; [discriminate|intros c []]|].
  destruct (x =? l); [|intros E; injection E as <- <-; split; [discriminate|auto]].
  destruct (pair_loop l r 1 [] s) as [[inner rest']|] eqn:P; intros E; injection E as <- <-; [|split; [discriminate|intros c []]].
  destruct (pair_loop_incl _ _ _ _ _ _ _ P) as [A B]. split; [|intros c C; right; auto]. intros i c E C. injection E as <-. destruct (A c C) as [[]|X]. right. exact X.
Qed.

Definition nocr (s : str) : Prop := ~ In 13 s.
Lemma nocr_app a b : nocr (a ++ b) <-> nocr a /\ nocr b.
Proof. unfold nocr. rewrite in_app_iff. tauto. Qed.
Lemma nocr_incl (a b : str) : (forall c, In c a -> In c b) -> nocr b -> nocr a.
Proof. unfold nocr. auto. Qed.
Definition nocrs (l : list str) : Prop := forall w, In w l -> nocr w.
Lemma nocrs_app a b : nocrs (a ++ b) <-> nocrs a /\ nocrs b.
Proof. unfold nocrs. split; [intros X; split; intros w I; apply X, in_or_app; auto|]. intros [A B] w I. apply in_app_or in I as [I|I]; auto. Qed.
Lemma nocrs_cons a b : nocrs (a :: b) <-> nocr a /\ nocrs b.
Proof. unfold nocrs. split; [intros X; split; [apply X; left; reflexivity|intros w I; apply X; right; exact I]|]. intros [A B] w [<- |I]; auto. Qed.
Lemma nocrs_nil : nocrs [].
Proof. intros w []. Qed.
Lemma nocrs_flat {A} (f : A -> list str) l : nocrs (flat_map f l) <-> forall x, In x l -> nocrs (f x).
Proof.
  split; [intros N x X w I; apply N, in_flat_map; eauto|]. intros H w I. apply in_flat_map in I as (x & X & J). eapply H; eauto.
Qed.
Fixpoint members_words (l : list delem) : list str :=
  match l with [] => [] | x :: r => opt_text (de_name x) :: elem_words x ++ members_words r end.
Lemma elem_words_rec n es : elem_words (DRec n es) = members_words es.
Proof. cbn [elem_words]. induction es as [|x es IH]; [reflexivity|]. cbn [members_words]. rewrite <- IH. reflexivity. Qed.
Lemma elem_words_name n e : elem_words (set_name n e) = elem_words e.
Proof. destruct e as [| |m []]; reflexivity. Qed.
Lemma opt_nocr n s : (forall i c, n = Some i -> In c i -> In c s) -> nocr s -> nocr (opt_text n).
Proof. intros I N. destruct n as [i|]; [eapply nocr_incl; [|exact N]; intros c; apply I; reflexivity|]. cbn. unfold nocr. cbn. intuition lia. Qed.

Lemma parse_prim_words c s e rest : parse_prim c s = Ok (e, rest) -> elem_words e = [] /\ (forall x, In x rest -> In x s).
Proof.
  unfold parse_prim. intros E. apply bind_ok in E as ([[lo hi] s1] & E1 & E). apply bind_ok in E as ([al s2] & E2 & E).
  apply bind_ok in E as (al' & E3 & E). invc E. split; [reflexivity|].
  assert (forall x, In x s1 -> In x s) as I1.
  { rewrite (head40 _ (fun _ => match match_pair s 40 41 with
      | (None, _) => Err ParseError
      | (Some data, rest) => do '(lo, hi) <- parseExtendedTypeCode data; Ok (Some lo, Some hi, rest)
      end)) in E1.
    assert (Ok (None, None, s) = Ok (lo, hi, s1) -> forall x, In x s1 -> In x s) as D by (intros X; invc X; auto).
    destruct s as [|x s0]; [auto|]. destruct (x =? 40); [|auto]. clear D.
    destruct (match_pair (x :: s0) 40 41) as [[data|] r] eqn:M; [|discriminate].
    apply match_pair_incl in M. apply bind_ok in E1 as ([l h] & _ & X). invc X. apply M. }
  assert (forall x, In x rest -> In x s1) as I2.
  { rewrite (head91 _ (fun _ => match match_pair s1 91 93 with
      | (None, _) => Err ParseError
      | (Some value, rest) => do n <- py_int value; Ok (Some n, rest)
      end)) in E2.
    assert (Ok (None, s1) = Ok (al, rest) -> forall x, In x rest -> In x s1) as D by (intros X; invc X; auto).
    destruct s1 as [|x s0]; [auto|]. destruct (x =? 91); [|auto]. clear D.
    destruct (match_pair (x :: s0) 91 93) as [[data|] r] eqn:M; [|discriminate].
    apply match_pair_incl in M. apply bind_ok in E2 as (l & _ & X). invc X. apply M. }
  auto.
Qed.
Lemma parse_ref_words s e rest : parse_ref s = Ok (e, rest) -> (nocr s -> nocrs (elem_words e)) /\ (forall x, In x rest -> In x s).
Proof.
  unfold parse_ref. destruct (match_pair s 91 93) as [[data|] r] eqn:M; [|discriminate]. apply match_pair_incl in M as [M1 M2].
  destruct (parse_str data) as [[name|] [|c t]] eqn:Q; intros E.
  - invc E. split; [|exact M2]. intros N. cbn [elem_words]. apply nocrs_cons. split; [|apply nocrs_nil]. eapply nocr_incl; [|exact N].
    intros c C. apply (M1 data c eq_refl). unfold parse_str in Q. apply match_pair_incl in Q as [Q1 _]. eapply Q1; [reflexivity|exact C].
  - discriminate.
  - inv_bind E. invc E. split; [intros; apply nocrs_nil|exact M2].
  - inv_bind E. invc E. split; [intros; apply nocrs_nil|exact M2].
Qed.
Lemma parse_sig_words : forall fuel,
  (forall s o rest, parse_sig fuel s = Ok (o, rest) ->
    (forall x, In x rest -> In x s) /\ match o with Some e => nocr s -> nocrs (elem_words e) | None => True end) /\
  (forall s es rest, parse_members fuel s = Ok (es, rest) -> (forall x, In x rest -> In x s) /\ (nocr s -> nocrs (members_words es))).
Proof.
  induction fuel as [|k [IH1 IH2]]; [split; intros; discriminate|]. split.
  - intros s o rest E. cbn [parse_sig] in E. destruct s as [|c s]; [discriminate|].
    assert (nocr (c :: s) -> nocr s) as T by (apply nocr_incl; intros; right; assumption).
    destruct (c =? 123); [|destruct (c =? 84); [|destruct (char_code c) as [code|]]].
    + apply bind_ok in E as ([es r] & E1 & E). invc E. apply IH2 in E1 as [A L]. rewrite elem_words_rec. split; [intros x X; right; auto|auto].
    + apply bind_ok in E as ([e r] & E1 & E). invc E. apply parse_ref_words in E1 as [A L]. split; [intros x X; right; auto|auto].
    + apply bind_ok in E as ([e r] & E1 & E). invc E. apply parse_prim_words in E1 as [A L]. split; [intros x X; right; auto|]. intros _. rewrite A. apply nocrs_nil.
    + invc E. auto.
  - intros s es rest E. cbn [parse_members] in E. destruct s as [|c s]; [discriminate|].
    destruct (parse_str (c :: s)) as [name [|d r]] eqn:Q; [discriminate|]. unfold parse_str in Q. apply match_pair_incl in Q as [Q1 Q2].
    apply bind_ok in E as ([o r2] & E1 & E). apply IH1 in E1 as [A1 B1]. destruct o as [e|].
    + apply bind_ok in E as ([es' r3] & E2 & E). invc E. apply IH2 in E2 as [A2 B2]. split; [auto|]. intros N.
      assert (nocr (d :: r)) as N1 by (eapply nocr_incl; [exact Q2|exact N]). assert (nocr r2) as N2 by (eapply nocr_incl; [exact A1|exact N1]).
      cbn [members_words]. apply nocrs_cons. split.
      * assert (de_name (set_name name e) = name) as -> by (destruct e; reflexivity). eapply opt_nocr; [exact Q1|exact N].
      * apply nocrs_app. rewrite elem_words_name. auto.
    + destruct r2 as [|y r2]; [discriminate|]. rewrite is125 in E. destruct (y =? 125); [|discriminate]. invc E.
      split; [intros x I; apply Q2, A1; right; exact I|intros _; apply nocrs_nil].
Qed.
Lemma signature_words s e : parse_signature s = Ok e -> nocr s -> nocrs (elem_words e).
Proof.
  unfold parse_signature. intros E N. apply bind_ok in E as ([o r] & E1 & E). apply parse_sig_words in E1 as [_ E1].
  destruct r; [|discriminate]. destruct o; [|discriminate]. invc E. apply E1. exact N.
Qed.

Lemma says_words line ps x : line_says line (Some ps) -> nocr line -> In (Some x) ps -> nocr x.
Proof.
  intros LS N I. inversion LS as [|c r t BT TR NL E1 E2|k more t n rest qs NE FL ML BT TR NP RP E1 E2]; subst.
  - apply nocr_app in N as [N _]. destruct I as [I|[I|[]]]; [discriminate|]. injection I as <-. exact N.
  - apply nocr_app in N as [N _]. apply nocr_app in N as [N1 N2]. destruct I as [I|[I|I]].
    + injection I as <-. exact N1.
    + destruct NP as [m rs Q|m Q| |c r NQ]; try discriminate. injection I as <-. eapply nocr_incl; [|exact N2]. intros c C. right. apply in_or_app. auto.
    + assert (nocr rest) as N3.
      { destruct NP as [m rs Q|m Q| |c r NQ]; [|intros []|intros []|exact N2]. eapply nocr_incl; [|exact N2]. intros c C. right. apply in_or_app. right. right. exact C. }
      destruct RP as [|s NS N58|s a N58]; [destruct I|..].
      * destruct I as [I|[I|[]]]; [|discriminate]. injection I as <-. exact N3.
      * apply nocr_app in N3 as [N3 N4]. destruct I as [I|[I|[]]]; injection I as <-; [exact N3|]. eapply nocr_incl; [|exact N4]. intros c C. right. exact C.
Qed.
Lemma says_opt line ps i n : line_says line (Some ps) -> nocr line -> nth_error ps i = Some n -> nocr (opt_text n).
Proof.
  intros LS N E. apply nth_error_In in E. destruct n as [x|]; [eapply says_words; eauto|]. cbn. unfold nocr. cbn. intuition lia.
Qed.

Lemma refers_words names : forall e a, refers names e a -> nocrs (elem_words e) -> nocrs (elem_words a).
Proof.
  apply (refers_mind names (fun e a _ => nocrs (elem_words e) -> nocrs (elem_words a)) (fun es l _ => nocrs (members_words es) -> nocrs (members_words l))).
  - auto.
  - intros. apply nocrs_nil.
  - auto.
  - auto.
  - intros n es l R IH. rewrite !elem_words_rec. exact IH.
  - auto.
  - intros e a es l R IH Rs IHs. cbn [members_words]. rewrite !nocrs_cons, !nocrs_app. intros (A & B & C). split; [|auto].
    assert (de_name a = de_name e) as -> by (destruct R; reflexivity). exact A.
Qed.

Definition crless_type (t : tdef) : Prop := nocrs (type_words t).
Definition crless_port (p : pdef) : Prop := nocrs (port_words p).
Lemma crless_parts D : crless D <-> nocr (opt_text (df_name D)) /\ (forall t, In t (df_types D) -> crless_type t) /\
  (forall p, In p (df_provide D ++ df_require D) -> crless_port p).
Proof.
  unfold crless. change (nocrs (def_words D) <-> nocr (opt_text (df_name D)) /\ (forall t, In t (df_types D) -> crless_type t) /\
    (forall p, In p (df_provide D ++ df_require D) -> crless_port p)). unfold def_words. rewrite nocrs_cons, nocrs_app, !nocrs_flat. reflexivity.
Qed.
Lemma crless_plus_type D t : crless D -> crless_type t -> crless (plus_type D t).
Proof.
  rewrite !crless_parts. intros (A & B & C) T. split; [exact A|]. split; [|exact C]. cbn [plus_type df_types]. intros x X. apply in_app_or in X as [X|[<- |[]]]; auto.
Qed.
Lemma crless_plus_port pr D p : crless D -> crless_port p -> crless (plus_port pr D p).
Proof.
  rewrite !crless_parts. intros (A & B & C) T. split; [destruct pr; exact A|]. split; [destruct pr; exact B|].
  intros x X. assert (In x (df_provide D ++ df_require D) \/ x = p) as [Y| ->]; [|apply C; exact Y|exact T].
  destruct pr; cbn [plus_port df_provide df_require] in X; rewrite !in_app_iff in *; cbn in X; intuition.
Qed.
Lemma crless_empty n : nocr (opt_text n) -> crless (mk_ndef n [] [] []).
Proof. intros N. apply crless_parts. split; [exact N|]. split; intros x []. Qed.

Lemma reads_line_words st line st' : reads_line st line st' -> nocr line -> (forall D, snd st = Some D -> crless D) -> forall D, snd st' = Some D -> crless D.
Proof.
  intros R N C D E. destruct R as [cs oD line LS|oD line n more LS|cs D0 line n s attr D1 CS LS DT|cs D0 line n s attr D1 CS LS DP|cs D0 line n s attr D1 CS LS DP|oD line k n more LS K1 K2];
    cbn [snd] in *; try (apply C; exact E); injection E as <-.
  - apply crless_empty. apply (says_opt _ _ 1 n LS N eq_refl).
  - pose proof (says_opt _ _ 1 n LS N eq_refl) as A. pose proof (says_opt _ _ 2 (Some s) LS N eq_refl) as B. pose proof (says_opt _ _ 3 attr LS N eq_refl) as G.
    destruct DT as [e a PS TA NI RF RC|e t PS TA IT NT X]; [|apply C; reflexivity]. apply crless_plus_type; [apply C; reflexivity|].
    unfold crless_type, type_words. cbn [td_name td_attr td_elem]. rewrite !nocrs_cons. split; [exact A|]. split; [exact G|].
    eapply refers_words; [exact RF|]. eapply signature_words; eauto.
  - pose proof (says_opt _ _ 1 n LS N eq_refl) as A. pose proof (says_opt _ _ 2 (Some s) LS N eq_refl) as B. pose proof (says_opt _ _ 3 attr LS N eq_refl) as G.
    assert (forall pa, port_attr_read attr pa -> nocr (opt_text (option_map pa_str pa))) as PA.
    { intros pa R. destruct attr as [t|]; cbn in R; [destruct R as (v & P & ->); cbn; rewrite (parse_port_attr_str _ _ P); exact G|subst pa; exact G]. }
    destruct DP as [e a pa PS PR IR RF RC|e pa PS PR IR]; apply crless_plus_port; try (apply C; reflexivity);
      unfold crless_port, port_words; cbn [pd_name pd_attr pd_elem]; rewrite !nocrs_cons; (split; [exact A|]); (split; [auto|]).
    + eapply refers_words; [exact RF|]. eapply signature_words; eauto.
    + eapply signature_words; eauto.
  - pose proof (says_opt _ _ 1 n LS N eq_refl) as A. pose proof (says_opt _ _ 2 (Some s) LS N eq_refl) as B. pose proof (says_opt _ _ 3 attr LS N eq_refl) as G.
    assert (forall pa, port_attr_read attr pa -> nocr (opt_text (option_map pa_str pa))) as PA.
    { intros pa R. destruct attr as [t|]; cbn in R; [destruct R as (v & P & ->); cbn; rewrite (parse_port_attr_str _ _ P); exact G|subst pa; exact G]. }
    destruct DP as [e a pa PS PR IR RF RC|e pa PS PR IR]; apply crless_plus_port; try (apply C; reflexivity);
      unfold crless_port, port_words; cbn [pd_name pd_attr pd_elem]; rewrite !nocrs_cons; (split; [exact A|]); (split; [auto|]).
    + eapply refers_words; [exact RF|]. eapply signature_words; eauto.
    + eapply signature_words; eauto.
Qed.
Lemma reads_lines_words st l st' : reads_lines st l st' -> Forall nocr l -> (forall D, snd st = Some D -> crless D) -> forall D, snd st' = Some D -> crless D.
Proof.
  induction 1 as [|st line s1 l s2 R Rs IH]; intros F C; [exact C|]. inversion F; subst. apply IH; [assumption|]. eapply reads_line_words; eauto.
Qed.
(** What is read from a file has no carriage return. *)
Lemma file_says_crless old t D : file_says old t D -> (forall D0, old = Some D0 -> crless D0) -> crless D.
Proof.
  intros (first & body & cs & FL & _ & R) C. destruct (file_lines_text _ _ FL) as (_ & PL). apply Forall_inv_tail in PL.
  eapply (reads_lines_words _ _ _ R); [|exact C|reflexivity]. eapply Forall_impl; [|exact PL]. intros a [_ A]. exact A.
Qed.

(** ** Texts without carriage returns *)

Lemma dec_nocr z : nocr (dec_str z).
Proof.
  intros I. pose proof (dec_str_none (fun c => c =? 13) z) as N. assert (none (fun c => c =? 13) (dec_str z)) as X.
  { apply N. intros c. unfold is_numch, is_digit. lia. }
  unfold none in X. rewrite Forall_forall in X. apply X in I. discriminate.
Qed.
Ltac nocr := repeat (first [apply dec_nocr | (unfold nocr, COMMA, QUOTE, NEWLINE; cbn; intuition lia) | apply nocr_app; split]).
Lemma elem_text_nocr by_name H : forall e s, elem_string by_name H e = Ok s -> nocrs (elem_words e) ->
  (forall o, mentions e o -> nocr (opt_text (dt_name (H o)))) -> nocr s.
Proof.
  induction e as [n c lo hi k|n es IH|n r] using delem_ind2; intros s E NW NM.
  - cbn [elem_string] in E. injection E as <-. change (nocr ([code_char c] ++ match lo, hi with
           | Some l, Some h => [40] ++ dec_str l ++ [COMMA] ++ dec_str h ++ [41]
           | _, _ => []
           end ++ match k with Some n => [91] ++ dec_str n ++ [93] | None => [] end)).
    apply nocr_app. split; [destruct c; nocr|]. apply nocr_app. split; [destruct lo, hi; nocr|destruct k; nocr].
  - rewrite elem_string_rec in E. inv_bind E. injection E as <-. rewrite elem_words_rec in NW.
    assert (nocr a) as NA; [|change (nocr ([123] ++ a ++ [125])); apply nocr_app; split; [nocr|]; apply nocr_app; split; [exact NA|nocr]].
    assert (forall e o, In e es -> mentions e o -> nocr (opt_text (dt_name (H o)))) as NMs by (intros e o I M; apply NM; econstructor; eauto).
    clear NM. revert a Ha. induction es as [|x es IHes]; intros a E; cbn in E; [injection E as <-; intros []|].
    apply bind_ok in E as (t & E1 & E). apply bind_ok in E as (b & E2 & E). injection E as <-. cbn [members_words] in NW. apply nocrs_cons in NW as [NW1 NW]. apply nocrs_app in NW as [NW2 NW3].
    pose proof (Forall_inv IH) as IHx. apply Forall_inv_tail in IH.
    change (nocr ([QUOTE] ++ opt_text (de_name x) ++ [QUOTE] ++ t ++ b)).
    apply nocr_app; split; [nocr|]. apply nocr_app; split; [exact NW1|]. apply nocr_app; split; [nocr|]. apply nocr_app; split.
    + eapply IHx; [exact E1|exact NW2|]. intros o M. eapply NMs; [left; reflexivity|exact M].
    + apply IHes; auto. intros e o I M. eapply NMs; [right; exact I|exact M].
  - cbn [elem_string] in E. destruct r as [i|m|o]; [discriminate| |].
    + injection E as <-. cbn [elem_words] in NW. apply nocrs_cons in NW as [NW _].
      change (nocr (lit "T[""" ++ m ++ lit """]")). apply nocr_app; split; [nocr|]. apply nocr_app; split; [exact NW|nocr].
    + assert (nocr (opt_text (dt_name (H o)))) as NO by (apply NM; constructor).
      destruct (if by_name then None else dt_id (H o)); injection E as <-.
      * change (nocr (lit "T[" ++ dec_str z ++ lit "]")). nocr.
      * change (nocr (lit "T[""" ++ opt_text (dt_name (H o)) ++ lit """]")). apply nocr_app; split; [nocr|]. apply nocr_app; split; [exact NO|nocr].
Qed.
Lemma stands_words types : forall e a, stands types e a -> elem_words e = elem_words a.
Proof.
  apply (stands_mind types (fun e a _ => elem_words e = elem_words a) (fun es l _ => members_words es = members_words l)); try reflexivity.
  - intros n es l R IH. rewrite !elem_words_rec. exact IH.
  - intros e a es l R IH Rs IHs. cbn [members_words]. rewrite (stands_name _ _ _ R), IH, IHs. reflexivity.
Qed.
Lemma stands_mentions_in types : forall e a, stands types e a -> forall o, mentions e o -> In o types.
Proof.
  apply (stands_mind types (fun e a _ => forall o, mentions e o -> In o types) (fun es l _ => forall e o, In e es -> mentions e o -> In o types)).
  - intros n c lo hi k o M. inversion M.
  - intros n o i E x M. inversion M; subst. eapply nth_error_In; eauto.
  - intros n es l R IH o M. inversion M; subst. eauto.
  - intros e o [].
  - intros e a es l R IH Rs IHs x o [<- |I] M; eauto.
Qed.

Lemma parsed_mentions : forall e, as_parsed e -> forall o, ~ mentions e o.
Proof.
  induction e as [n c lo hi k|n es IH|n r] using delem_ind2; intros A o M; inversion M; subst.
  - rewrite as_parsed_rec in A. rewrite Forall_forall in IH. rename H1 into J, H3 into Q. apply (IH e J) with o; [|exact Q]. clear Q IH M.
    induction es as [|y es IHes]; [destruct J|]. destruct A as (_ & A1 & A2). destruct J as [<- |J]; auto.
  - exact A.
Qed.

Lemma decl_nocr letter name sig attr : letter <> 13 -> nocr (opt_text name) -> nocr sig -> (forall a, attr = Some a -> nocr a) -> nocr (decl_string letter name sig attr).
Proof.
  intros L N S A. unfold decl_string. apply nocr_app. split; [unfold nocr, QUOTE; cbn; intuition lia|]. apply nocr_app. split; [exact N|]. apply nocr_app. split; [unfold nocr, QUOTE; cbn; intuition lia|].
  apply nocr_app. split; [exact S|]. destruct attr as [a|]; [|intros []]. apply nocr_app. split; [nocr|]. apply A. reflexivity.
Qed.
Lemma map_res_in {A B} (f : A -> res B) l : forall ys, map_res f l = Ok ys -> forall y, In y ys -> exists x, In x l /\ f x = Ok y.
Proof.
  induction l as [|x l IH]; intros ys E y I; cbn [map_res] in E; [injection E as <-; destruct I|].
  inv_bind E. inv_bind E. injection E as <-. destruct I as [<- |I]; [exists x; split; [left; reflexivity|exact Ha]|].
  destruct (IH _ Ha0 y I) as (z & Z1 & Z2). exists z. split; [right; exact Z1|exact Z2].
Qed.
Lemma lines_nocr normalized W nd D ls : represents W nd D -> linked_ports D -> unshort W nd -> crless D -> lines normalized W nd = Ok ls -> Forall nocr ls.
Proof.
  intros R LP US CR E. apply crless_parts in CR as (C1 & C2 & C3). unfold lines in E. inv_bind E. inv_bind E. inv_bind E. injection E as <-.
  assert (forall o, In o (n_types nd) -> nocr (opt_text (dt_name (w_types W o)))) as TN.
  { intros o O. apply In_nth_error in O as (i & O). destruct (Forall2_nth _ _ _ _ _ (rp_types _ _ _ R) O) as (t & T & -> & _). apply nth_error_In in T.
    specialize (C2 t T). apply nocrs_cons in C2 as [C2 _]. exact C2. }
  assert (forall e a by_name s, stands (n_types nd) e a -> nocrs (elem_words a) -> elem_string by_name (w_types W) e = Ok s -> nocr s) as EN.
  { intros e x b s ST NW ES. eapply elem_text_nocr; [exact ES|rewrite (stands_words _ _ _ ST); exact NW|]. intros o M. apply TN. eapply stands_mentions_in; eauto. }
  assert (forall pr os ps ys, Forall2 (port_is W (n_types nd) pr) os ps -> (forall p, In p ps -> In p (df_provide D ++ df_require D)) ->
    map_res (fun o => port_string normalized (w_types W) (w_ports W o)) os = Ok ys -> Forall nocr ys) as PN.
  { intros pr os ps ys F IP M. apply Forall_forall. intros y Y. destruct (map_res_in _ _ _ M y Y) as (o & O & PS).
    apply In_nth_error in O as (i & O). destruct (Forall2_nth _ _ _ _ _ F O) as (p & P & PP & PN & PA & PE). apply nth_error_In, IP in P.
    specialize (C3 p P). unfold crless_port, port_words in C3. rewrite !nocrs_cons in C3. destruct C3 as (A1 & A2 & A3).
    unfold port_string in PS. inv_bind PS. injection PS as <-. rewrite PN, PA. apply decl_nocr; [destruct (pt_provide _); lia|exact A1| |].
    - inversion PE as [m r x ST E1 E2|e NR E1 E2]; subst.
      + rewrite <- E1 in *. eapply EN; eauto.
      + rewrite E2 in *. eapply elem_text_nocr; [exact Ha2|exact A3|]. intros o' M'. exfalso.
        exact (parsed_mentions _ (LP p P NR) _ M').
    - intros x X. destruct (pd_attr p); [injection X as <-; exact A2|discriminate]. }
  constructor; [|apply Forall_app; split; [|apply Forall_app; split]].
  - change (nocr (lit "N""" ++ opt_text (n_name nd) ++ lit """")). rewrite (rp_name _ _ _ R). apply nocr_app; split; [nocr|]. apply nocr_app; split; [exact C1|nocr].
  - apply Forall_forall. intros y Y. destruct (map_res_in _ _ _ Ha y Y) as (o & O & PS). pose proof (US o O) as SH. apply In_nth_error in O as (i & O).
    destruct (Forall2_nth _ _ _ _ _ (rp_types _ _ _ R) O) as (t & T & TN' & TA & ST). apply nth_error_In in T.
    specialize (C2 t T). unfold crless_type, type_words in C2. rewrite !nocrs_cons in C2. destruct C2 as (A1 & A2 & A3).
    unfold type_string in PS. inv_bind PS. rewrite SH in PS. injection PS as <-. rewrite TN', TA. apply decl_nocr; [lia|exact A1|eapply EN; eauto|].
    intros x X. rewrite X in A2. exact A2.
  - eapply PN; [exact (rp_provide _ _ _ R)|intros; apply in_or_app; auto|exact Ha0].
  - eapply PN; [exact (rp_require _ _ _ R)|intros; apply in_or_app; auto|exact Ha1].
Qed.

(** ** Saving *)

Lemma write_all_ok {A} (f : A -> res str) l : forall ys m, map_res f l = Ok ys ->
  write_all (map f l ++ m) = let '(t, e) := write_all m in (concat (map (fun y => y ++ [NEWLINE]) ys) ++ t, e).
Proof.
  induction l as [|x l IH]; intros ys m E; cbn [map_res] in E.
  - injection E as <-. cbn [map app concat]. destruct (write_all m). reflexivity.
  - inv_bind E. inv_bind E. injection E as <-. cbn [map app write_all]. rewrite Ha, (IH _ m Ha0). destruct (write_all m) as [t e]. cbn [concat]. rewrite <- !app_assoc. reflexivity.
Qed.
Lemma write_all_err {A} (f : A -> res str) l m : forall e, map_res f l = Err e -> exists t, write_all (map f l ++ m) = (t, Some e).
Proof.
  induction l as [|x l IH]; intros e E; cbn [map_res] in E; [discriminate|]. cbn [map app write_all]. destruct (f x) as [y|e']; cbn [bind] in E.
  - destruct (map_res f l) as [ys|e'']; cbn [bind] in E; [discriminate|]. destruct (IH e E) as (t & ->). eauto.
  - injection E as ->. eauto.
Qed.
Lemma written_lines normalized W nd ls : lines normalized W nd = Ok ls -> written normalized W nd = (concat (map (fun l => l ++ [NEWLINE]) ls), None).
Proof.
  intros E. unfold lines in E. inv_bind E. inv_bind E. inv_bind E. unfold written. set (nl := lit "N""" ++ opt_text (n_name nd) ++ lit """") in *. clearbody nl. injection E as <-. cbn [write_all].
  rewrite (write_all_ok _ _ _ _ Ha), (write_all_ok _ _ _ _ Ha0). rewrite <- (app_nil_r (map _ (n_require nd))), (write_all_ok _ _ _ _ Ha1). cbn [write_all].
  f_equal. cbn [map concat]. rewrite !map_app, !concat_app, app_nil_r, <- !app_assoc. reflexivity.
Qed.
Lemma written_fails normalized W nd e : lines normalized W nd = Err e -> exists t, written normalized W nd = (t, Some e).
Proof.
  intros E. unfold lines in E. unfold written. cbn [write_all].
  destruct (map_res (fun o => type_string false (w_types W) (w_types W o)) (n_types nd)) as [ts|e1] eqn:E1; cbn [bind] in E.
  - rewrite (write_all_ok _ _ _ _ E1).
    destruct (map_res (fun o => port_string normalized (w_types W) (w_ports W o)) (n_provide nd)) as [ps|e2] eqn:E2; cbn [bind] in E.
    + rewrite (write_all_ok _ _ _ _ E2). destruct (map_res _ (n_require nd)) as [rs|e3] eqn:E3; cbn [bind] in E; [discriminate|]. injection E as <-.
      rewrite <- (app_nil_r (map _ (n_require nd))). destruct (write_all_err _ _ [] _ E3) as (t & ->). eauto.
    + injection E as <-. destruct (write_all_err _ _ (map (fun o => port_string normalized (w_types W) (w_ports W o)) (n_require nd)) _ E2) as (t & ->). eauto.
  - injection E as <-. destruct (write_all_err _ _ (map (fun o => port_string normalized (w_types W) (w_ports W o)) (n_provide nd) ++
      map (fun o => port_string normalized (w_types W) (w_ports W o)) (n_require nd)) _ E1) as (t & ->). eauto.
Qed.

(** The text of a saved file: that of a dump with one more line feed. *)
Definition file_text (ls : list str) : str := lit "APX/1.2" ++ [NEWLINE] ++ concat (map (fun l => l ++ [NEWLINE]) ls) ++ [NEWLINE].
Lemma joined (ls : list str) : forall x, join [NEWLINE] (x :: ls ++ [[]]) = concat (map (fun l => l ++ [NEWLINE]) (x :: ls)).
Proof.
  induction ls as [|y ls IH]; intros x.
  - cbn. rewrite app_nil_r. reflexivity.
  - change ((y :: ls) ++ [[]]) with (y :: ls ++ [[]]). rewrite join_cons, IH. cbn [map concat]. rewrite <- !app_assoc. reflexivity.
Qed.
Lemma file_text_join ls : file_text ls = join [NEWLINE] (lit "APX/1.2" :: (ls ++ [[]]) ++ [[]]).
Proof. rewrite joined. unfold file_text. cbn [map concat]. rewrite map_app, concat_app. cbn [map concat app]. rewrite <- !app_assoc. reflexivity. Qed.
Lemma dumps_text_join ls : ls <> [] -> lit "APX/1.2" ++ [NEWLINE] ++ join [NEWLINE] ls ++ [NEWLINE] = join [NEWLINE] (lit "APX/1.2" :: ls ++ [[]]).
Proof.
  destruct ls as [|x ls]; [congruence|]. intros _. change ((x :: ls) ++ [[]]) with (x :: ls ++ [[]]). rewrite join_cons. do 2 f_equal.
  change (x :: ls ++ [[]]) with ((x :: ls) ++ [[]]). rewrite join_last by discriminate. reflexivity.
Qed.
Lemma lines_cons normalized W nd ls : lines normalized W nd = Ok ls -> exists x r, ls = x :: r.
Proof. unfold lines. intros E. inv_bind E. inv_bind E. inv_bind E. injection E as <-. eauto. Qed.
Lemma write_node_lines normalized d path W nd ls : lines normalized W nd = Ok ls -> write_node normalized d path W nd = (put_file d path (file_text ls), None).
Proof. intros E. unfold write_node. rewrite (written_lines _ _ _ _ E). reflexivity. Qed.

Lemma nocr_file_text ls : Forall nocr ls -> nocr (file_text ls).
Proof.
  intros F. unfold file_text. apply nocr_app; split; [nocr|]. apply nocr_app; split; [nocr|]. apply nocr_app; split; [|nocr].
  induction F as [|x l X F IH]; [intros []|]. cbn [map concat]. apply nocr_app; split; [apply nocr_app; split; [exact X|nocr]|exact IH].
Qed.
Lemma version_own : is_header (lit "APX/1.2") -> version12 (lit "APX/1.2").
Proof. intros _. apply version12_is. reflexivity. Qed.

(** A parser that holds nothing reads the text of a dump and of a file alike. *)
Lemma load_file_text (ls : list str) W : Forall (fun l : str => ~ In NEWLINE l) ls ->
  load W (file_text ls) = load W (join [NEWLINE] (lit "APX/1.2" :: ls ++ [[]])).
Proof.
  intros F. assert (~ In NEWLINE (lit "APX/1.2")) as H by (cbn; unfold NEWLINE; lia).
  assert (~ In NEWLINE (@nil Z)) as H0 by (intros []). rewrite file_text_join. unfold load.
  rewrite (proj1 (load_lines None W (lit "APX/1.2") ((ls ++ [[]]) ++ [[]]) ltac:(constructor; [exact H|]; rewrite !Forall_app; auto)) version_own).
  rewrite (proj1 (load_lines None W (lit "APX/1.2") (ls ++ [[]]) ltac:(constructor; [exact H|]; rewrite !Forall_app; auto)) version_own).
  rewrite process_blank_end. reflexivity.
Qed.

Lemma node_written normalized W nd D : represents W nd D -> linked D -> tagging W nd -> writable_def D -> crless D ->
  exists ls, lines normalized W nd = Ok ls /\ Forall nocr ls /\ Forall (fun l : str => ~ In NEWLINE l) ls /\
    forall W0, exists W' nd', load W0 (file_text ls) = Ok (W', nd') /\ sound W' nd' D /\ n_final nd' = false.
Proof.
  intros R L TG WD CR. destruct (lines_written normalized W nd D R L TG WD) as (n & tls & pls & rls & N1 & N2 & E & A).
  eexists. split; [exact E|]. destruct A as (A1 & A2 & A3 & A4 & A5). set (ls := (lit "N""" ++ n ++ lit """") :: tls ++ pls ++ rls) in *.
  assert (Forall (fun l : str => ~ In NEWLINE l) ls) as NN by (constructor; [apply name_line; exact N2|exact A5]).
  split; [|split; [exact NN|]].
  - eapply lines_nocr; eauto.
    + intros p P. apply (ln_ports _ L p P).
    + intros o O. destruct TG as [U|U]; [apply U; exact O|]. apply In_nth_error in O as (i & O). apply (U i o O).
  - intros W0. destruct (text_read n tls pls rls D W0 N1 N2 A1 A2 A3 A4 A5) as (W' & nd' & E' & S'). exists W', nd'.
    assert (load W0 (file_text ls) = Ok (W', nd')) as LD; [|split; [exact LD|]; split; [exact S'|apply (load_fresh None W0 (file_text ls) W' nd'); [discriminate|exact LD]]].
    rewrite load_file_text by exact NN.
    change (loads W0 (join [NEWLINE] (lit "APX/1.2" :: ls) ++ [NEWLINE]) = Ok (W', nd')) in E'.
    assert (join [NEWLINE] (lit "APX/1.2" :: ls) ++ [NEWLINE] = join [NEWLINE] (lit "APX/1.2" :: ls ++ [[]])) as X.
    { change (lit "APX/1.2" :: ls ++ [[]]) with ((lit "APX/1.2" :: ls) ++ [[]]). rewrite join_last by discriminate. reflexivity. }
    rewrite X in E'.
    assert (Forall (fun l : str => ~ In NEWLINE l) (lit "APX/1.2" :: ls ++ [[]])) as FF.
    { constructor; [cbn; unfold NEWLINE; lia|]. apply Forall_app. split; [exact NN|repeat constructor; intros []]. }
    destruct (load_header W0 (lit "APX/1.2") (ls ++ [[]]) FF) as [Y|(? & ? & _ & _ & _ & B)]; [exists 49, 50, []; repeat split; lia|exact (eq_trans Y E')|].
    assert (Err RuntimeError = Ok (W', nd')) as Q by exact (eq_trans (eq_sym B) E'); discriminate Q.
Qed.

(** ** Sorted definitions *)

Lemma moved_refl names : forall n a, (n <= length names)%nat -> below n a -> moved names names a a.
Proof.
  intros n a L. revert a. apply (below_mind n (fun a _ => moved names names a a) (fun l _ => moveds names names l l)); intros; try (constructor; auto; fail).
  destruct (nth_error names j) as [nm|] eqn:E; [econstructor; eauto|]. apply nth_error_None in E. lia.
Qed.
Lemma sorted_names_only {A} (name : A -> option str) (R : A -> A -> Prop) l m : (forall x y, R x y -> name y = name x) -> Forall2 R l m ->
  Sorted.StronglySorted (fun x y => str_le (opt_text (name x)) (opt_text (name y))) l -> Sorted.StronglySorted (fun x y => str_le (opt_text (name x)) (opt_text (name y))) m.
Proof.
  intros H F. induction F as [|x y l m X F IH]; intros S; [constructor|]. apply Sorted.StronglySorted_inv in S as [S1 S2]. constructor; [auto|].
  clear IH S1. rewrite (H _ _ X). induction F as [|x' y' l m X' F IH]; [constructor|]. pose proof (Forall_inv S2) as Y. apply Forall_inv_tail in S2. constructor; [rewrite (H _ _ X'); exact Y|auto].
Qed.
Lemma stably_self {A} (name : A -> option str) l : Sorted.StronglySorted (fun x y => str_le (opt_text (name x)) (opt_text (name y))) l -> stably_sorted name l l.
Proof. intros S. split; [apply Permutation.Permutation_refl|]. split; [exact S|reflexivity]. Qed.
Lemma Forall2_self {A} (R : A -> A -> Prop) l : (forall x, In x l -> R x x) -> Forall2 R l l.
Proof. induction l as [|x l IH]; intros H; constructor; [apply H; left; reflexivity|]. apply IH. intros y Y. apply H. right. exact Y. Qed.
Lemma sorted_again sort D D' : sorted_def sort D D' -> linked D' -> sorted_def sort D' D'.
Proof.
  intros [S1 (ts & T1 & T2) (ps & P1 & P2) (rs & R1 & R2)] L'. constructor; [reflexivity| | |].
  - exists (df_types D'). split.
    + apply stably_self. eapply sorted_names_only; [|exact T2|apply T1]. intros x y (N & _). exact N.
    + apply Forall2_self. intros t I. split; [reflexivity|]. split; [reflexivity|]. apply In_nth_error in I as (i & I).
      eapply moved_refl; [|exact (ln_below _ L' _ _ I)]. unfold type_names. rewrite map_length. assert (i < length (df_types D'))%nat by (apply nth_error_Some; congruence). lia.
  - exists (df_provide D'). split.
    + destruct sort; [|reflexivity]. apply stably_self. eapply sorted_names_only; [|exact P2|apply P1]. intros x y (N & _). exact N.
    + apply Forall2_self. intros p I. split; [reflexivity|]. split; [reflexivity|]. split; [|reflexivity]. intros IR. assert (In p (df_provide D' ++ df_require D')) as J by (apply in_or_app; auto).
      destruct (ln_ports _ L' p J) as (A & _). destruct (A IR) as [B _]. eapply moved_refl; [|exact B]. unfold type_names. rewrite map_length. lia.
  - exists (df_require D'). split.
    + destruct sort; [|reflexivity]. apply stably_self. eapply sorted_names_only; [|exact R2|apply R1]. intros x y (N & _). exact N.
    + apply Forall2_self. intros p I. split; [reflexivity|]. split; [reflexivity|]. split; [|reflexivity]. intros IR. assert (In p (df_provide D' ++ df_require D')) as J by (apply in_or_app; auto).
      destruct (ln_ports _ L' p J) as (A & _). destruct (A IR) as [B _]. eapply moved_refl; [|exact B]. unfold type_names. rewrite map_length. lia.
Qed.

Lemma moved_words names names' : forall a b, moved names names' a b -> elem_words b = elem_words a.
Proof.
  apply (moved_mind names names' (fun a b _ => elem_words b = elem_words a) (fun l m _ => members_words m = members_words l)); try reflexivity.
  - intros n l l' M IH. rewrite !elem_words_rec. exact IH.
  - intros a a' l l' M IH Ms IHs. cbn [members_words]. rewrite (moved_name _ _ _ _ M), IH, IHs. reflexivity.
Qed.
Lemma port_words_moved D D' p p' : moved_port D D' p p' -> port_words p' = port_words p.
Proof.
  intros (N & A & M1 & M2). unfold port_words. rewrite N, A. do 2 f_equal. destruct (is_reference (pd_elem p)) eqn:IR.
  - apply is_ref_bool in IR. exact (moved_words _ _ _ _ (M1 IR)).
  - rewrite M2; [reflexivity|]. intros X. apply is_ref_bool in X. congruence.
Qed.
Lemma crless_sorted sort D D' : sorted_def sort D D' -> crless D -> crless D'.
Proof.
  intros S C. apply crless_parts in C as (C1 & C2 & C3). apply crless_parts. split; [rewrite (sd_name _ _ _ S); exact C1|]. split.
  - intros t' I. destruct (sorted_type _ _ _ S t' I) as (t & T & N & A & M). specialize (C2 t T). unfold crless_type, type_words in *. rewrite N, A, (moved_words _ _ _ _ M). exact C2.
  - intros p' I. destruct (sorted_port _ _ _ S p' I) as (p & P & M). unfold crless_port. rewrite (port_words_moved _ _ _ _ M). exact (C3 p P).
Qed.
Lemma crless_mirrored name D : crless D -> nocr (opt_text name) -> crless (mirrored name D).
Proof.
  intros C N. apply crless_parts in C as (C1 & C2 & C3). apply crless_parts. cbn [mirrored df_name df_types df_provide df_require]. split; [destruct name; assumption|]. split; [exact C2|].
  intros p I. apply C3. apply in_app_or in I. apply in_or_app. tauto.
Qed.
