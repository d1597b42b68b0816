(** Reading init values and port attributes. *)
From Coq Require Import ZifyBool ZifyNat Lia.
From Verif Require Import Py PyLemmas TextModel AttrModel TextProofs SigProofs AttrSpec.
Ltac Zify.zify_post_hook ::= Z.div_mod_to_equations.

(** ** Literals *)

Lemma numeral_inv (digit : Z -> Z -> Prop) base val : (forall c d, digit c d -> val c = d) -> forall s v, numeral digit base s v ->
  num_of base val s = v.
Proof.
  intros D. induction 1 as [c d C|s v c d N IH C]; unfold num_of in *.
  - cbn. rewrite (D c d C). lia.
  - rewrite fold_left_app, IH. cbn. rewrite (D c d C). reflexivity.
Qed.
Lemma numeral_all (digit : Z -> Z -> Prop) base p : (forall c d, digit c d -> p c = true) -> forall s v, numeral digit base s v ->
  all p s /\ s <> [].
Proof.
  intros D. induction 1 as [c d C|s v c d N IH C].
  - split; [repeat constructor; eauto|discriminate].
  - destruct IH as [A NE]. split; [apply all_app; split; [exact A|repeat constructor; eauto]|destruct s; discriminate].
Qed.
Lemma dec_is c d : dec_digit c d -> is_digit c = true.
Proof. intros X. inversion X; subst. unfold is_digit. lia. Qed.
Lemma hex_is c d : hex_digit c d -> is_hex c = true.
Proof. intros X. inversion X; subst; unfold is_hex, is_digit; lia. Qed.
Lemma dec_val c d : dec_digit c d -> c - 48 = d.
Proof. intros X. inversion X; subst. reflexivity. Qed.
Lemma hex_val_ok c d : hex_digit c d -> hex_val c = d.
Proof. intros X. inversion X; subst; unfold hex_val, is_digit; destruct (_ && _) eqn:E; try lia; destruct (c <=? 70) eqn:F; lia. Qed.

(** What must not follow a number. *)
Definition numish (c : Z) : bool := is_hex c || (c =? 120).
Lemma stops_digit s : stops numish s -> stops is_digit s.
Proof. destruct s as [|c s]; cbn; [auto|]. unfold numish, is_hex. intros X. destruct (is_digit c); [discriminate|reflexivity]. Qed.
Lemma stops_hex s : stops numish s -> stops is_hex s.
Proof. destruct s as [|c s]; cbn; [auto|]. unfold numish. intros X. destruct (is_hex c); [discriminate|reflexivity]. Qed.

Definition dec_part (s : str) : option (ivalue * str) :=
  let '(neg, r) := match s with 45 :: r => (true, r) | _ => (false, s) end in
  match take_while is_digit r with
  | [] => None
  | ds => let v := num_of 10 (fun c => c - 48) ds in
          Some (IVInt (if neg then - v else v), drop_while is_digit r)
  end.

Lemma dec_part_digits ds rest : all is_digit ds -> ds <> [] -> stops is_digit rest ->
  dec_part (ds ++ rest) = Some (IVInt (num_of 10 (fun c => c - 48) ds), rest).
Proof.
  intros A NE St. unfold dec_part.
  match goal with |- (match ?m with (_, _) => _ end) = _ => assert (m = (false, ds ++ rest)) as -> end.
  { destruct (digits_first ds A NE) as (c & r & E & C & _). rewrite E. cbn [app].
    destruct c as [|p|p]; try reflexivity. do 6 (destruct p as [p|p|]; try reflexivity). congruence. }
  rewrite take_while_app, drop_while_app by auto. destruct ds as [|c ds]; [congruence|]. reflexivity.
Qed.
Lemma dec_part_neg ds rest : all is_digit ds -> ds <> [] -> stops is_digit rest ->
  dec_part (45 :: ds ++ rest) = Some (IVInt (- num_of 10 (fun c => c - 48) ds), rest).
Proof.
  intros A NE St. unfold dec_part. cbn iota beta. rewrite take_while_app, drop_while_app by auto.
  destruct ds as [|c ds]; [congruence|]. reflexivity.
Qed.

Lemma literal_digits ds rest : all is_digit ds -> ds <> [] -> stops numish rest ->
  match_literal (ds ++ rest) = Some (IVInt (num_of 10 (fun c => c - 48) ds), rest).
Proof.
  intros A NE St. pose proof (dec_part_digits ds rest A NE (stops_digit _ St)) as D.
  assert (match_literal (ds ++ rest) = dec_part (ds ++ rest)) as ->; [|exact D].
  destruct A as [|c ds C A]; [congruence|]. unfold is_digit in C. cbn [app]. unfold match_literal. fold (dec_part (c :: ds ++ rest)).
  assert (c = 48 \/ c <> 48) as [-> |N] by lia.
  - cbn iota. destruct (ds ++ rest) as [|x r] eqn:E; [reflexivity|].
    assert (x <> 120) as X.
    { destruct ds as [|y ds]; cbn [app] in E.
      - rewrite E in St. cbn in St. unfold numish in St. lia.
      - invc E. inversion A; subst. unfold is_digit in *. lia. }
    destruct x as [|p|p]; try reflexivity. do 7 (destruct p as [p|p|]; try reflexivity). congruence.
  - assert (c <> 34) as Q by lia. destruct c as [|p|p]; try reflexivity.
    do 6 (destruct p as [p|p|]; try reflexivity); congruence.
Qed.

Lemma literal_neg ds rest : all is_digit ds -> ds <> [] -> stops numish rest ->
  match_literal (45 :: ds ++ rest) = Some (IVInt (- num_of 10 (fun c => c - 48) ds), rest).
Proof. intros A NE St. exact (dec_part_neg ds rest A NE (stops_digit _ St)). Qed.
Lemma literal_hex ds rest : all is_hex ds -> ds <> [] -> stops numish rest ->
  match_literal (48 :: 120 :: ds ++ rest) = Some (IVInt (num_of 16 hex_val ds), rest).
Proof.
  intros A NE St. unfold match_literal. rewrite take_while_app, drop_while_app by (auto using stops_hex).
  destruct ds; [congruence|]. reflexivity.
Qed.
Lemma literal_str s rest : none (fun c => c =? QUOTE) s ->
  match_literal (QUOTE :: s ++ QUOTE :: rest) = Some (IVStr s, rest).
Proof.
  intros N. change QUOTE with 34. unfold match_literal.
  rewrite take_while_app, drop_while_app; try reflexivity; eapply Forall_impl; try exact N; cbn; intros c ->; reflexivity.
Qed.

(** ** Values *)

Lemma braced_paired s : braced s -> paired 123 125 s.
Proof. induction 1; [constructor|constructor; auto|apply pd_pair; auto]. Qed.
Lemma paired_braced s : paired 123 125 s -> braced s.
Proof. induction 1; [constructor|constructor; auto|apply br_pair; auto]. Qed.

Lemma white_space w : white w -> all is_space w.
Proof. apply Forall_impl. intros c. cbn [In]. intros H. repeat (destruct H as [<-|H]; [reflexivity|]). destruct H. Qed.
Lemma white_stops w s : white w -> stops numish s -> stops numish (w ++ s).
Proof.
  intros W St. destruct W as [|x w H]; [exact St|]. cbn [app]. cbn [In] in H.
  repeat (destruct H as [<-|H]; [reflexivity|]). destruct H.
Qed.
Lemma lstrip_white w s : white w -> stops is_space s -> lstrip (w ++ s) = s.
Proof. intros W St. apply drop_while_app; [apply white_space, W|exact St]. Qed.

(** The first character of a notation. *)
Definition starter (c : Z) : Prop := is_digit c = true \/ c = 45 \/ c = 34 \/ c = 123.
Lemma spells_first v t : spells v t -> exists c r, t = c :: r /\ starter c.
Proof.
  intros S. inversion S; subst; try (eexists _, _; split; [reflexivity|unfold starter, QUOTE; auto]).
  destruct (numeral_all _ _ is_digit dec_is _ _ H) as [A NE]. destruct A as [|c s C]; [congruence|].
  eexists _, _; split; [reflexivity|left; exact C].
Qed.
Lemma starter_space c : starter c -> is_space c = false.
Proof. unfold starter, is_digit, is_space. intros [X|[-> |[-> | ->]]]; try reflexivity. lia. Qed.
Lemma items_first l t : items l t -> exists w c r, t = w ++ c :: r /\ white w /\ starter c.
Proof.
  destruct 1 as [v t w1 w2 W1 S W2|v t w1 w2 l u W1 S W2 I]; destruct (spells_first v t S) as (c & r & -> & St);
    exists w1, c; eexists; split; try split; try reflexivity; auto.
Qed.

Lemma open_brace {A} (s : str) (x y : A) :
  match s with 123 :: _ => x | _ => y end = match s with c :: _ => if c =? 123 then x else y | [] => y end.
Proof. destruct s as [|[|p|p] s]; try reflexivity. do 8 (destruct p as [p|p|]; try reflexivity). Qed.
Lemma comma_or {A} (s : str) (f : str -> A) x y :
  match s with 44 :: r => f r | [] => x | _ => y end = match s with c :: r => if c =? 44 then f r else y | [] => x end.
Proof. destruct s as [|[|p|p] s]; try reflexivity. do 7 (destruct p as [p|p|]; try reflexivity). Qed.

Lemma parse_init_S k remain :
  parse_init (S k) remain =
  let remain := lstrip remain in
  match remain with
  | c :: _ =>
    if c =? 123 then
      match match_pair remain 123 125 with
      | (None, _) => Err TypeError
      | (Some inner, remain2) =>
        do r <- parse_init_list k inner;
        match r with Some l => Ok (IVList l, remain2) | None => Ok (IVNone, remain) end
      end
    else match match_literal remain with Some (v, rest) => Ok (v, rest) | None => Ok (IVNone, remain) end
  | [] => match match_literal remain with Some (v, rest) => Ok (v, rest) | None => Ok (IVNone, remain) end
  end.
Proof. cbn [parse_init]. cbv zeta. apply open_brace. Qed.
Lemma parse_init_list_S k m :
  parse_init_list (S k) m =
  match m with
  | [] => Ok None
  | _ :: _ =>
    do '(elem, m) <- parse_init k (lstrip m);
    match lstrip m with
    | c :: m' =>
      if c =? 44 then
        do r <- parse_init_list k (lstrip m');
        Ok (match r with Some l => Some (elem :: l) | None => None end)
      else Err ParseError
    | [] => Ok (Some [elem])
    end
  end.
Proof.
  cbn [parse_init_list]. destruct m as [|c m]; [reflexivity|].
  destruct (parse_init k (lstrip (c :: m))) as [[e r]|]; [|reflexivity]. cbn [bind]. apply comma_or.
Qed.

Definition reads_init (v : ivalue) (t : str) : Prop :=
  forall w rest fuel, white w -> stops numish rest -> (2 * length t <= S fuel)%nat ->
  parse_init fuel (w ++ t ++ rest) = Ok (v, rest).
Definition reads_items (l : list ivalue) (u : str) : Prop :=
  forall fuel, (2 * length u <= fuel)%nat -> parse_init_list fuel (lstrip u) = Ok (Some l) /\ parse_init_list fuel u = Ok (Some l).

Lemma read_literal v t : (forall rest, stops numish rest -> match_literal (t ++ rest) = Some (v, rest)) ->
  (exists c r, t = c :: r /\ starter c /\ c <> 123) -> reads_init v t.
Proof.
  intros L (c & r & E & St & NB) w rest fuel W S F. destruct fuel as [|k]; [subst t; cbn in F; lia|].
  assert (lstrip (w ++ t ++ rest) = t ++ rest) as LS.
  { apply lstrip_white; [exact W|]. subst t. apply starter_space, St. }
  rewrite parse_init_S. cbv zeta. rewrite LS. rewrite (L rest S). subst t. cbn [app].
  rewrite (proj2 (Z.eqb_neq c 123) NB). reflexivity.
Qed.

Lemma items_nonempty l u : items l u -> u <> [].
Proof. intros I. destruct (items_first l u I) as (w & c & r & -> & _). destruct w; discriminate. Qed.
Lemma spells_len v t : spells v t -> (1 <= length t)%nat.
Proof. intros S. destruct (spells_first v t S) as (c & r & -> & _). cbn; lia. Qed.

Lemma read_values :
  (forall v t, spells v t -> reads_init v t) /\
  (forall l u, items l u -> reads_items l u).
Proof.
  apply spells_items_ind.
  - intros s v N. destruct (numeral_all _ _ is_digit dec_is _ _ N) as [A NE].
    rewrite <- (numeral_inv _ _ (fun c => c - 48) dec_val _ _ N). apply read_literal.
    + intros rest St. apply literal_digits; auto.
    + destruct A as [|c r C]; [congruence|]. exists c, r. split; [reflexivity|]. split; [left; exact C|]. unfold is_digit in C. lia.
  - intros s v N. destruct (numeral_all _ _ is_digit dec_is _ _ N) as [A NE].
    rewrite <- (numeral_inv _ _ (fun c => c - 48) dec_val _ _ N). apply read_literal.
    + intros rest St. apply (literal_neg s rest); auto.
    + exists 45, s. split; [reflexivity|]. split; [unfold starter; auto|discriminate].
  - intros s v N. destruct (numeral_all _ _ is_hex hex_is _ _ N) as [A NE].
    rewrite <- (numeral_inv _ _ hex_val hex_val_ok _ _ N). apply read_literal.
    + intros rest St. apply (literal_hex s rest); auto.
    + eexists 48, _. split; [reflexivity|]. split; [left; reflexivity|discriminate].
  - intros s Q. apply read_literal.
    + intros rest _. cbn [app]. rewrite <- app_assoc. apply (literal_str s rest).
      apply Forall_forall. intros c I. destruct (c =? QUOTE) eqn:E; [apply Z.eqb_eq in E; subst; contradiction|reflexivity].
    + eexists 34, _. split; [reflexivity|]. split; [unfold starter; auto|discriminate].
  - intros l t I IH B w rest fuel W St F. cbn [length] in F. rewrite app_length in F. cbn [length] in F.
    destruct fuel as [|k]; [lia|].
    assert (lstrip (w ++ (123 :: t ++ [125]) ++ rest) = 123 :: t ++ 125 :: rest) as LS.
    { cbn [app]. rewrite <- app_assoc. apply lstrip_white; [exact W|reflexivity]. }
    rewrite parse_init_S. cbv zeta. rewrite LS. change (123 =? 123) with true. cbn iota.
    rewrite match_pair_paired; [|apply braced_paired, B|discriminate].
    destruct (IH k) as [_ IH2]; [lia|]. rewrite IH2. reflexivity.
  - intros v t w1 w2 W1 S IH W2 fuel F. pose proof (spells_len v t S) as L1.
    rewrite !app_length in F. destruct fuel as [|k]; [lia|].
    destruct (spells_first v t S) as (c & r & E & St).
    assert (lstrip (w1 ++ t ++ w2) = t ++ w2) as LS.
    { apply lstrip_white; [exact W1|]. subst t. apply starter_space, St. }
    assert (lstrip (t ++ w2) = t ++ w2) as LT.
    { apply drop_while_stops. subst t. apply starter_space, St. }
    assert (parse_init k (t ++ w2) = Ok (v, w2)) as P.
    { apply (IH []); [constructor| |lia]. rewrite <- (app_nil_r w2). apply white_stops; [exact W2|exact I]. }
    assert (lstrip w2 = []) as L2.
    { rewrite <- (app_nil_r w2). apply lstrip_white; [exact W2|exact I]. }
    rewrite LS, !parse_init_list_S, LT, P. cbn [bind]. rewrite L2.
    assert (exists x y, t ++ w2 = x :: y) as (x & y & XY) by (subst t; cbn; eauto).
    rewrite XY. split; [reflexivity|].
    rewrite <- XY. rewrite LS. rewrite P. cbn [bind]. rewrite L2.
    destruct (w1 ++ t ++ w2) eqn:Z0; [|reflexivity]. apply app_eq_nil in Z0 as [_ Z0]. congruence.
  - intros v t w1 w2 l u W1 S IH W2 I IHu fuel F. pose proof (spells_len v t S) as L1.
    rewrite !app_length in F. cbn [length] in F. destruct fuel as [|k]; [lia|].
    destruct (spells_first v t S) as (c & r & E & St). set (z := w2 ++ COMMA :: u) in *.
    assert (lstrip (w1 ++ t ++ z) = t ++ z) as LS.
    { apply lstrip_white; [exact W1|]. subst t. apply starter_space, St. }
    assert (lstrip (t ++ z) = t ++ z) as LT.
    { apply drop_while_stops. subst t. apply starter_space, St. }
    assert (parse_init k (t ++ z) = Ok (v, z)) as P.
    { apply (IH []); [constructor| |lia]. unfold z. apply white_stops; [exact W2|reflexivity]. }
    assert (lstrip z = COMMA :: u) as L2 by (apply lstrip_white; [exact W2|reflexivity]).
    destruct (IHu k) as [IH1 _]; [lia|].
    rewrite LS, !parse_init_list_S, LT, P. cbn [bind]. rewrite L2. change (COMMA =? 44) with true. cbn iota. rewrite IH1. cbn [bind].
    assert (exists x y, t ++ z = x :: y) as (x & y & XY) by (subst t; cbn; eauto).
    rewrite XY. split; [reflexivity|].
    rewrite <- XY. rewrite LS. rewrite P. cbn [bind]. rewrite L2. change (COMMA =? 44) with true. cbn iota. rewrite IH1.
    destruct (w1 ++ t ++ z) eqn:Z0; [|reflexivity]. apply app_eq_nil in Z0 as [_ Z0]. congruence.
Qed.

(** ** Attributes *)

Lemma marks_head i p m i' p' q b ql : marks i p m i' p' -> queue q b ql -> stops numish (m ++ q).
Proof.
  assert (forall w s, white w -> stops numish s -> stops numish (w ++ s)) as WS.
  { exact white_stops. }
  intros M Q. destruct M as [i p|w1 w2 v t rest i p i' p' W1 W2 S M|w rest i p i' p' W M].
  - cbn [app]. destruct Q as [|w W|w ds v W N]; [exact I|apply WS; [exact W|reflexivity]|apply WS; [exact W|reflexivity]].
  - rewrite <- app_assoc. apply WS; [exact W1|reflexivity].
  - rewrite <- app_assoc. apply WS; [exact W|reflexivity].
Qed.

Lemma attr_loop_read i p m i' p' q b ql : marks i p m i' p' -> queue q b ql -> forall fuel s,
  (length (m ++ q) < fuel)%nat ->
  attr_loop fuel (m ++ q) (mk_pattr false p None i s) = Ok (mk_pattr b p' ql i' s).
Proof.
  intros M Q. induction M as [i p|w1 w2 v t rest i p i' p' W1 W2 S M IH|w rest i p i' p' W M IH]; intros fuel s L;
    destruct fuel as [|k]; try lia.
  - cbn [app]. destruct Q as [|w W|w ds v W N].
    + reflexivity.
    + cbn [attr_loop]. rewrite (lstrip_white w [81] W) by reflexivity.
      destruct (w ++ [81]) eqn:E; [destruct w; discriminate|]. reflexivity.
    + cbn [attr_loop]. rewrite (lstrip_white w (81 :: 91 :: ds ++ [93]) W) by reflexivity.
      destruct (w ++ 81 :: 91 :: ds ++ [93]) eqn:E; [destruct w; discriminate|]. cbn [match_qlen].
      destruct (numeral_all _ _ is_digit dec_is _ _ N) as [A NE].
      rewrite take_while_app, drop_while_app by (exact A || reflexivity).
      destruct ds; [congruence|]. reflexivity.
  - rewrite <- app_assoc in *. cbn [app] in *. rewrite <- !app_assoc in *.
    set (tail := w2 ++ t ++ rest ++ q) in *. cbn [attr_loop]. rewrite (lstrip_white w1 (61 :: tail) W1) by reflexivity.
    destruct (w1 ++ 61 :: tail) eqn:E; [destruct w1; discriminate|].
    unfold tail at 2. rewrite (proj1 read_values v t S w2 (rest ++ q)); [|exact W2|eapply marks_head; eauto|].
    + cbn [bind]. cbn [pa_queued pa_param pa_qlen pa_str]. apply IH.
      assert (length (w1 ++ 61 :: tail) = length (z :: l)) as E2 by (rewrite E; reflexivity).
      rewrite app_length in E2. cbn [length] in *. unfold tail in E2. rewrite !app_length in E2. rewrite app_length. lia.
    + unfold tail. rewrite !app_length. lia.
  - rewrite <- app_assoc in *. cbn [app] in *. cbn [attr_loop].
    rewrite (lstrip_white w (80 :: rest ++ q) W) by reflexivity.
    destruct (w ++ 80 :: rest ++ q) eqn:E; [destruct w; discriminate|].
    cbn [pa_queued pa_qlen pa_init pa_str]. apply IH.
    assert (length (w ++ 80 :: rest ++ q) = length (z :: l)) as E2 by (rewrite E; reflexivity).
    rewrite app_length in E2. cbn [length] in *. lia.
Qed.

(** ** Termination *)

Lemma lstrip_len s : (length (lstrip s) <= length s)%nat.
Proof. apply drop_while_len. Qed.

Lemma match_literal_len s v rest : match_literal s = Some (v, rest) -> (length rest <= length s)%nat.
Proof.
  assert (forall s v rest, dec_part s = Some (v, rest) -> (length rest <= length s)%nat) as D.
  { clear. intros s v rest. unfold dec_part.
    assert (forall b r, (length r <= length s)%nat ->
      match take_while is_digit r with
      | [] => None
      | ds => let v := num_of 10 (fun c => c - 48) ds in Some (IVInt (if (b : bool) then - v else v), drop_while is_digit r)
      end = Some (v, rest) -> (length rest <= length s)%nat) as G.
    { intros b r L E. destruct (take_while is_digit r); [discriminate|]. invc E. pose proof (drop_while_len is_digit r). lia. }
    destruct s as [|c s]; [apply (G false []); cbn; lia|]. destruct c as [|q|q]; try (apply (G false); cbn; lia).
    do 6 (destruct q as [q|q|]; try (apply (G false); cbn; lia)). apply (G true); cbn; lia. }
  specialize (D s v rest). unfold match_literal. intros E.
  assert (forall r, (length r <= length s)%nat -> take_while is_hex r <> [] ->
     Some (IVInt (num_of 16 hex_val (take_while is_hex r)), drop_while is_hex r) = Some (v, rest) -> (length rest <= length s)%nat) as Hx.
  { intros r L _ X. invc X. pose proof (drop_while_len is_hex r). lia. }
  destruct s as [|c s]; [exact (D E)|]. destruct c as [|p|p]; try exact (D E).
  do 6 (destruct p as [p|p|]; try exact (D E)).
  - (* quote *)
    match type of E with match ?x with _ => _ end = _ => destruct x as [|y r] eqn:X end; [discriminate|].
    destruct y as [|p|p]; try discriminate. do 6 (destruct p as [p|p|]; try discriminate). invc E.
    pose proof (drop_while_len (fun c => negb (c =? QUOTE)) s) as L. rewrite X in L. cbn [length] in *. lia.
  - destruct s as [|c s]; [exact (D E)|]. destruct c as [|p|p]; try exact (D E).
    do 7 (destruct p as [p|p|]; try exact (D E)).
    destruct (take_while is_hex s) eqn:T; [exact (D E)|].
    apply (Hx s); [cbn; lia|rewrite T; discriminate|rewrite T; exact E].
Qed.

Lemma parse_init_len : forall fuel s v rest, parse_init fuel s = Ok (v, rest) -> (length rest <= length s)%nat.
Proof.
  intros [|k] s v rest E; [discriminate|]. rewrite parse_init_S in E. cbv zeta in E. pose proof (lstrip_len s) as L.
  destruct (lstrip s) as [|c t] eqn:Ls.
  - cbn in E. invc E. cbn. lia.
  - assert (match match_literal (c :: t) with Some (v, rest) => Ok (v, rest) | None => Ok (IVNone, c :: t) end = Ok (v, rest) ->
      (length rest <= length s)%nat) as M.
    { destruct (match_literal (c :: t)) as [[v' r']|] eqn:M; intros X; invc X; [apply match_literal_len in M; lia|lia]. }
    destruct (c =? 123); [|auto].
    destruct (match_pair (c :: t) 123 125) as [[inner|] r2] eqn:P; [|discriminate]. apply match_pair_len in P.
    apply bind_ok in E as ([l|] & _ & E); invc E; lia.
Qed.

Lemma parse_init_fuel : forall fuel,
  (forall s, (2 * length s < fuel)%nat -> parse_init fuel s <> Err RecursionError) /\
  (forall s, (2 * length s + 1 < fuel)%nat -> parse_init_list fuel s <> Err RecursionError).
Proof.
  induction fuel as [|k [IH1 IH2]]; [split; intros; lia|]. split.
  - intros s L E. rewrite parse_init_S in E. cbv zeta in E. pose proof (lstrip_len s) as L2.
    destruct (lstrip s) as [|c t] eqn:Ls; [discriminate|].
    assert (match match_literal (c :: t) with Some (v, rest) => Ok (v, rest) | None => Ok (IVNone, c :: t) end <> Err RecursionError) as M.
    { destruct (match_literal (c :: t)) as [[v' r']|]; discriminate. }
    destruct (c =? 123); [|auto].
    destruct (match_pair (c :: t) 123 125) as [[inner|] r2] eqn:P; [|discriminate]. apply match_pair_len in P.
    apply bind_err in E as [E|([l|] & _ & E)]; try discriminate. apply (IH2 inner); [lia|exact E].
  - intros s L E. rewrite parse_init_list_S in E. destruct s as [|c s]; [discriminate|]. set (z := c :: s) in *.
    pose proof (lstrip_len z) as L2.
    apply bind_err in E as [E|((v & m) & P & E)]; [apply (IH1 (lstrip z)); [lia|exact E]|].
    apply parse_init_len in P. pose proof (lstrip_len m) as L3.
    destruct (lstrip m) as [|d m'] eqn:Lm; [discriminate|]. destruct (d =? 44); [|discriminate].
    apply bind_err in E as [E|(l & _ & E)]; [|discriminate]. pose proof (lstrip_len m') as L4. cbn [length] in *.
    apply (IH2 (lstrip m')); [lia|exact E].
Qed.

Lemma attr_loop_fuel : forall fuel s a, (length s < fuel)%nat -> attr_loop fuel s a <> Err RecursionError.
Proof.
  induction fuel as [|k IH]; intros s a L E; [lia|]. cbn [attr_loop] in E. destruct s as [|c s]; [discriminate|].
  pose proof (lstrip_len (c :: s)) as L2.
  destruct (lstrip (c :: s)) as [|d t]; [discriminate|].
  assert (forall v rest, parse_init (2 * length t + 2) t = Ok (v, rest) -> forall a, attr_loop k rest a <> Err RecursionError) as P.
  { intros v rest P a'. apply IH. apply parse_init_len in P. cbn [length] in *. lia. }
  assert (forall a, attr_loop k t a <> Err RecursionError) as Q. { intros a'. apply IH. cbn [length] in *. lia. }
  destruct d as [|p|p]; try discriminate.
  do 7 (try (destruct p as [p|p|]; try discriminate)).
  all: try (exact (Q _ E)).
  apply bind_err in E as [E|((v & rest) & P1 & E)]; [|exact (P _ _ P1 _ E)].
  apply parse_init_fuel in E; [exact E|]. lia.
Qed.

(** ** The plain notation *)

Lemma numeral_of (digit : Z -> Z -> Prop) base val p : (forall c, p c = true -> digit c (val c)) ->
  forall s, all p s -> s <> [] -> numeral digit base s (num_of base val s).
Proof.
  intros D s. induction s as [|c s IH] using rev_ind; intros A NE; [congruence|].
  apply all_app in A as [A C]. inversion C; subst. destruct s as [|x s].
  - cbn [app]. unfold num_of. cbn [fold_left]. replace (base * 0 + val c) with (val c) by lia. constructor. auto.
  - unfold num_of in *. rewrite fold_left_app. cbn [fold_left]. constructor; [apply IH; [exact A|discriminate]|auto].
Qed.

Lemma dec_numeral z : 0 <= z -> numeral dec_digit 10 (dec_nat z) z.
Proof.
  intros Z0. destruct (dec_nat_spec z Z0) as (NE & A & V).
  pose proof (numeral_of dec_digit 10 (fun c => c - 48) is_digit) as N. specialize (N ltac:(intros c C; constructor; unfold is_digit in C; lia) _ A NE).
  change (num_of 10 (fun c => c - 48) (dec_nat z)) with (digits_val 0 (dec_nat z)) in N. rewrite V in N. exact N.
Qed.

Lemma dec_spells z : spells (IVInt z) (dec_str z).
Proof.
  unfold dec_str. destruct (z <? 0) eqn:Z0.
  - replace z with (- (- z)) at 1 by lia. apply sp_neg, dec_numeral. lia.
  - apply sp_dec, dec_numeral. lia.
Qed.

Lemma ivalue_ind2 (P : ivalue -> Prop) : P IVNone -> (forall z, P (IVInt z)) -> (forall s, P (IVStr s)) ->
  (forall l, Forall P l -> P (IVList l)) -> forall v, P v.
Proof.
  intros A B C D. fix IH 1. intros [|z|s|l]; [exact A|apply B|apply C|]. apply D.
  induction l as [|x l IHl]; constructor; [apply IH|exact IHl].
Qed.

Lemma braced_app a b : braced a -> braced b -> braced (a ++ b).
Proof. intros A B. apply paired_braced. apply paired_app; apply braced_paired; auto. Qed.

(** A list of notations, with commas between them. *)
Lemma join_items l ts : Forall2 spells l ts -> l <> [] -> items l (join [COMMA] ts).
Proof.
  induction 1 as [|v t l ts S F IH]; intros NE; [congruence|]. destruct F as [|v2 t2 l ts S2 F].
  - cbn [join]. rewrite <- (app_nil_r t). apply (it_one v t [] []); auto; constructor.
  - change (join [COMMA] (t :: t2 :: ts)) with ([] ++ t ++ [] ++ COMMA :: join [COMMA] (t2 :: ts)).
    apply it_more; try constructor; auto. apply IH. discriminate.
Qed.
Lemma join_braced ts : Forall braced ts -> braced (join [COMMA] ts).
Proof.
  induction 1 as [|t ts B F IH]; [constructor|]. destruct F as [|t2 ts B2 F]; [exact B|].
  change (join [COMMA] (t :: t2 :: ts)) with (t ++ [COMMA] ++ join [COMMA] (t2 :: ts)).
  apply braced_app; [exact B|]. constructor; [discriminate|discriminate|exact IH].
Qed.

Lemma init_text_spells : forall v, (writable false v -> spells v (init_text v)) /\
  (writable true v -> spells v (init_text v) /\ braced (init_text v)).
Proof.
  induction v as [|z|s|l IH] using ivalue_ind2.
  - split; contradiction.
  - assert (braced (dec_str z)).
    { apply paired_braced, dec_paired; reflexivity. }
    split; intros _; [apply dec_spells|split; [apply dec_spells|assumption]].
  - split; intros [Q B]; cbn [init_text]; [apply sp_str, Q|]. split; [apply sp_str, Q|].
    apply (br_char QUOTE); try discriminate. apply braced_app; [apply B; reflexivity|].
    apply br_char; try discriminate. constructor.
  - assert (l <> [] -> (fix go l := match l with [] => True | x :: r => writable true x /\ go r end) l ->
      Forall2 spells l (map init_text l) /\ Forall braced (map init_text l)) as G.
    { intros _. induction IH as [|v l [_ V] F IHl]; intros G; [split; constructor|]. destruct G as [G1 G2].
      destruct (V G1) as [S B]. destruct (IHl G2) as [F1 F2]. cbn [map]. split; constructor; auto. }
    assert (writable true (IVList l) -> spells (IVList l) (init_text (IVList l)) /\ braced (init_text (IVList l))) as X.
    { intros [NE W]. destruct (G NE W) as [S B]. cbn [init_text]. pose proof (join_braced _ B) as JB. split.
      - apply sp_list; [apply join_items; auto|exact JB].
      - apply (br_pair _ []); [exact JB|constructor]. }
    split; [intros W; apply X; exact W|exact X].
Qed.
