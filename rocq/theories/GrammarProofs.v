(** The parser of signatures accepts the grammar and nothing else. *)
From Coq Require Import ZifyBool ZifyNat Lia.
From Verif Require Import Py PyLemmas TypesModel TextModel SigModel SigSpec TextProofs SigProofs GrammarSpec.
Ltac Zify.zify_post_hook ::= Z.div_mod_to_equations.

(** ** Numbers *)

Lemma spaces_all s : spaces s <-> all int_space s.
Proof.
  unfold spaces, all. split; intros F; (eapply Forall_impl; [|exact F]); intros c; cbn beta; unfold int_space; lia.
Qed.
Lemma whites_all s : whites s <-> all is_space s.
Proof.
  unfold whites, all. split; intros F; (eapply Forall_impl; [|exact F]); intros c; cbn beta; unfold is_space; lia.
Qed.
Lemma digits_all s : Forall (fun c => 48 <= c <= 57) s <-> all is_digit s.
Proof.
  unfold all. split; intros F; (eapply Forall_impl; [|exact F]); intros c; cbn beta; unfold is_digit; lia.
Qed.

Lemma decimal_val s : decimal s = digits_val 0 s.
Proof.
  induction s as [|c s IH]; [reflexivity|]. cbn [decimal]. rewrite IH.
  change (digits_val 0 (c :: s)) with (digits_val (10 * 0 + (c - 48)) s). rewrite (digits_val_acc s (10 * 0 + (c - 48))). lia.
Qed.

Lemma int_digits_app : forall d acc b r, all is_digit d -> d <> [] \/ b = true ->
  int_digits acc b (d ++ r) = int_digits (digits_val acc d) true r.
Proof.
  induction d as [|c d IH]; intros acc b r A B.
  - destruct B as [B| ->]; [congruence|reflexivity].
  - inversion A as [|? ? Hc A']; subst. cbn [app int_digits]. rewrite Hc, IH by auto. reflexivity.
Qed.

(** After a digit: more digits, perhaps an underscore and another group. *)
Definition cont (s ds : str) : Prop :=
  (all is_digit s /\ ds = s) \/
  exists d s' ds', all is_digit d /\ grouped s' ds' /\ s = d ++ 95 :: s' /\ ds = d ++ ds'.

Lemma cont_digit c r ds : is_digit c = true -> cont r ds -> cont (c :: r) (c :: ds) /\ grouped (c :: r) (c :: ds).
Proof.
  intros C [[A ->]|(d & s' & ds' & A & G & -> & ->)].
  - split; [left; split; [constructor; auto|reflexivity]|]. apply gr_last. split; [discriminate|]. apply digits_all. constructor; auto.
  - split; [right; exists (c :: d), s', ds'; repeat split; auto; constructor; auto|].
    apply (gr_more (c :: d) s' ds'); [|exact G]. split; [discriminate|]. apply digits_all. constructor; auto.
Qed.

Lemma int_digits_inv : forall s acc b z, int_digits acc b s = Ok z ->
  exists ds, (if b then cont s ds else grouped s ds) /\ z = digits_val acc ds.
Proof.
  induction s as [|c s IH]; intros acc b z E; cbn [int_digits] in E.
  - destruct b; [|discriminate]. injection E as <-. exists []. split; [left; split; [constructor|reflexivity]|reflexivity].
  - destruct (is_digit c) eqn:C.
    + apply IH in E as (ds & H & ->). destruct (cont_digit c s ds C H) as [H1 H2].
      exists (c :: ds). split; [destruct b; assumption|reflexivity].
    + destruct (c =? 95) eqn:U; cbn [andb] in E; [|discriminate]. destruct b; [|discriminate].
      apply IH in E as (ds & H & ->). apply Z.eqb_eq in U. subst c. exists ds. split; [|reflexivity].
      right. exists [], s, ds. repeat split; auto. constructor.
Qed.

Lemma int_digits_grouped s ds : grouped s ds -> forall acc, int_digits acc false s = Ok (digits_val acc ds).
Proof.
  induction 1 as [d [N D]|d s ds [N D] G IH]; intros acc; apply digits_all in D.
  - rewrite <- (app_nil_r d) at 1. rewrite int_digits_app by auto. reflexivity.
  - rewrite int_digits_app by auto. change (lit "_" ++ s) with (95 :: s). cbn [int_digits].
    change (is_digit 95) with false. change (95 =? 95) with true. cbn [andb]. rewrite IH, digits_val_app. reflexivity.
Qed.

Lemma grouped_ends s ds : grouped s ds -> (exists c r, s = c :: r /\ is_digit c = true) /\ (exists p c, s = p ++ [c] /\ is_digit c = true).
Proof.
  assert (D : forall d, digits d -> (exists c r, d = c :: r /\ is_digit c = true) /\ (exists p c, d = p ++ [c] /\ is_digit c = true)).
  { intros d [N A]. apply digits_all in A. split.
    - destruct d as [|c r]; [congruence|]. inversion A; subst. eauto.
    - destruct (exists_last N) as (p & c & ->). exists p, c. split; [reflexivity|]. apply all_app in A as [_ A]. inversion A; auto. }
  induction 1 as [d Hd|d s ds Hd G IH]; [auto|]. destruct (D d Hd) as [(c & r & -> & C) _]. destruct IH as [_ (p & c' & -> & C')].
  split; [exists c; eexists; split; [reflexivity|exact C]|]. exists ((c :: r) ++ lit "_" ++ p), c'. rewrite <- !app_assoc. auto.
Qed.

Definition signed (t : str) : res Z :=
  match t with
  | [] => int_digits 0 false []
  | c :: r => if c =? 45 then do v <- int_digits 0 false r; Ok (- v) else if c =? 43 then int_digits 0 false r else int_digits 0 false t
  end.
Lemma py_int_signed s : py_int s = signed (rstrip int_space (drop_while int_space s)).
Proof.
  unfold py_int. generalize (rstrip int_space (drop_while int_space s)). intros t.
  destruct t as [|[|p|p] r]; try reflexivity. do 6 (destruct p as [p|p|]; try reflexivity).
Qed.

Lemma digit_not_space c : is_digit c = true -> int_space c = false /\ is_space c = false /\ c <> 45 /\ c <> 43.
Proof. unfold is_digit, int_space, is_space. lia. Qed.

(** The part of a number without blanks. *)
Definition core (x : str) (z : Z) : Prop := exists sg body ds, x = sg ++ body /\ grouped body ds /\
  ((sg = [45] /\ z = - decimal ds) \/ ((sg = [] \/ sg = [43]) /\ z = decimal ds)).

Lemma numeral_core s z : numeral s z <-> exists w1 x w2, s = w1 ++ x ++ w2 /\ spaces w1 /\ spaces w2 /\ core x z.
Proof.
  split.
  - intros (w1 & sg & body & w2 & ds & -> & S1 & S2 & G & C). exists w1, (sg ++ body), w2. rewrite <- app_assoc.
    split; [reflexivity|]. split; [exact S1|]. split; [exact S2|]. exists sg, body, ds. auto.
  - intros (w1 & x & w2 & -> & S1 & S2 & sg & body & ds & -> & G & C). exists w1, sg, body, w2, ds. rewrite <- app_assoc. auto 6.
Qed.

Lemma core_ends x z : core x z -> (forall p, (forall c, is_digit c = true -> p c = false) -> p 45 = false -> p 43 = false ->
  forall r, stops p (x ++ r)) /\ (forall p, (forall c, is_digit c = true -> p c = false) -> stops p (rev x)) /\ x <> [].
Proof.
  intros (sg & body & ds & -> & G & C). destruct (grouped_ends _ _ G) as [(c & r0 & E & Dc) (p0 & c' & E' & Dc')].
  split; [|split].
  - intros p H1 H2 H3 r. destruct C as [[-> _]|[[-> | ->] _]]; [exact H2| |exact H3]. rewrite E. exact (H1 c Dc).
  - intros p H1. rewrite E', app_assoc, rev_unit. exact (H1 c' Dc').
  - rewrite E'. intros X. apply (f_equal (@length Z)) in X. rewrite !app_length in X. cbn in X. lia.
Qed.

Lemma py_int_core x z : core x z -> signed x = Ok z.
Proof.
  intros (sg & body & ds & -> & G & C). unfold signed.
  destruct (grouped_ends _ _ G) as [(c & r0 & E & Dc) _]. apply digit_not_space in Dc as (_ & _ & N1 & N2).
  destruct C as [[-> ->]|[[-> | ->] ->]]; cbn [app].
  - change (45 =? 45) with true. cbn iota. rewrite (int_digits_grouped _ _ G), decimal_val. reflexivity.
  - pose proof (int_digits_grouped _ _ G 0) as X. rewrite E in *. rewrite (proj2 (Z.eqb_neq c 45)), (proj2 (Z.eqb_neq c 43)) by assumption.
    rewrite decimal_val. exact X.
  - change (43 =? 45) with false. change (43 =? 43) with true. cbn iota. rewrite (int_digits_grouped _ _ G), decimal_val. reflexivity.
Qed.

Lemma py_int_numeral s z : py_int s = Ok z <-> numeral s z.
Proof.
  rewrite numeral_core. split.
  - intros E. rewrite py_int_signed in E. set (t := rstrip int_space (drop_while int_space s)) in *.
    destruct (rstrip_split int_space (drop_while int_space s)) as (w2 & E2 & A2). fold t in E2.
    exists (take_while int_space s), t, w2. rewrite <- E2, take_drop. split; [reflexivity|].
    split; [apply spaces_all, take_while_is|]. split; [apply spaces_all; exact A2|].
    clearbody t. clear E2 A2 w2.
    unfold signed in E.
    assert (P : forall sg r v, int_digits 0 false r = Ok v -> exists ds, grouped r ds /\ v = decimal ds /\ sg ++ r = sg ++ r).
    { intros sg r v X. apply int_digits_inv in X as (ds & G & ->). exists ds. rewrite decimal_val. auto. }
    destruct t as [|c r]; [discriminate|]. destruct (c =? 45) eqn:C1.
    + apply Z.eqb_eq in C1. subst c. apply bind_ok in E as (v & E & X). injection X as <-.
      apply (P [45]) in E as (ds & G & -> & _). exists [45], r, ds. auto 6.
    + destruct (c =? 43) eqn:C2.
      * apply Z.eqb_eq in C2. subst c. apply (P [43]) in E as (ds & G & -> & _). exists [43], r, ds. auto 7.
      * apply (P []) in E as (ds & G & -> & _). exists [], (c :: r), ds. auto 7.
  - intros (w1 & x & w2 & -> & S1 & S2 & C). rewrite py_int_signed.
    apply spaces_all in S1, S2. destruct (core_ends _ _ C) as (H1 & H2 & _).
    rewrite drop_while_app; [|exact S1|apply H1; [intros c D; apply digit_not_space in D; tauto|reflexivity|reflexivity]].
    rewrite rstrip_app; [|exact S2|apply H2; intros c D; apply digit_not_space in D; tauto].
    exact (py_int_core _ _ C).
Qed.

(** What occurs in numbers. *)
Definition num_char (c : Z) : bool := is_digit c || int_space c || (c =? 95) || (c =? 45) || (c =? 43).
Lemma grouped_chars s ds : grouped s ds -> all num_char s.
Proof.
  assert (D : forall d, digits d -> all num_char d).
  { intros d [_ A]. apply digits_all in A. eapply all_impl; [|exact A]. intros c H. unfold num_char. rewrite H. reflexivity. }
  induction 1 as [d Hd|d s ds Hd G IH]; [auto|]. apply all_app. split; [auto|]. apply all_app. split; [repeat constructor|exact IH].
Qed.
Lemma numeral_chars s z : numeral s z -> all num_char s.
Proof.
  intros (w1 & sg & body & w2 & ds & -> & S1 & S2 & G & C). apply spaces_all in S1, S2.
  assert (Sp : forall w, all int_space w -> all num_char w).
  { intros w A. eapply all_impl; [|exact A]. intros c H. unfold num_char. rewrite H, orb_true_r. reflexivity. }
  repeat (apply all_app; split); auto; [|eapply grouped_chars; exact G].
  destruct C as [[-> _]|[[-> | ->] _]]; repeat constructor.
Qed.
Lemma numeral_none s z p : numeral s z -> (forall c, num_char c = true -> p c = false) -> none p s.
Proof. intros N H. apply numeral_chars in N. eapply all_none; eauto. Qed.
Lemma numeral_nonempty s z : numeral s z -> s <> [].
Proof.
  intros (w1 & x & w2 & -> & _ & _ & C)%numeral_core E. destruct (core_ends _ _ C) as (_ & _ & N).
  apply app_eq_nil in E as [_ E]. apply app_eq_nil in E as [E _]. congruence.
Qed.

Lemma space_white c : int_space c = true -> is_space c = true.
Proof. unfold int_space, is_space. lia. Qed.

Lemma numeral_rstrip s z : numeral s z -> numeral (rstrip is_space s) z.
Proof.
  intros (w1 & x & w2 & -> & S1 & S2 & C)%numeral_core. destruct (core_ends _ _ C) as (_ & H2 & N).
  apply spaces_all in S2. rewrite app_assoc, rstrip_app.
  - apply numeral_core. exists w1, x, []. rewrite app_nil_r. split; [reflexivity|]. split; [exact S1|]. split; [constructor|exact C].
  - eapply all_impl; [|exact S2]. exact space_white.
  - rewrite rev_app_distr. pose proof (H2 is_space (fun c D => proj1 (proj2 (digit_not_space c D)))) as X.
    destruct (rev x) as [|c r] eqn:R; [|exact X]. apply (f_equal (@rev Z)) in R. rewrite rev_involutive in R. cbn in R. congruence.
Qed.
Lemma numeral_lstrip s z : numeral s z -> numeral (lstrip s) z.
Proof.
  intros (w1 & x & w2 & -> & S1 & S2 & C)%numeral_core. destruct (core_ends _ _ C) as (H1 & _ & N).
  apply spaces_all in S1. unfold lstrip. rewrite drop_while_app.
  - apply numeral_core. exists [], x, w2. split; [reflexivity|]. split; [constructor|]. split; [exact S2|exact C].
  - eapply all_impl; [|exact S1]. exact space_white.
  - apply H1; [intros c D; apply digit_not_space in D; tauto|reflexivity|reflexivity].
Qed.

(** ** Limits *)

Definition not_comma (s : str) : Prop := none (fun c => c =? COMMA) s.

Lemma split_comma_inv s a b l : re_split_comma s = a :: b :: l ->
  exists x y tail, s = x ++ COMMA :: y ++ tail /\ a = rstrip is_space x /\
    ((tail = [] /\ b = lstrip y) \/ exists t, tail = COMMA :: t /\ b = rstrip is_space (lstrip y)).
Proof.
  unfold re_split_comma. pose proof (join_split COMMA s) as J.
  destruct (split_on COMMA s) as [|x [|y [|u r]]]; try discriminate; intros E.
  - injection E as <- <- <-. exists x, y, []. rewrite <- J. cbn [join app]. rewrite app_nil_r. split; [reflexivity|]. split; [reflexivity|]. left. auto.
  - injection E as <- <- _. exists x, y, (COMMA :: join [COMMA] (u :: r)). rewrite <- J. split; [reflexivity|]. split; [reflexivity|]. right. eauto.
Qed.

Lemma split_comma_two x y tail : not_comma x -> not_comma y -> tail = [] \/ (exists t, tail = COMMA :: t) ->
  exists l, re_split_comma (x ++ COMMA :: y ++ tail) =
    rstrip is_space x :: (match tail with [] => lstrip y | _ => rstrip is_space (lstrip y) end) :: l.
Proof.
  intros X Y T. unfold re_split_comma. rewrite split_on_app by exact X. destruct T as [-> |[t ->]].
  - rewrite app_nil_r, split_on_none by exact Y. eexists. reflexivity.
  - rewrite split_on_app by exact Y. pose proof (split_on_ne COMMA t) as N. destruct (split_on COMMA t) as [|f r]; [congruence|].
    eexists. reflexivity.
Qed.

Lemma numeral_no_comma s z : numeral s z -> not_comma s.
Proof. intros N. eapply numeral_none; [exact N|]. intros c. unfold num_char, is_digit, int_space, COMMA. lia. Qed.
Lemma whites_no_comma s : whites s -> not_comma s.
Proof. intros W. apply whites_all in W. eapply all_none; [|exact W]. intros c. unfold is_space, COMMA. lia. Qed.

Lemma extended_limits s lo hi : parseExtendedTypeCode s = Ok (lo, hi) <-> limits s lo hi.
Proof.
  split.
  - unfold parseExtendedTypeCode. destruct (re_split_comma s) as [|a [|b l]] eqn:R; try discriminate.
    intros E. apply bind_ok in E as (v & E1 & E). apply bind_ok in E as (w & E2 & E). injection E as -> ->.
    apply py_int_numeral in E1, E2. apply split_comma_inv in R as (x & y & tail & -> & -> & Tl).
    destruct (rstrip_split is_space x) as (s1 & X & A1).
    pose proof (take_drop is_space y) as Y. pose proof (take_while_is is_space y) as A2. change (drop_while is_space y) with (lstrip y) in Y.
    destruct Tl as [[-> ->]|(t & -> & ->)].
    + exists (rstrip is_space x), s1, (take_while is_space y), (lstrip y), [], []. rewrite X at 1. rewrite app_nil_r.
      change (lit ",") with [COMMA]. rewrite <- !app_assoc. rewrite <- Y at 1.
      cbn [app]. rewrite app_nil_r. split; [reflexivity|]. rewrite !whites_all. repeat split; auto; try constructor.
    + destruct (rstrip_split is_space (lstrip y)) as (s3 & Y' & A3).
      exists (rstrip is_space x), s1, (take_while is_space y), (rstrip is_space (lstrip y)), s3, (COMMA :: t). rewrite X at 1.
      change (lit ",") with [COMMA]. rewrite <- !app_assoc. rewrite <- Y at 1. rewrite Y' at 1. rewrite <- !app_assoc.
      split; [reflexivity|]. rewrite !whites_all. repeat split; auto. right. exists t. reflexivity.
  - intros (x & s1 & s2 & y & s3 & tail & -> & W1 & W2 & W3 & Nx & Ny & Tl).
    change (lit ",") with [COMMA] in *. pose proof (fun a b w => proj2 (none_app (fun c => c =? COMMA) a b) w) as NA.
    destruct (split_comma_two (x ++ s1) (s2 ++ y ++ s3) tail) as (l & R).
    + apply NA. split; [eapply numeral_no_comma; exact Nx|apply whites_no_comma; exact W1].
    + apply NA. split; [apply whites_no_comma; exact W2|]. apply NA. split; [eapply numeral_no_comma; exact Ny|apply whites_no_comma; exact W3].
    + destruct Tl as [[-> _]|[t ->]]; [left; reflexivity|right; eexists; reflexivity].
    + unfold parseExtendedTypeCode.
      replace (x ++ s1 ++ [COMMA] ++ s2 ++ y ++ s3 ++ tail) with ((x ++ s1) ++ COMMA :: (s2 ++ y ++ s3) ++ tail)
        by (rewrite <- !app_assoc; reflexivity).
      rewrite R. apply whites_all in W1, W2, W3. rewrite (rstrip_more is_space x s1 W1).
      rewrite (proj2 (py_int_numeral _ _) (numeral_rstrip _ _ Nx)). cbn [bind].
      assert (Ls : lstrip (s2 ++ y ++ s3) = lstrip (y ++ s3)).
      { unfold lstrip. clear - W2. induction W2 as [|c s2 C W IH]; [reflexivity|]. cbn [app drop_while]. rewrite C. exact IH. }
      assert (Ly : lstrip (y ++ s3) = lstrip y ++ s3).
      { pose proof (numeral_nonempty _ _ (numeral_lstrip _ _ Ny)) as N. unfold lstrip in *. clear - N.
        induction y as [|c y IH]; [cbn in N; congruence|]. cbn [app drop_while] in *. destruct (is_space c); [apply IH; exact N|reflexivity]. }
      rewrite Ls, Ly.
      assert (P : forall u, numeral u hi -> (do hi0 <- py_int u; Ok (lo, hi0)) = Ok (lo, hi)).
      { intros u Nu. rewrite (proj2 (py_int_numeral _ _) Nu). reflexivity. }
      destruct Tl as [[-> ->]|[t ->]].
      * apply P. rewrite app_nil_r. apply numeral_lstrip. exact Ny.
      * cbn [app]. apply P. rewrite rstrip_more by exact W3. apply numeral_rstrip, numeral_lstrip. exact Ny.
Qed.

(** ** Elements *)

Lemma balanced_paired l r s : balanced l r s <-> paired l r s.
Proof. split; (induction 1; [constructor|constructor; auto|first [apply pd_pair|apply bl_pair]; auto]). Qed.

Lemma numeral_paired s z l r : numeral s z -> num_char l = false -> num_char r = false -> paired l r s.
Proof.
  intros N L R. apply paired_none. eapply numeral_none; [exact N|]. intros c C.
  destruct (c =? l) eqn:X; [apply Z.eqb_eq in X; congruence|]. destruct (c =? r) eqn:Y; [apply Z.eqb_eq in Y; congruence|]. reflexivity.
Qed.

Lemma prim_sound c s e rest : parse_prim c s = Ok (e, rest) ->
  exists l a lo hi n, s = l ++ a ++ rest /\ limits_part l lo hi /\ length_part a n /\ e = DPrim None c lo hi n.
Proof.
  unfold parse_prim. intros E. apply bind_ok in E as ([[lo hi] s1] & E1 & E). apply bind_ok in E as ([al s2] & E2 & E).
  apply bind_ok in E as (al' & E3 & E). injection E as <- <-.
  assert (exists l, s = l ++ s1 /\ limits_part l lo hi) as (l & -> & L).
  { rewrite (head40 _ (fun _ => match match_pair s 40 41 with
      | (None, _) => Err ParseError
      | (Some data, rest) => do '(lo, hi) <- parseExtendedTypeCode data; Ok (Some lo, Some hi, rest)
      end)) in E1.
    assert (D : Ok (None, None, s) = Ok (lo, hi, s1) -> exists l, s = l ++ s1 /\ limits_part l lo hi).
    { intros X. injection X as <- <- <-. exists []. split; [reflexivity|left; auto]. }
    destruct s as [|x s0]; [auto|]. destruct (x =? 40); [|auto]. clear D.
    destruct (match_pair (x :: s0) 40 41) as [[data|] r] eqn:M; [|discriminate].
    apply match_pair_inv in M as [M P]; [|discriminate]. apply bind_ok in E1 as ([l h] & X & E). injection E as <- <- <-.
    rewrite M. exists (40 :: data ++ [41]). split; [cbn [app]; rewrite <- app_assoc; reflexivity|]. right. exists data, l, h.
    split; [reflexivity|]. split; [apply balanced_paired; exact P|]. split; [apply extended_limits; exact X|auto]. }
  assert (exists a, s1 = a ++ s2 /\ length_part a al') as (a & -> & A).
  { rewrite (head91 _ (fun _ => match match_pair s1 91 93 with
      | (None, _) => Err ParseError
      | (Some value, rest) => do n <- py_int value; Ok (Some n, rest)
      end)) in E2.
    assert (D : Ok (None, s1) = Ok (al, s2) -> exists a, s1 = a ++ s2 /\ length_part a al').
    { intros X. injection X as <- <-. cbn in E3. injection E3 as <-. exists []. split; [reflexivity|left; auto]. }
    destruct s1 as [|x s0]; [auto|]. destruct (x =? 91); [|auto]. clear D.
    destruct (match_pair (x :: s0) 91 93) as [[data|] r] eqn:M; [|discriminate].
    apply match_pair_inv in M as [M _]; [|discriminate]. apply bind_ok in E2 as (n & X & E). injection E as <- <-.
    cbn [check_arrayLen] in E3. destruct (n <? 0) eqn:N; [discriminate|]. injection E3 as <-.
    rewrite M. exists (91 :: data ++ [93]). split; [cbn [app]; rewrite <- app_assoc; reflexivity|]. right. exists data, n.
    split; [reflexivity|]. split; [apply py_int_numeral; exact X|]. split; [lia|reflexivity]. }
  exists l, a, lo, hi, al'. split; [reflexivity|]. auto.
Qed.

Lemma prim_complete c l a lo hi n rest : limits_part l lo hi -> length_part a n -> stops brk rest ->
  parse_prim c (l ++ a ++ rest) = Ok (DPrim None c lo hi n, rest).
Proof.
  intros L A St. unfold parse_prim.
  assert (Sa : match a ++ rest with 40 :: _ => False | _ => True end).
  { destruct A as [[-> _]|(data & k & -> & _)]; [|exact I]. destruct rest as [|x r]; [exact I|]. cbn in St. unfold brk in St.
    cbn [app]. destruct (Z.eqb_spec x 40) as [-> |N]; [discriminate|]. destruct x as [|p|p]; try exact I. do 6 (destruct p as [p|p|]; try exact I). congruence. }
  match goal with |- bind ?m _ = _ => assert (m = Ok (lo, hi, a ++ rest)) as -> end.
  { destruct L as [(-> & -> & ->)|(data & x & y & -> & B & Lm & -> & ->)].
    - cbn [app]. destruct (a ++ rest) as [|[|p|p] r]; try reflexivity. do 6 (destruct p as [p|p|]; try reflexivity). contradiction.
    - change (lit "(") with [40]. change (lit ")") with [41]. rewrite <- !app_assoc. cbn [app].
      rewrite match_pair_paired by (try discriminate; apply balanced_paired; exact B).
      rewrite (proj2 (extended_limits _ _ _) Lm). reflexivity. }
  cbn [bind].
  match goal with |- bind ?m _ = _ => assert (m = Ok (n, rest)) as -> end.
  { destruct A as [(-> & ->)|(data & k & -> & N & K & ->)].
    - cbn [app]. destruct rest as [|x r]; [reflexivity|]. cbn in St. unfold brk in St.
      destruct (Z.eqb_spec x 91) as [-> |Nx]; [discriminate|]. destruct x as [|p|p]; try reflexivity. do 7 (destruct p as [p|p|]; try reflexivity). congruence.
    - change (lit "[") with [91]. change (lit "]") with [93]. rewrite <- !app_assoc. cbn [app].
      rewrite match_pair_paired; [|eapply numeral_paired; [exact N|reflexivity|reflexivity]|discriminate].
      rewrite (proj2 (py_int_numeral _ _) N). reflexivity. }
  cbn [bind]. destruct A as [(-> & ->)|(data & k & -> & N & K & ->)]; cbn [check_arrayLen]; [reflexivity|].
  destruct (k <? 0) eqn:X; [lia|]. reflexivity.
Qed.

Lemma ref_sound s e rest : parse_ref s = Ok (e, rest) ->
  exists p, s = p ++ rest /\ signature (84 :: p) e.
Proof.
  unfold parse_ref. destruct (match_pair s 91 93) as [[data|] r] eqn:M; [|discriminate].
  apply match_pair_inv in M as [-> P]; [|discriminate].
  assert (Num : forall i, py_int data = Ok i -> exists p, 91 :: data ++ 93 :: r = p ++ r /\ signature (84 :: p) (DRef None (RInt i))).
  { intros i N. apply py_int_numeral in N. exists (91 :: data ++ [93]). split; [cbn [app]; rewrite <- app_assoc; reflexivity|].
    exact (sg_index data i N). }
  destruct (parse_str data) as [[name|] [|c t]] eqn:Q; intros E; try discriminate.
  - injection E as <- <-. apply parse_str_inv in Q as [-> N]. rewrite app_nil_r in *.
    exists (91 :: ([QUOTE] ++ name ++ [QUOTE]) ++ [93]). split; [cbn [app]; rewrite <- !app_assoc; reflexivity|].
    replace (84 :: 91 :: ([QUOTE] ++ name ++ [QUOTE]) ++ [93]) with (lit "T[""" ++ name ++ lit """]")
      by (cbn [app]; rewrite <- app_assoc; reflexivity).
    apply sg_name; [apply none_quoteless; exact N|]. apply balanced_paired. apply (paired_sub _ _ [QUOTE] name [QUOTE]); [exact P| |]; repeat constructor.
  - apply bind_ok in E as (i & N & X). injection X as <- <-. exact (Num i N).
  - apply bind_ok in E as (i & N & X). injection X as <- <-. exact (Num i N).
Qed.

Lemma ref_complete_index x i rest : numeral x i -> parse_ref (91 :: x ++ 93 :: rest) = Ok (DRef None (RInt i), rest).
Proof.
  intros N. unfold parse_ref. rewrite match_pair_paired; [|eapply numeral_paired; [exact N|reflexivity|reflexivity]|discriminate].
  rewrite parse_str_plain; [|apply none_stops; eapply numeral_none; [exact N|intros c; unfold num_char, is_digit, int_space, QUOTE; lia]|exact (numeral_nonempty _ _ N)].
  rewrite (proj2 (py_int_numeral _ _) N). reflexivity.
Qed.

Lemma letters_code code c : In (code, c) letters <-> char_code c = Some code.
Proof.
  split.
  - cbn. intros H. repeat (destruct H as [H|H]; [injection H as <- <-; reflexivity|]). contradiction.
  - unfold char_code. intros H.
    assert (K : forall (b : bool) x n (r : option tcode), (c =? n) = b -> (if c =? n then Some x else r) = Some code ->
      (c = n /\ code = x) \/ r = Some code).
    { intros b x n r _ E. destruct (Z.eqb_spec c n); [left; split; congruence|right; exact E]. }
    do 9 (apply (K _ _ _ _ eq_refl) in H; destruct H as [[-> ->]|H]; [cbn; tauto|]). discriminate.
Qed.

Lemma renamed_set n e : renamed n e = set_name n e.
Proof. destruct e; reflexivity. Qed.

Lemma name_part_read q n s : name_part q n -> s <> [] -> stops (fun c => c =? QUOTE) s -> parse_str (q ++ s) = (n, s).
Proof.
  intros [[-> ->]|(x & -> & Q & ->)] N St.
  - apply parse_str_plain; assumption.
  - change (lit """") with [QUOTE]. rewrite <- !app_assoc. apply parse_str_quoted. apply quoteless_none. exact Q.
Qed.

Lemma name_part_of s n r : parse_str s = (n, r) -> r <> [] -> exists q, s = q ++ r /\ name_part q n.
Proof.
  destruct n as [x|]; intros E N.
  - apply parse_str_inv in E as [-> Q]. exists ([QUOTE] ++ x ++ [QUOTE]). rewrite <- !app_assoc. split; [reflexivity|].
    right. exists x. split; [reflexivity|]. split; [apply none_quoteless; exact Q|reflexivity].
  - unfold parse_str, match_pair in E. destruct s as [|c s]; [injection E as <-; congruence|]. destruct (c =? QUOTE).
    + destruct (pair_loop QUOTE QUOTE 1 [] s) as [[? ?]|]; [discriminate|]. injection E as <-. congruence.
    + injection E as <-. exists []. split; [reflexivity|left; auto].
Qed.

(** ** Soundness *)

Lemma sig_sound : forall fuel,
  (forall s o rest, parse_sig fuel s = Ok (o, rest) ->
    match o with Some e => exists p, s = p ++ rest /\ signature p e | None => rest = s end) /\
  (forall s es rest, parse_members fuel s = Ok (es, rest) -> exists p, s = p ++ rest /\ members p es).
Proof.
  induction fuel as [|k [IH1 IH2]]; [split; intros; discriminate|]. split.
  - intros s o rest E. cbn [parse_sig] in E. destruct s as [|c s]; [discriminate|].
    destruct (c =? 123) eqn:C1; [|destruct (c =? 84) eqn:C2; [|destruct (char_code c) as [code|] eqn:C3]].
    + apply bind_ok in E as ([es r] & E1 & E). injection E as <- <-. apply Z.eqb_eq in C1. subst c.
      apply IH2 in E1 as (p & -> & M). exists (123 :: p). split; [reflexivity|]. exact (sg_record p es M).
    + apply bind_ok in E as ([e r] & E1 & E). injection E as <- <-. apply Z.eqb_eq in C2. subst c.
      apply ref_sound in E1 as (p & -> & S). exists (84 :: p). split; [reflexivity|exact S].
    + apply bind_ok in E as ([e r] & E1 & E). injection E as <- <-.
      apply prim_sound in E1 as (l & a & lo & hi & n & -> & L & A & ->). exists ([c] ++ l ++ a).
      split; [cbn [app]; rewrite <- app_assoc; reflexivity|]. apply sg_prim; auto. apply letters_code. exact C3.
    + injection E as <- <-. reflexivity.
  - intros s es rest E. cbn [parse_members] in E. destruct s as [|c s]; [discriminate|].
    destruct (parse_str (c :: s)) as [name [|d r]] eqn:Q; [discriminate|].
    apply name_part_of in Q as (q & -> & Np); [|discriminate].
    apply bind_ok in E as ([o r2] & E1 & E). apply IH1 in E1. destruct o as [e|].
    + destruct E1 as (p & -> & S). apply bind_ok in E as ([es' r3] & E2 & E). injection E as <- <-.
      apply IH2 in E2 as (p2 & -> & M). exists (q ++ p ++ p2). split; [rewrite <- !app_assoc; reflexivity|].
      rewrite <- renamed_set. apply mb_cons; assumption.
    + subst r2. rewrite is125 in E. destruct (d =? 125) eqn:D; [|discriminate]. injection E as <- <-. apply Z.eqb_eq in D. subst d.
      exists (q ++ [125]). split; [rewrite <- app_assoc; reflexivity|]. exact (mb_end q name Np).
Qed.

(** ** Completeness *)

Scheme signature_ind2 := Induction for signature Sort Prop with members_ind2 := Induction for members Sort Prop.
Combined Scheme grammar_ind from signature_ind2, members_ind2.

(** How signatures start. *)
Definition starts (c : Z) : Prop := c <> QUOTE /\ c <> 40 /\ c <> 91.
Lemma signature_start s e : signature s e -> exists c r, s = c :: r /\ starts c.
Proof.
  destruct 1 as [code c l a lo hi n L _ _|x _ _|x i _|ms es _].
  - exists c, (l ++ a). split; [reflexivity|]. cbn in L. unfold starts, QUOTE.
    repeat (destruct L as [L|L]; [injection L as _ <-; repeat split; discriminate|]). contradiction.
  - do 2 eexists. split; [reflexivity|]. repeat split; discriminate.
  - do 2 eexists. split; [reflexivity|]. repeat split; discriminate.
  - do 2 eexists. split; [reflexivity|]. repeat split; discriminate.
Qed.
Lemma members_start ms es rest : members ms es -> stops brk (ms ++ rest) /\ ms <> [].
Proof.
  assert (P : forall q n t, name_part q n -> (exists c r, t = c :: r /\ starts c) -> stops brk ((q ++ t) ++ rest) /\ q ++ t <> []).
  { intros q n t [[-> _]|(x & -> & _ & _)] (c & r & -> & C1 & C2 & C3).
    - split; [|discriminate]. cbn. unfold brk. lia.
    - split; [reflexivity|]. discriminate. }
  destruct 1 as [q n Np|q n s e ms es Np S M].
  - eapply P; [exact Np|]. exists 125, []. split; [reflexivity|]. repeat split; discriminate.
  - eapply P; [exact Np|]. destruct (signature_start _ _ S) as (c & r & -> & St). exists c, (r ++ ms). auto.
Qed.

Lemma stops_quote t : (exists c r, t = c :: r /\ starts c) -> t <> [] /\ stops (fun c => c =? QUOTE) t.
Proof. intros (c & r & -> & C & _). split; [discriminate|]. cbn. apply Z.eqb_neq. exact C. Qed.

Lemma grammar_complete :
  (forall s e, signature s e -> forall rest fuel, stops brk rest -> (2 * length (s ++ rest) < fuel)%nat ->
     parse_sig fuel (s ++ rest) = Ok (Some e, rest)) /\
  (forall ms es, members ms es -> forall rest fuel, (2 * length (ms ++ rest) + 1 < fuel)%nat ->
     parse_members fuel (ms ++ rest) = Ok (es, rest)).
Proof.
  apply grammar_ind.
  - intros code c l a lo hi n L Lm A rest [|fuel] St F; [lia|]. apply letters_code in L. cbn [app parse_sig].
    destruct (Z.eqb_spec c 123) as [-> |]; [discriminate|]. destruct (Z.eqb_spec c 84) as [-> |]; [discriminate|].
    rewrite L, <- app_assoc, (prim_complete _ _ _ _ _ _ _ Lm A St). reflexivity.
  - intros x Q B rest [|fuel] St F; [lia|].
    replace ((lit "T[""" ++ x ++ lit """]") ++ rest) with (84 :: (lit "[""" ++ x ++ lit """]" ++ rest))
      by (change (lit "T[""") with (84 :: lit "["""); cbn [app]; rewrite <- !app_assoc; reflexivity).
    rewrite parse_sig_ref, ref_name_read; [reflexivity|exact Q|]. apply paired_bracketed, balanced_paired. exact B.
  - intros x i N rest [|fuel] St F; [lia|].
    replace ((lit "T[" ++ x ++ lit "]") ++ rest) with (84 :: 91 :: x ++ 93 :: rest)
      by (change (lit "T[") with [84; 91]; change (lit "]") with [93]; cbn [app]; rewrite <- !app_assoc; reflexivity).
    rewrite parse_sig_ref, (ref_complete_index x i rest N). reflexivity.
  - intros ms es M IH rest [|fuel] St F; [lia|]. change ((lit "{" ++ ms) ++ rest) with (123 :: ms ++ rest) in *.
    rewrite parse_sig_rec, IH; [reflexivity|]. cbn [length] in F. lia.
  - intros q n Np rest [|fuel] F; [lia|]. change (lit "}") with [125] in *. cbn [parse_members].
    rewrite <- app_assoc in *. change ([125] ++ rest) with (125 :: rest) in *.
    assert (NE : q ++ 125 :: rest <> []) by (destruct q; discriminate).
    destruct (q ++ 125 :: rest) as [|c s] eqn:E; [congruence|]. rewrite <- E in *.
    rewrite (name_part_read q n (125 :: rest) Np) by (try discriminate; reflexivity).
    destruct fuel as [|fuel]; [rewrite E in F; cbn in F; lia|]. reflexivity.
  - intros q n s e ms es Np S IHs M IHm rest [|fuel] F; [lia|]. cbn [parse_members].
    destruct (stops_quote ((s ++ ms) ++ rest)) as [NE SQ].
    { destruct (signature_start _ _ S) as (c & r & -> & St). exists c. eexists. split; [reflexivity|exact St]. }
    destruct (members_start _ _ rest M) as [Sm Nm].
    replace ((q ++ s ++ ms) ++ rest) with (q ++ (s ++ ms) ++ rest) in * by (rewrite <- !app_assoc; reflexivity).
    assert (NE2 : q ++ (s ++ ms) ++ rest <> []) by (destruct q; [exact NE|discriminate]).
    destruct (q ++ (s ++ ms) ++ rest) as [|c0 s0] eqn:E; [congruence|]. rewrite <- E in *.
    rewrite (name_part_read q n _ Np NE SQ).
    assert (Ls : (0 < length s)%nat) by (destruct (signature_start _ _ S) as (c & r & -> & _); cbn; lia).
    rewrite !app_length in F. rewrite <- app_assoc in *. destruct (s ++ ms ++ rest) as [|c1 s1] eqn:E1; [congruence|]. rewrite <- E1 in *.
    rewrite IHs; [|exact Sm|rewrite !app_length; lia]. cbn [bind].
    rewrite IHm by (rewrite !app_length; lia). cbn [bind]. rewrite <- renamed_set. reflexivity.
Qed.

Lemma signature_parses s e : parse_signature s = Ok e <-> signature s e.
Proof.
  unfold parse_signature. split.
  - intros E. apply bind_ok in E as ([o r] & E1 & E). destruct (sig_sound (2 * length s + 2)) as [So _]. apply So in E1.
    destruct r; [|discriminate]. destruct o as [e'|]; [|discriminate]. injection E as <-. destruct E1 as (p & -> & S).
    rewrite app_nil_r. exact S.
  - intros S. destruct grammar_complete as [Co _]. specialize (Co s e S [] (2 * length s + 2)%nat). rewrite app_nil_r in Co.
    rewrite Co by (try exact I; lia). reflexivity.
Qed.
