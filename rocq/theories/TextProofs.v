(** Facts about the text functions. *)
From Coq Require Import ZifyBool ZifyNat Lia.
From Verif Require Import Py PyLemmas TextModel.
Ltac Zify.zify_post_hook ::= Z.div_mod_to_equations.

(** ** take_while and drop_while *)

Lemma take_drop p s : take_while p s ++ drop_while p s = s.
Proof. induction s as [|c s IH]; [reflexivity|]. cbn [take_while drop_while]. destruct (p c); [cbn; f_equal; exact IH|reflexivity]. Qed.

Definition all (p : Z -> bool) (s : str) : Prop := Forall (fun c => p c = true) s.
Definition none (p : Z -> bool) (s : str) : Prop := Forall (fun c => p c = false) s.
(** [s] does not begin with a [p]. *)
Definition stops (p : Z -> bool) (s : str) : Prop := match s with [] => True | c :: _ => p c = false end.

Lemma take_while_app p a b : all p a -> stops p b -> take_while p (a ++ b) = a.
Proof.
  induction 1 as [|c a C A IH]; intros B; cbn [app take_while].
  - destruct b as [|c b]; [reflexivity|]. cbn in B |- *. rewrite B. reflexivity.
  - rewrite C, IH; auto.
Qed.
Lemma drop_while_app p a b : all p a -> stops p b -> drop_while p (a ++ b) = b.
Proof.
  induction 1 as [|c a C A IH]; intros B; cbn [app drop_while].
  - destruct b as [|c b]; [reflexivity|]. cbn in B |- *. rewrite B. reflexivity.
  - rewrite C. auto.
Qed.
Lemma take_while_all p a : all p a -> take_while p a = a.
Proof. intros A. rewrite <- (app_nil_r a) at 1. apply take_while_app; [exact A|exact I]. Qed.
Lemma drop_while_all p a : all p a -> drop_while p a = [].
Proof. intros A. rewrite <- (app_nil_r a) at 1. apply drop_while_app; [exact A|exact I]. Qed.
Lemma drop_while_stops p s : stops p s -> drop_while p s = s.
Proof. apply (drop_while_app p [] s). constructor. Qed.
Lemma take_while_stops p s : stops p s -> take_while p s = [].
Proof. apply (take_while_app p [] s). constructor. Qed.
Lemma take_while_is p s : all p (take_while p s).
Proof. induction s as [|c s IH]; cbn [take_while]; [constructor|]. destruct (p c) eqn:C; [constructor; auto|constructor]. Qed.
Lemma drop_while_is p s : stops p (drop_while p s).
Proof. induction s as [|c s IH]; cbn [drop_while]; [exact I|]. destruct (p c) eqn:C; [auto|exact C]. Qed.
Lemma drop_while_len p s : (length (drop_while p s) <= length s)%nat.
Proof. rewrite <- (take_drop p s) at 2. rewrite app_length. lia. Qed.

Lemma all_app p a b : all p (a ++ b) <-> all p a /\ all p b.
Proof. apply Forall_app. Qed.
Lemma all_impl (p q : Z -> bool) s : (forall c, p c = true -> q c = true) -> all p s -> all q s.
Proof. intros I. apply Forall_impl. exact I. Qed.
Lemma none_app p a b : none p (a ++ b) <-> none p a /\ none p b.
Proof. apply Forall_app. Qed.
Lemma all_none (p q : Z -> bool) s : (forall c, p c = true -> q c = false) -> all p s -> none q s.
Proof. intros I. apply Forall_impl. exact I. Qed.
Lemma none_stops p s : none p s -> stops p s.
Proof. destruct 1; cbn; auto. Qed.
Lemma none_rev p s : none p s -> none p (rev s).
Proof. apply Forall_rev. Qed.
Lemma all_rev p s : all p s -> all p (rev s).
Proof. apply Forall_rev. Qed.

(** ** rstrip *)

Lemma rstrip_app p a b : all p b -> stops p (rev a) -> rstrip p (a ++ b) = a.
Proof.
  intros B A. unfold rstrip. rewrite rev_app_distr, drop_while_app; [apply rev_involutive|apply all_rev, B|exact A].
Qed.
Lemma rstrip_stops p a : stops p (rev a) -> rstrip p a = a.
Proof. intros A. rewrite <- (app_nil_r a) at 1. apply rstrip_app; [constructor|exact A]. Qed.
Lemma rstrip_none p a : none p a -> rstrip p a = a.
Proof. intros A. apply rstrip_stops, none_stops, none_rev, A. Qed.
Lemma rstrip_split p s : exists t, s = rstrip p s ++ t /\ all p t.
Proof.
  exists (rev (take_while p (rev s))). split.
  - rewrite <- (rev_involutive s) at 1. rewrite <- (take_drop p (rev s)) at 1. apply rev_app_distr.
  - apply all_rev, take_while_is.
Qed.
Lemma rstrip_is p s : stops p (rev (rstrip p s)).
Proof. unfold rstrip. rewrite rev_involutive. apply drop_while_is. Qed.
Lemma rstrip_more p s t : all p t -> rstrip p (s ++ t) = rstrip p s.
Proof.
  intros T. destruct (rstrip_split p s) as (u & E & U). rewrite E at 1. rewrite <- app_assoc.
  apply rstrip_app; [apply all_app; auto|apply rstrip_is].
Qed.

(** ** Decimal numbers *)

Definition digits_val (acc : Z) (s : str) : Z := fold_left (fun a c => 10 * a + (c - 48)) s acc.

Lemma digits_val_app acc a b : digits_val acc (a ++ b) = digits_val (digits_val acc a) b.
Proof. apply fold_left_app. Qed.
Lemma digits_val_acc : forall s acc, digits_val acc s = acc * 10 ^ len s + digits_val 0 s.
Proof.
  induction s as [|c s IH]; intros acc.
  - unfold digits_val. cbn. change (@len Z []) with 0. lia.
  - unfold digits_val in *. cbn [fold_left]. rewrite IH, (IH (10 * 0 + (c - 48))), len_cons.
    replace (10 ^ (1 + len s)) with (10 * 10 ^ len s); [nia|].
    rewrite Z.pow_add_r by (pose proof (len_nonneg s); lia). lia.
Qed.

Lemma digits_loop_spec : forall fuel n acc, 0 <= n < 10 ^ Z.of_nat fuel -> (0 < fuel)%nat ->
  exists ds, digits_loop fuel n acc = ds ++ acc /\ ds <> [] /\ all is_digit ds /\ digits_val 0 ds = n.
Proof.
  induction fuel as [|k IH]; intros n acc N F; [lia|]. cbn [digits_loop].
  destruct (n <? 10) eqn:T.
  - exists [48 + n]. split; [reflexivity|]. split; [discriminate|].
    split; [constructor; [unfold is_digit; lia|constructor]|]. unfold digits_val. cbn. lia.
  - assert (10 ^ Z.of_nat (S k) = 10 * 10 ^ Z.of_nat k) as P.
    { rewrite Nat2Z.inj_succ, Z.pow_succ_r by lia. reflexivity. }
    rewrite P in N. destruct k as [|k]; [change (10 ^ Z.of_nat 0) with 1 in N; lia|].
    destruct (IH (n / 10) ((48 + n mod 10) :: acc)) as (ds & E & NE & A & V); [lia|lia|].
    exists (ds ++ [48 + n mod 10]). rewrite E, <- app_assoc. split; [reflexivity|].
    split; [destruct ds; discriminate|]. split.
    + apply all_app. split; [exact A|]. constructor; [unfold is_digit; lia|constructor].
    + rewrite digits_val_app, V. unfold digits_val. cbn. lia.
Qed.

Lemma dec_nat_spec n : 0 <= n -> dec_nat n <> [] /\ all is_digit (dec_nat n) /\ digits_val 0 (dec_nat n) = n.
Proof.
  intros N. unfold dec_nat. destruct (digits_loop_spec (S (Z.to_nat (Z.log2 n))) n []) as (ds & E & R).
  - split; [lia|]. pose proof (Z.log2_nonneg n). rewrite Nat2Z.inj_succ, Z2Nat.id by lia.
    destruct (Z.eq_dec n 0) as [->|]; [reflexivity|]. pose proof (Z.log2_spec n ltac:(lia)) as [_ U].
    eapply Z.lt_le_trans; [exact U|]. apply Z.pow_le_mono_l. lia.
  - lia.
  - rewrite E, app_nil_r. exact R.
Qed.

Lemma int_digits_all : forall s acc b, all is_digit s -> s <> [] \/ b = true ->
  int_digits acc b s = Ok (digits_val acc s).
Proof.
  induction s as [|c s IH]; intros acc b A B; cbn [int_digits].
  - destruct B as [B| ->]; [congruence|reflexivity].
  - invc A. rewrite H1, IH; auto.
Qed.

(** Characters that occur in a printed number. *)
Definition is_numch (c : Z) : bool := is_digit c || (c =? 45).
Lemma dec_str_chars z : all is_numch (dec_str z) /\ dec_str z <> [].
Proof.
  unfold dec_str. destruct (z <? 0) eqn:Z0.
  - destruct (dec_nat_spec (- z)) as (A & B & C); [lia|]. split; [|discriminate].
    constructor; [reflexivity|]. eapply all_impl; [|exact B]. unfold is_numch. intros c E. rewrite E. reflexivity.
  - destruct (dec_nat_spec z) as (A & B & C); [lia|]. split; [|exact A].
    eapply all_impl; [|exact B]. unfold is_numch. intros c E. rewrite E. reflexivity.
Qed.
Lemma dec_str_none p z : (forall c, is_numch c = true -> p c = false) -> none p (dec_str z).
Proof. intros P. eapply all_none; [exact P|apply dec_str_chars]. Qed.

Lemma digits_first s : all is_digit s -> s <> [] -> exists c r, s = c :: r /\ c <> 45 /\ c <> 43.
Proof. destruct 1 as [|c r C]; [congruence|]. intros _. exists c, r. unfold is_digit in C. split; [reflexivity|lia]. Qed.

Lemma py_int_dec z : py_int (dec_str z) = Ok z.
Proof.
  assert (none int_space (dec_str z)) as N.
  { apply dec_str_none. unfold is_numch, is_digit, int_space. intros c. lia. }
  unfold py_int. rewrite (drop_while_stops _ _ (none_stops _ _ N)), (rstrip_none _ _ N).
  unfold dec_str. destruct (z <? 0) eqn:Z0.
  - destruct (dec_nat_spec (- z)) as (A & B & C); [lia|]. rewrite int_digits_all, C by auto. cbn. f_equal. lia.
  - destruct (dec_nat_spec z) as (A & B & C); [lia|].
    destruct (digits_first _ B A) as (c & r & E & C1 & C2).
    assert (int_digits 0 false (dec_nat z) = Ok z) as I by (rewrite int_digits_all, C; auto).
    rewrite E in *. clear - I C1 C2.
    destruct c as [|q|q]; try exact I.
    do 6 (destruct q as [q|q|]; try exact I; try congruence).
Qed.

Lemma dec_str_inj a b : dec_str a = dec_str b -> a = b.
Proof. intros E. pose proof (py_int_dec a) as A. rewrite E, py_int_dec in A. congruence. Qed.

(** ** Brackets *)

(** Texts in which [l] and [r] pair up. *)
Inductive paired (l r : Z) : str -> Prop :=
| pd_nil : paired l r []
| pd_char c s : c <> l -> c <> r -> paired l r s -> paired l r (c :: s)
| pd_pair a b : paired l r a -> paired l r b -> paired l r (l :: a ++ r :: b).

Lemma paired_app l r a b : paired l r a -> paired l r b -> paired l r (a ++ b).
Proof.
  intros A B. induction A; [exact B|constructor; auto|].
  cbn [app]. rewrite <- app_assoc. cbn [app]. apply pd_pair; auto.
Qed.
Lemma paired_none l r s : none (fun c => (c =? l) || (c =? r)) s -> paired l r s.
Proof. induction 1; constructor; auto; lia. Qed.

Lemma pair_loop_paired l r s : paired l r s -> l <> r -> forall count acc rest, 1 <= count ->
  pair_loop l r count acc (s ++ rest) = pair_loop l r count (rev s ++ acc) rest.
Proof.
  intros P NE. induction P as [|c s C1 C2 P IH|a b P1 IH1 P2 IH2]; intros count acc rest N.
  - reflexivity.
  - cbn [app pair_loop rev]. rewrite (proj2 (Z.eqb_neq c r)), (proj2 (Z.eqb_neq c l)) by auto.
    rewrite IH, <- app_assoc by auto. reflexivity.
  - cbn [app pair_loop rev]. rewrite (proj2 (Z.eqb_neq l r)), Z.eqb_refl by auto.
    rewrite <- app_assoc, IH1 by lia. cbn [app pair_loop]. rewrite Z.eqb_refl.
    replace (count + 1 - 1) with count by lia. rewrite (proj2 (Z.eqb_neq count 0)) by lia.
    rewrite IH2 by lia. f_equal. rewrite rev_app_distr. cbn [rev]. rewrite <- !app_assoc. cbn [app]. reflexivity.
Qed.

Lemma match_pair_paired l r s rest : paired l r s -> l <> r ->
  match_pair (l :: s ++ r :: rest) l r = (Some s, rest).
Proof.
  intros P NE. unfold match_pair. rewrite Z.eqb_refl, pair_loop_paired by (auto; lia). cbn [pair_loop].
  rewrite Z.eqb_refl. change (1 - 1 =? 0) with true. cbn. rewrite app_nil_r, rev_involutive. reflexivity.
Qed.

Lemma pair_loop_quote q s : none (fun c => c =? q) s -> forall acc rest,
  pair_loop q q 1 acc (s ++ q :: rest) = Some (rev acc ++ s, rest).
Proof.
  induction 1 as [|c s C N IH]; intros acc rest; cbn [app pair_loop].
  - rewrite Z.eqb_refl. change (1 - 1 =? 0) with true. cbn. rewrite app_nil_r. reflexivity.
  - rewrite C, IH. cbn [rev]. rewrite <- app_assoc. reflexivity.
Qed.
Lemma parse_str_quoted s rest : none (fun c => c =? QUOTE) s ->
  parse_str ([QUOTE] ++ s ++ [QUOTE] ++ rest) = (Some s, rest).
Proof.
  intros N. unfold parse_str, match_pair. cbn [app]. rewrite Z.eqb_refl, pair_loop_quote by exact N. reflexivity.
Qed.
Lemma parse_str_plain s : stops (fun c => c =? QUOTE) s -> s <> [] -> parse_str s = (None, s).
Proof. destruct s as [|c s]; [congruence|]. cbn. intros -> _. reflexivity. Qed.

(** What [pair_loop] finds. *)
Lemma pair_loop_len l r : forall s count acc inner rest, pair_loop l r count acc s = Some (inner, rest) ->
  (length inner + length rest < length acc + length s)%nat.
Proof.
  induction s as [|c s IH]; intros count acc inner rest E; [discriminate|]. cbn [pair_loop] in E. cbn [length].
  destruct (c =? r).
  - destruct (count - 1 =? 0); [invc E; rewrite rev_length; lia|]. apply IH in E. cbn [length] in E. lia.
  - destruct (c =? l); apply IH in E; cbn [length] in E; lia.
Qed.
Lemma match_pair_len s l r inner rest : match_pair s l r = (Some inner, rest) ->
  (length inner + length rest + 2 <= length s)%nat.
Proof.
  unfold match_pair. destruct s as [|c s]; [discriminate|]. destruct (c =? l); [|discriminate].
  destruct (pair_loop l r 1 [] s) as [[i t]|] eqn:E; [|discriminate]. intros X. invc X.
  apply pair_loop_len in E. cbn [length] in *. lia.
Qed.
Lemma match_pair_rest s l r o rest : match_pair s l r = (o, rest) -> (length rest <= length s)%nat.
Proof.
  destruct o as [inner|]; [intros E; apply match_pair_len in E; lia|].
  unfold match_pair. destruct s as [|c s]; [intros X; invc X; lia|]. destruct (c =? l).
  - destruct (pair_loop l r 1 [] s) as [[i t]|]; [discriminate|]. intros X. invc X. cbn; lia.
  - intros X. invc X. lia.
Qed.

(** ** split_on and join *)

Lemma split_on_ne c s : split_on c s <> [].
Proof. destruct s as [|x s]; [discriminate|]. cbn [split_on]. destruct (x =? c); [discriminate|]. destruct (split_on c s); discriminate. Qed.

Lemma split_on_none c s : none (fun x => x =? c) s -> split_on c s = [s].
Proof.
  induction 1 as [|x s X N IH]; [reflexivity|]. cbn [split_on]. rewrite X, IH. reflexivity.
Qed.
Lemma split_on_app c a b : none (fun x => x =? c) a -> split_on c (a ++ c :: b) = a :: split_on c b.
Proof.
  induction 1 as [|x s X N IH]; cbn [app split_on]; [rewrite Z.eqb_refl; reflexivity|].
  rewrite X, IH. reflexivity.
Qed.
Lemma split_join c : forall l, Forall (none (fun x => x =? c)) l -> l <> [] -> split_on c (join [c] l) = l.
Proof.
  induction l as [|a l IH]; intros F NE; [congruence|]. invc F.
  destruct l as [|b l]; [apply split_on_none; auto|].
  change (join [c] (a :: b :: l)) with (a ++ c :: join [c] (b :: l)).
  rewrite split_on_app, IH; auto. discriminate.
Qed.
Lemma split_on_each c s : Forall (none (fun x => x =? c)) (split_on c s).
Proof.
  induction s as [|x s IH]; [repeat constructor|]. cbn [split_on]. destruct (x =? c) eqn:X; [constructor; [constructor|auto]|].
  destruct (split_on c s) as [|f l]; [repeat constructor; auto|]. invc IH. constructor; [constructor; auto|auto].
Qed.
Lemma join_split c s : join [c] (split_on c s) = s.
Proof.
  induction s as [|x s IH]; [reflexivity|]. cbn [split_on]. pose proof (split_on_ne c s) as NE.
  destruct (x =? c) eqn:X.
  - destruct (split_on c s) as [|f l]; [congruence|]. change (c :: join [c] (f :: l) = x :: s). rewrite IH. f_equal. lia.
  - destruct (split_on c s) as [|f l]; [congruence|]. destruct l as [|g l]; cbn in *; rewrite IH; reflexivity.
Qed.

Lemma re_split_two a b : none (fun c => (c =? COMMA) || is_space c) a -> none (fun c => (c =? COMMA) || is_space c) b ->
  re_split_comma (a ++ COMMA :: b) = [a; b].
Proof.
  intros A B. unfold re_split_comma. rewrite split_on_app, split_on_none.
  - rewrite rstrip_none. unfold lstrip. rewrite drop_while_stops. reflexivity.
    + apply none_stops. eapply Forall_impl; [|exact B]. cbn. intros c X. apply orb_false_iff in X; tauto.
    + eapply Forall_impl; [|exact A]. cbn. intros c X. apply orb_false_iff in X; tauto.
  - eapply Forall_impl; [|exact B]. cbn. intros c X. apply orb_false_iff in X; tauto.
  - eapply Forall_impl; [|exact A]. cbn. intros c X. apply orb_false_iff in X; tauto.
Qed.

(** ** What match_pair finds *)

(** [k] closing characters without partner. *)
Inductive closes (l r : Z) : nat -> str -> Prop :=
| cl_0 s : paired l r s -> closes l r 0 s
| cl_S k a b : paired l r a -> closes l r k b -> closes l r (S k) (a ++ r :: b).

Lemma closes_char l r k c s : c <> l -> c <> r -> closes l r k s -> closes l r k (c :: s).
Proof.
  intros L R. destruct 1 as [s P|k a b A B]; [constructor; constructor; auto|].
  apply (cl_S l r k (c :: a) b); [constructor; auto|exact B].
Qed.
Lemma closes_left l r k s : closes l r (S k) s -> closes l r k (l :: s).
Proof.
  intros C. inversion C as [|k' a b A B E1 E2]; subst. destruct B as [b B|k' b1 b2 B1 B2].
  - constructor. apply pd_pair; auto.
  - change (l :: a ++ r :: b1 ++ r :: b2) with ((l :: a) ++ (r :: b1) ++ (r :: b2)). rewrite app_assoc.
    apply cl_S; [|exact B2]. cbn [app]. apply pd_pair; auto.
Qed.
Lemma closes_right l r k s : closes l r k s -> closes l r (S k) (r :: s).
Proof. intros C. apply (cl_S l r k []); [constructor|exact C]. Qed.

Lemma pair_loop_inv l r : l <> r -> forall s count acc inner rest, pair_loop l r count acc s = Some (inner, rest) ->
  1 <= count -> exists mid, inner = rev acc ++ mid /\ s = mid ++ r :: rest /\ closes l r (Z.to_nat (count - 1)) mid.
Proof.
  intros NE. induction s as [|c s IH]; intros count acc inner rest E C; [discriminate|]. cbn [pair_loop] in E.
  destruct (c =? r) eqn:X.
  - apply Z.eqb_eq in X. subst c. destruct (count - 1 =? 0) eqn:Z0.
    + invc E. exists []. rewrite app_nil_r. split; [reflexivity|]. split; [reflexivity|].
      replace (Z.to_nat (count - 1)) with 0%nat by lia. constructor. constructor.
    + apply IH in E as (mid & A & B & D); [|lia]. exists (r :: mid). rewrite A, B. cbn [rev app]. rewrite <- app_assoc.
      split; [reflexivity|]. split; [reflexivity|].
      replace (Z.to_nat (count - 1)) with (S (Z.to_nat (count - 1 - 1))) by lia. apply closes_right, D.
  - destruct (c =? l) eqn:Y.
    + apply Z.eqb_eq in Y. subst c. apply IH in E as (mid & A & B & D); [|lia]. exists (l :: mid). rewrite A, B. cbn [rev app].
      rewrite <- app_assoc. split; [reflexivity|]. split; [reflexivity|]. apply closes_left.
      replace (S (Z.to_nat (count - 1))) with (Z.to_nat (count + 1 - 1)) by lia. exact D.
    + apply IH in E as (mid & A & B & D); [|lia]. exists (c :: mid). rewrite A, B. cbn [rev app].
      rewrite <- app_assoc. split; [reflexivity|]. split; [reflexivity|]. apply closes_char; auto; lia.
Qed.
Lemma match_pair_inv l r s inner rest : l <> r -> match_pair s l r = (Some inner, rest) ->
  s = l :: inner ++ r :: rest /\ paired l r inner.
Proof.
  intros NE. unfold match_pair. destruct s as [|c s]; [discriminate|]. destruct (c =? l) eqn:C; [|discriminate].
  destruct (pair_loop l r 1 [] s) as [[i t]|] eqn:E; [|discriminate]. intros X. invc X.
  apply pair_loop_inv in E as (mid & A & B & D); [|exact NE|lia]. cbn in A. subst mid. rewrite B.
  apply Z.eqb_eq in C. subst c. split; [reflexivity|]. change (Z.to_nat (1 - 1)) with 0%nat in D. inversion D; auto.
Qed.
Lemma pair_loop_quote_inv q : forall s acc inner rest, pair_loop q q 1 acc s = Some (inner, rest) ->
  exists mid, inner = rev acc ++ mid /\ s = mid ++ q :: rest /\ none (fun c => c =? q) mid.
Proof.
  induction s as [|c s IH]; intros acc inner rest E; [discriminate|]. cbn [pair_loop] in E.
  destruct (c =? q) eqn:X.
  - change (1 - 1 =? 0) with true in E. invc E. exists []. rewrite app_nil_r. apply Z.eqb_eq in X. subst.
    split; [reflexivity|]. split; [reflexivity|constructor].
  - apply IH in E as (mid & A & B & D). exists (c :: mid). rewrite A, B. cbn [rev app]. rewrite <- app_assoc.
    split; [reflexivity|]. split; [reflexivity|]. constructor; auto.
Qed.
Lemma parse_str_inv s name rest : parse_str s = (Some name, rest) ->
  s = [QUOTE] ++ name ++ [QUOTE] ++ rest /\ none (fun c => c =? QUOTE) name.
Proof.
  unfold parse_str, match_pair. destruct s as [|c s]; [discriminate|]. destruct (c =? QUOTE) eqn:C; [|discriminate].
  destruct (pair_loop QUOTE QUOTE 1 [] s) as [[i t]|] eqn:E; [|discriminate]. intros X. invc X.
  apply pair_loop_quote_inv in E as (mid & A & B & D). cbn in A. subst mid. rewrite B.
  apply Z.eqb_eq in C. subst c. auto.
Qed.
Lemma paired_sub l r a b c : paired l r (a ++ b ++ c) -> none (fun x => (x =? l) || (x =? r)) a ->
  none (fun x => (x =? l) || (x =? r)) c -> paired l r b.
Proof.
  intros P A C. assert (paired l r (b ++ c)) as P'.
  { induction A as [|x a X A IH]; [exact P|]. apply IH. cbn [app] in P. inversion P; subst; [auto|lia]. }
  clear P A. remember (b ++ c) as s eqn:S. revert b S. induction P' as [|x s X1 X2 P IH|u v P1 IH1 P2 IH2]; intros b S.
  - destruct b; [constructor|discriminate].
  - destruct b as [|y b]; [constructor|]. invc S. constructor; auto.
  - destruct b as [|y b]; [constructor|]. cbn [app] in S. injection S as <- S.
    (* the closing character lies in b *)
    assert (exists b2, b = u ++ r :: b2 /\ v = b2 ++ c) as (b2 & -> & V).
    { clear - S C. revert b S. induction u as [|x u IH]; intros b S.
      - destruct b as [|y b]; cbn [app] in S.
        + subst c. inversion C; subst. rewrite Z.eqb_refl in H1. lia.
        + injection S as <- S. exists b. auto.
      - destruct b as [|y b]; cbn [app] in S.
        + subst c. exfalso. apply Forall_app in C || idtac. inversion C as [|? ? _ C']; subst.
          apply Forall_app in C' as [_ C']. inversion C'; subst. rewrite Z.eqb_refl in H1. lia.
        + injection S as <- S. destruct (IH _ S) as (b2 & -> & V). exists b2. auto. }
    apply pd_pair; auto.
Qed.
