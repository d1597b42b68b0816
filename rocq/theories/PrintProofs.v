(** Proofs for C71: the text of a definition. *)
From Coq Require Import ZifyBool ZifyNat Lia.
From Verif Require Import Py PyLemmas TypesModel TextModel SigModel AttrModel NodeModel ParserModel SigSpec NodeSpec ParserSpec FilesModel FilesSpec
  TextProofs SigProofs NodeProofs ElemTextProofs MirrorProofs FinalizeProofs FilesProofs FilesProofs2 PrintSpec.
Ltac Zify.zify_post_hook ::= Z.div_mod_to_equations.

Lemma plain_loop fuel : forall n acc, 0 <= n < 10 ^ Z.of_nat fuel -> (0 < fuel)%nat -> exists ds, digits_loop fuel n acc = ds ++ acc /\ plain_number n ds.
Proof.
  induction fuel as [|k IH]; intros n acc N F; [lia|]. cbn [digits_loop]. destruct (n <? 10) eqn:T.
  - exists [48 + n]. split; [reflexivity|]. constructor. lia.
  - assert (10 ^ Z.of_nat (S k) = 10 * 10 ^ Z.of_nat k) as P by (rewrite Nat2Z.inj_succ, Z.pow_succ_r by lia; reflexivity).
    rewrite P in N. destruct k as [|k]; [change (10 ^ Z.of_nat 0) with 1 in N; lia|].
    destruct (IH (n / 10) ((48 + n mod 10) :: acc)) as (ds & E & PN); [lia|lia|].
    exists (ds ++ [48 + n mod 10]). rewrite E, <- app_assoc. split; [reflexivity|].
    replace n with (10 * (n / 10) + n mod 10) at 1 by lia. constructor; [lia|lia|exact PN].
Qed.
Lemma plain_dec n : 0 <= n -> plain_number n (dec_nat n).
Proof.
  intros N. unfold dec_nat. destruct (plain_loop (S (Z.to_nat (Z.log2 n))) n []) as (ds & E & PN); [|lia|rewrite E, app_nil_r; exact PN].
  split; [lia|]. pose proof (Z.log2_nonneg n). rewrite Nat2Z.inj_succ, Z2Nat.id by lia.
  destruct (Z.eq_dec n 0) as [-> |]; [reflexivity|]. pose proof (Z.log2_spec n ltac:(lia)) as [_ U].
  eapply Z.lt_le_trans; [exact U|]. apply Z.pow_le_mono_l. lia.
Qed.
Lemma plain_fun z : forall s, plain_number z s -> forall t, plain_number z t -> s = t.
Proof.
  intros s P. induction P as [d D|n d s N D P IH]; intros t Q; inversion Q as [d' D' E|n' d' s' N' D' P' E]; subst; try lia; try reflexivity.
  - assert (n' = n /\ d' = d) as [-> ->] by lia. rewrite (IH _ P'). reflexivity.
Qed.
Lemma plain_nonneg z s : plain_number z s -> 0 <= z.
Proof. intros P. inversion P; subst; lia. Qed.
Lemma number_dec z s : number_text z s <-> s = dec_str z.
Proof.
  unfold dec_str. split.
  - intros N. inversion N as [z' s' P|z' s' Z0 P]; subst.
    + pose proof (plain_nonneg _ _ P). destruct (z <? 0) eqn:T; [lia|]. apply (plain_fun _ _ P). apply plain_dec. lia.
    + destruct (- z' <? 0) eqn:T; [|lia]. f_equal. apply (plain_fun _ _ P). replace (- - z') with z' by lia. apply plain_dec. lia.
  - intros ->. destruct (z <? 0) eqn:T; [|constructor; apply plain_dec; lia].
    replace z with (- - z) at 1 by lia. constructor; [lia|]. apply plain_dec. lia.
Qed.

Lemma limits_dec lo hi s : limits_text lo hi s <-> s = match lo, hi with Some l, Some h => [40] ++ dec_str l ++ [COMMA] ++ dec_str h ++ [41] | _, _ => [] end.
Proof.
  split.
  - intros L. inversion L as [a b x y A B|l h O]; subst; [rewrite number_dec in A, B; subst; reflexivity|]. destruct O as [-> | ->]; [reflexivity|destruct lo; reflexivity].
  - intros ->. destruct lo as [l|]; [destruct hi as [h|]|]; [|constructor; auto..]. apply lt_both; apply number_dec; reflexivity.
Qed.
Lemma length_dec n s : length_text n s <-> s = match n with Some n => [91] ++ dec_str n ++ [93] | None => [] end.
Proof.
  split.
  - intros L. inversion L as [m x A|]; subst; [rewrite number_dec in A; subst; reflexivity|reflexivity].
  - intros ->. destruct n; constructor. apply number_dec. reflexivity.
Qed.

(** Elements whose references are objects, with types that have names, and numbers or not. *)
Section Elements.
Variables (H : theap) (types : list nat) (names : list (option str)) (normalized : bool) (st : style).
Hypothesis NM : Forall2 (fun o n => dt_name (H o) = n) types names.
Hypothesis ST : forall i o, nth_error types i = Some o -> (if normalized then None else dt_id (H o)) = match st with Numbers => Some (Z.of_nat i) | _ => None end.
Hypothesis NA : st <> AsIs.

Lemma ref_printed o i : nth_error types i = Some o ->
  forall s, ref_text names st (RInt (Z.of_nat i)) s <->
    lit "T[" ++ s ++ lit "]" = match (if normalized then None else dt_id (H o)) with Some j => lit "T[" ++ dec_str j ++ lit "]" | None => lit "T[""" ++ opt_text (dt_name (H o)) ++ lit """]" end.
Proof.
  intros O s. rewrite (ST i o O). destruct (Forall2_nth _ _ _ _ _ NM O) as (n & N & E). rewrite E. split.
  - intros R. inversion R as [j x L T EJ|j m J EJ|]; subst; match goal with X : Z.of_nat _ = Z.of_nat _ |- _ => apply Nat2Z.inj in X; subst end.
    + rewrite number_dec in T. subst. reflexivity.
    + rewrite N in J. injection J as <-. unfold quoted. cbn. rewrite <- !app_assoc. reflexivity.
  - intros E2. destruct st; [| |congruence].
    + apply app_inv_head in E2. apply app_inv_tail in E2. subst s. apply rt_number; [apply nth_error_Some; congruence|apply number_dec; reflexivity].
    + assert (s = quoted (shown n)) as ->; [|apply rt_name; exact N]. apply (app_inv_tail (lit "]")).
      change (lit "T[""" ++ opt_text n ++ lit """]") with (lit "T[" ++ ([34] ++ opt_text n ++ lit """]")) in E2. apply app_inv_head in E2. rewrite E2. unfold quoted. rewrite <- !app_assoc. reflexivity.
Qed.

Lemma prim_printed names0 st0 nm c lo hi n s : elem_text names0 st0 (DPrim nm c lo hi n) s <-> elem_string normalized H (DPrim nm c lo hi n) = Ok s.
Proof.
  cbn [elem_string]. split.
  - intros E. inversion E as [? ? ? ? ? l a L A| |]; subst. rewrite limits_dec in L. rewrite length_dec in A. subst. destruct c; reflexivity.
  - intros E. injection E as <-. match goal with |- elem_text _ _ _ (_ :: ?l ++ ?a) => replace (code_char c :: l ++ a) with (letter_of c ++ l ++ a) by (destruct c; reflexivity) end.
    constructor; [apply limits_dec; reflexivity|apply length_dec; reflexivity].
Qed.

Lemma elem_printed : forall e a, stands types e a -> forall s, elem_text names st a s <-> elem_string normalized H e = Ok s.
Proof.
  induction e as [n c lo hi k|n es IH|n r] using delem_ind2; intros a S0; inversion S0; subst; intros s.
  - apply prim_printed.
  - rewrite elem_string_rec. match goal with X : stands_all _ _ _ |- _ => rename X into SA end.
    assert (forall m, members_text names st l m <-> members_string normalized H es = Ok m) as MM.
    { clear S0. revert l SA. induction IH as [|x es X F IHl]; intros l SA; inversion SA as [|? b ? l' S1 S2]; subst; intros m; cbn [members_string].
      - split; [intros M; inversion M; reflexivity|]. intros E. injection E as <-. constructor.
      - pose proof (stands_name _ _ _ S1) as NX. split.
        + intros M. inversion M as [|? ? s1 t1 E1 E2]; subst. rewrite (X _ S1) in E1. rewrite (IHl _ S2) in E2. rewrite E1, E2. cbn [bind]. rewrite NX. unfold quoted. rewrite <- !app_assoc. reflexivity.
        + intros E. apply bind_ok in E as (t & E1 & E). apply bind_ok in E as (b' & E2 & E). apply (X _ S1) in E1. apply (IHl _ S2) in E2. injection E as <-.
          rewrite NX. match goal with |- members_text _ _ _ (?q :: ?n ++ ?z :: ?u) => replace (q :: n ++ z :: u) with (quoted (shown (de_name b)) ++ t ++ b') by (unfold quoted; rewrite <- !app_assoc; reflexivity) end.
          constructor; assumption. }
    split.
    + intros E. inversion E as [| |? ? m M]; subst. apply MM in M. rewrite M. reflexivity.
    + intros E. apply bind_ok in E as (m & E1 & E). injection E as <-. apply MM in E1. apply (et_rec names st n l m E1).
  - cbn [elem_string]. match goal with X : nth_error types _ = Some _ |- _ => rename X into O end. pose proof (ref_printed _ _ O) as RP. split.
    + intros E. inversion E as [|? ? x R|]; subst. apply RP in R. rewrite R. destruct (if normalized then None else dt_id (H o)); reflexivity.
    + intros E. destruct (Forall2_nth _ _ _ _ _ NM O) as (nm & NN & _).
      assert (exists x, s = lit "T[" ++ x ++ lit "]") as (x & ->).
      { destruct (if normalized then None else dt_id (H o)); injection E as <-; [eexists; reflexivity|]. exists ([34] ++ opt_text (dt_name (H o)) ++ [34]). cbn. rewrite <- !app_assoc. reflexivity. }
      constructor. apply RP. destruct (if normalized then None else dt_id (H o)); injection E as E; cbn; f_equal; f_equal; exact (eq_sym E).
Qed.

Lemma own_printed : forall e, as_parsed e -> forall s, elem_text names AsIs e s <-> elem_string normalized H e = Ok s.
Proof.
  induction e as [n c lo hi k|n es IH|n r] using delem_ind2; intros A s.
  - apply prim_printed.
  - rewrite elem_string_rec. cbn [as_parsed] in A.
    assert (forall m, members_text names AsIs es m <-> members_string normalized H es = Ok m) as MM.
    { induction IH as [|x es X F IHl]; intros m; cbn [members_string].
      - split; [intros M; inversion M; reflexivity|]. intros E. injection E as <-. constructor.
      - destruct A as (_ & A1 & A2). split.
        + intros M. inversion M as [|? ? s1 t1 E1 E2]; subst. rewrite (X A1) in E1. rewrite (IHl A2) in E2. rewrite E1, E2. cbn [bind]. unfold quoted. rewrite <- !app_assoc. reflexivity.
        + intros E. apply bind_ok in E as (t & E1 & E). apply bind_ok in E as (b' & E2 & E). apply (X A1) in E1. apply (IHl A2) in E2. injection E as <-.
          match goal with |- members_text _ _ _ (?q :: ?n ++ ?z :: ?u) => replace (q :: n ++ z :: u) with (quoted (shown (de_name x)) ++ t ++ b') by (unfold quoted; rewrite <- !app_assoc; reflexivity) end.
          constructor; assumption. }
    split.
    + intros E. inversion E as [| |? ? m M]; subst. apply MM in M. rewrite M. reflexivity.
    + intros E. apply bind_ok in E as (m & E1 & E). injection E as <-. apply MM in E1. apply (et_rec names AsIs n es m E1).
  - cbn [elem_string]. destruct r as [i|x|o]; [| |contradiction].
    + split; [|discriminate]. intros E. inversion E as [|? ? x R|]; subst. inversion R.
    + split.
      * intros E. inversion E as [|? ? y R|]; subst. inversion R; subst. unfold quoted. cbn. rewrite <- !app_assoc. reflexivity.
      * intros E. injection E as <-. match goal with |- elem_text _ _ _ ?t => replace t with (lit "T[" ++ quoted x ++ lit "]") by (unfold quoted; cbn; rewrite <- !app_assoc; reflexivity) end. constructor. constructor.
Qed.
End Elements.

Lemma map_res_iff {A B} (f : A -> res B) {C} (P : C -> B -> Prop) l m : Forall2 (fun x c => forall y, P c y <-> f x = Ok y) l m ->
  forall ys, Forall2 P m ys <-> map_res f l = Ok ys.
Proof.
  induction 1 as [|x c l m X F IH]; intros ys; cbn [map_res].
  - split; [intros G; inversion G; reflexivity|]. intros E. injection E as <-. constructor.
  - split.
    + intros G. inversion G as [|? y ? ys' Y G']; subst. apply X in Y. apply IH in G'. rewrite Y, G'. reflexivity.
    + intros E. apply bind_ok in E as (y & E1 & E). apply bind_ok in E as (ys' & E2 & E). injection E as <-. constructor; [apply X; exact E1|apply IH; exact E2].
Qed.
Lemma decl_text letter (c : Z) name sig attr : letter = [c] ->
  decl_string c name sig attr = letter ++ quoted (shown name) ++ sig ++ attr_text attr.
Proof. intros ->. unfold decl_string, quoted. cbn. rewrite <- !app_assoc. reflexivity. Qed.

Definition tag_style (numbers : bool) : style := if numbers then Numbers else Names.

Lemma lines_printed normalized (numbers : bool) W nd D : represents W nd D -> linked_ports D -> (if numbers then tagged W nd else untagged W nd) ->
  forall ls, def_lines (tag_style numbers) (tag_style (numbers && negb normalized)) D ls <-> lines normalized W nd = Ok ls.
Proof.
  intros R L TG.
  assert (forall i o, nth_error (n_types nd) i = Some o -> dt_id (w_types W o) = (if numbers then Some (Z.of_nat i) else None) /\ dt_short (w_types W o) = None) as ID.
  { intros i o O. destruct numbers; [apply TG; exact O|]. apply TG. eapply nth_error_In. exact O. }
  assert (forall norm i o, nth_error (n_types nd) i = Some o -> (if norm : bool then None else dt_id (w_types W o)) =
    match tag_style (numbers && negb norm) with Numbers => Some (Z.of_nat i) | _ => None end) as ST.
  { intros norm i o O. destruct (ID i o O) as [-> _]. destruct norm, numbers; reflexivity. }
  assert (forall b, tag_style b <> AsIs) as NA by (intros []; discriminate).
  assert (Forall2 (fun o n => dt_name (w_types W o) = n) (n_types nd) (type_names D)) as NM by (apply (rep_names _ _ _ R)).
  assert (forall ts, Forall2 (type_line (type_names D) (tag_style numbers)) (df_types D) ts <-> map_res (fun o => type_string false (w_types W) (w_types W o)) (n_types nd) = Ok ts) as TT.
  { apply map_res_iff. pose proof (rp_types _ _ _ R) as RT. apply nth_forall2; [exact (Forall2_len _ _ _ RT)|]. intros i o t O T y.
    destruct (Forall2_nth _ _ _ _ _ RT O) as (t' & T' & (N1 & A1 & S1)). assert (t' = t) by congruence. subst t'.
    destruct (ID i o O) as [_ SH]. unfold type_string. rewrite SH, N1, A1.
    pose proof (elem_printed (w_types W) (n_types nd) (type_names D) false (tag_style numbers) NM) as EP.
    assert (forall s, elem_text (type_names D) (tag_style numbers) (td_elem t) s <-> elem_string false (w_types W) (dt_elem (w_types W o)) = Ok s) as EP'.
    { apply EP; [|apply NA|exact S1]. intros j o' O'. rewrite (ST false j o' O'), Bool.andb_true_r. reflexivity. }
    split.
    - intros Y. inversion Y as [s ES]; subst. apply EP' in ES. rewrite ES. cbn [bind]. f_equal. apply decl_text. reflexivity.
    - intros E. apply bind_ok in E as (s & E1 & E). apply EP' in E1. assert (y = decl_string 84 (td_name t) s (td_attr t)) as -> by congruence.
      rewrite (decl_text (lit "T")) by reflexivity. constructor. exact E1. }
  assert (forall pr letter c os ps, letter = [c] -> c = (if pr : bool then 80 else 82) -> Forall2 (port_is W (n_types nd) pr) os ps -> (forall p, In p ps -> In p (df_provide D ++ df_require D)) ->
    forall rs, Forall2 (port_line (type_names D) (tag_style (numbers && negb normalized)) letter) ps rs <->
      map_res (fun o => port_string normalized (w_types W) (w_ports W o)) os = Ok rs) as PP.
  { intros pr letter c os ps LC CC F IP. apply map_res_iff. apply nth_forall2; [exact (Forall2_len _ _ _ F)|]. intros i o p O P y.
    destruct (Forall2_nth _ _ _ _ _ F O) as (p' & P' & (B1 & N1 & A1 & S1)). assert (p' = p) by congruence. subst p'.
    unfold port_string. rewrite B1, N1, A1, <- CC.
    assert (forall s, ((is_ref (pd_elem p) -> elem_text (type_names D) (tag_style (numbers && negb normalized)) (pd_elem p) s) /\
      (~ is_ref (pd_elem p) -> elem_text (type_names D) AsIs (pd_elem p) s)) <-> elem_string normalized (w_types W) (pt_elem (w_ports W o)) = Ok s) as EP.
    { intros s. inversion S1 as [n r a SS E1 E2|e NR E1 E2]; subst.
      - assert (is_ref (pd_elem p)) as IR by (inversion SS; subst; exact I).
        rewrite <- (elem_printed (w_types W) (n_types nd) (type_names D) normalized (tag_style (numbers && negb normalized)) NM (ST normalized) (NA _) _ _ SS s). tauto.
      - rewrite E2 in *. rewrite <- (own_printed (w_types W) (type_names D) normalized (pd_elem p)); [tauto|]. apply L; [|exact NR]. apply IP. eapply nth_error_In; eauto. }
    assert (match pd_attr p with Some a => Some (pa_str a) | None => None end = option_map pa_str (pd_attr p)) as -> by (destruct (pd_attr p); reflexivity).
    split.
    - intros Y. inversion Y as [s E1 E2]; subst y. rewrite (proj1 (EP s) (conj E1 E2)). cbn [bind]. f_equal. apply decl_text. exact LC.
    - intros E. apply bind_ok in E as (s & E1 & E). apply EP in E1 as [E1 E2]. injection E as <-. rewrite (decl_text letter _ _ _ _ LC). constructor; assumption. }
  specialize (PP true (lit "P") 80 _ _ eq_refl eq_refl (rp_provide _ _ _ R) ltac:(intros; apply in_or_app; tauto)) as PR.
  specialize (PP false (lit "R") 82 _ _ eq_refl eq_refl (rp_require _ _ _ R) ltac:(intros; apply in_or_app; tauto)) as RR.
  intros ls. unfold lines. rewrite (rp_name _ _ _ R).
  assert ((lit "N" ++ quoted (shown (df_name D))) = lit "N""" ++ opt_text (df_name D) ++ lit """") as NL by reflexivity.
  split.
  - intros DL. inversion DL as [ts ps rs T P Q]; subst ls. apply TT in T. apply PR in P. apply RR in Q. rewrite T, P, Q. cbn [bind]. rewrite NL. reflexivity.
  - intros E. apply bind_ok in E as (ts & T & E). apply bind_ok in E as (ps & P & E). apply bind_ok in E as (rs & Q & E).
    apply TT in T. apply PR in P. apply RR in Q. rewrite <- NL in E. remember (lit "N" ++ quoted (shown (df_name D))) as hd eqn:HD. injection E as <-. subst hd. constructor; assumption.
Qed.
