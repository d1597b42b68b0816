(** Lemmas about the texts of elements. *)
From Coq Require Import ZifyBool ZifyNat Lia.
From Verif Require Import Py PyLemmas TypesModel TextModel SigModel AttrModel NodeModel ParserModel.
From Verif Require Import SigSpec NodeSpec TextProofs SigProofs NodeProofs.
Ltac Zify.zify_post_hook ::= Z.div_mod_to_equations.

(** ** Characters of a signature *)

Definition bad (c : Z) : bool := (c =? 35) || (c =? 10) || (c =? 58).
Lemma clean_bad s : clean_name s -> none bad s /\ quoteless s.
Proof.
  intros C. split.
  - apply Forall_forall. intros c I. specialize (C c I). cbn [In] in C. unfold bad. unfold QUOTE in *. lia.
  - intros I. apply (C _ I). cbn. auto.
Qed.
Lemma dec_bad z : none bad (dec_str z).
Proof. apply dec_str_none. intros c. unfold is_numch, is_digit, bad. lia. Qed.
Lemma code_bad c : bad (code_char c) = false.
Proof. destruct c; reflexivity. Qed.

(** The names in the text of an element. *)
Fixpoint clean_text (by_name : bool) (H : theap) (e : delem) : Prop :=
  match e with
  | DPrim _ _ _ _ _ => True
  | DRec _ es =>
    (fix go l := match l with
                 | [] => True
                 | x :: r => (exists s, de_name x = Some s /\ clean_name s) /\ clean_text by_name H x /\ go r
                 end) es
  | DRef _ (RName s) => clean_name s
  | DRef _ (RObj o) => exists s, dt_name (H o) = Some s /\ clean_name s
  | DRef _ (RInt _) => True
  end.
Fixpoint clean_texts (by_name : bool) (H : theap) (l : list delem) : Prop :=
  match l with
  | [] => True
  | x :: r => (exists s, de_name x = Some s /\ clean_name s) /\ clean_text by_name H x /\ clean_texts by_name H r
  end.
Lemma clean_text_rec by_name H n es : clean_text by_name H (DRec n es) = clean_texts by_name H es.
Proof. cbn [clean_text]. induction es as [|e es IH]; [reflexivity|]. cbn [clean_texts]. rewrite IH. reflexivity. Qed.

Definition ends_well (t : str) : Prop := exists p c, t = p ++ [c] /\ is_eol c = false.

Lemma ends_well_cons c t : ends_well t -> ends_well (c :: t).
Proof. intros (p & d & -> & D). exists (c :: p), d. auto. Qed.
Lemma ends_well_app a t : ends_well t -> ends_well (a ++ t).
Proof. intros (p & d & -> & D). exists (a ++ p), d. rewrite app_assoc. auto. Qed.

Lemma none_cons p c t : p c = false -> none p t -> none p (c :: t).
Proof. intros. constructor; auto. Qed.

Lemma elem_string_good by_name H : forall e, clean_text by_name H e -> forall t, elem_string by_name H e = Ok t ->
  none bad t /\ ends_well t.
Proof.
  assert (forall (t : str), none bad t -> none bad ([91] ++ t ++ [93]) /\ ends_well ([91] ++ t ++ [93])) as BR.
  { intros t N. split; [apply none_app; split; [repeat constructor|apply none_app; split; [exact N|repeat constructor]]|].
    exists ([91] ++ t), 93. rewrite <- app_assoc. auto. }
  induction e as [n c lo hi a|n es IH|n r] using delem_ind2; intros C t E.
  - change (Ok ([code_char c] ++ limits_text lo hi ++ alen_text a) = Ok t) in E. injection E as <-.
    assert (none bad (limits_text lo hi)) as NL.
    { destruct lo, hi; [|constructor..]. unfold limits_text. repeat (apply none_app; split); try apply dec_bad; repeat constructor. }
    assert (limits_text lo hi = [] \/ ends_well (limits_text lo hi)) as EL.
    { destruct lo as [l|], hi as [h|]; auto. right. unfold limits_text. do 4 apply ends_well_app. exists [], 41. auto. }
    assert (none bad [code_char c]) as NC by (constructor; [apply code_bad|constructor]).
    change (code_char c :: limits_text lo hi ++ alen_text a) with ([code_char c] ++ limits_text lo hi ++ alen_text a).
    destruct a as [k|]; unfold alen_text.
    + destruct (BR (dec_str k) (dec_bad k)) as [B1 B2]. split; [|apply ends_well_app, ends_well_app, B2].
      apply none_app. split; [exact NC|]. apply none_app. split; auto.
    + rewrite app_nil_r. split; [apply none_app; split; [exact NC|exact NL]|].
      destruct EL as [-> |EL]; [|apply ends_well_app, EL]. exists [], (code_char c). split; [reflexivity|]. destruct c; reflexivity.
  - rewrite elem_string_rec in E. rewrite clean_text_rec in C. inv_bind E. injection E as <-.
    assert (none bad a) as N.
    { revert a Ha. induction IH as [|e es X F IHl]; intros b B; cbn [members_string clean_texts] in *; [injection B as <-; constructor|].
      inv_bind B. inv_bind B. injection B as <-. destruct C as ((s & S1 & S2) & C1 & C2).
      destruct (X C1 _ Ha) as [N1 _]. rewrite S1. cbn [opt_text]. destruct (clean_bad _ S2) as [N2 _].
      apply none_cons; [reflexivity|]. apply none_app. split; [exact N2|]. apply none_cons; [reflexivity|]. apply none_app. auto. }
    split; [apply none_cons; [reflexivity|]; apply none_app; split; [exact N|repeat constructor]|].
    apply ends_well_cons, ends_well_app. exists [], 125. auto.
  - assert (forall s, clean_name s -> none bad (lit "T[""" ++ s ++ lit """]") /\ ends_well (lit "T[""" ++ s ++ lit """]")) as NR.
    { intros s S1. destruct (clean_bad _ S1) as [N _]. split; [repeat (apply none_app; split); auto; repeat constructor|].
      apply ends_well_app, ends_well_app. exists [QUOTE], 93. auto. }
    destruct r as [i|s|o]; cbn [elem_string] in E; [discriminate| |].
    + injection E as <-. exact (NR s C).
    + destruct (if by_name then None else dt_id (H o)) as [i|].
      * injection E as <-. destruct (BR (dec_str i) (dec_bad i)) as [B1 B2]. 
        split; [apply none_cons; [reflexivity|exact B1]|apply ends_well_cons, B2].
      * destruct C as (s & S1 & S2). rewrite S1 in E. cbn [opt_text] in E. injection E as <-. exact (NR s S2).
Qed.

(** ** Elements and their texts *)

Fixpoint tidies (own : bool) (l : list delem) : Prop :=
  match l with
  | [] => True
  | x :: r => (exists s, de_name x = Some s /\ clean_name s) /\ tidy own x /\ tidies own r
  end.
Lemma tidy_rec own n l : tidy own (DRec n l) = tidies own l.
Proof. cbn [tidy]. induction l as [|e l IH]; [reflexivity|]. cbn [tidies]. rewrite IH. reflexivity. Qed.

(** Type objects whose texts find them. *)
Definition tagging (W : world) (nd : node) : Prop := untagged W nd \/ tagged W nd.
Definition findable (by_name : bool) (H : theap) (types : list nat) : Prop :=
  forall i o, nth_error types i = Some o ->
    (exists s, dt_name (H o) = Some s /\ clean_name s /\ bracketed s) /\
    (by_name = true \/ dt_id (H o) = None \/ dt_id (H o) = Some (Z.of_nat i)).

Lemma stands_name types e a : stands types e a -> de_name e = de_name a.
Proof. intros [ ]; reflexivity. Qed.

Lemma nth_firstn {A} (l : list A) m i : (i < m)%nat -> nth_error (firstn m l) i = nth_error l i.
Proof.
  revert m i. induction l as [|x l IH]; intros m i L; [rewrite firstn_nil; reflexivity|].
  destruct m as [|m]; [lia|]. destruct i as [|i]; [reflexivity|]. cbn. apply IH. lia.
Qed.

Lemma stands_text by_name H types names : findable by_name H types -> Forall2 (fun o nm => dt_name (H o) = nm) types names ->
  forall e a, stands types e a -> tidy false a ->
  printable by_name H e /\ clean_text by_name H e /\ forall m, below m a -> refers (firstn m names) (described by_name H e) a.
Proof.
  intros FN F.
  apply (stands_mind types
    (fun e a _ => tidy false a -> printable by_name H e /\ clean_text by_name H e /\
                  forall m, below m a -> refers (firstn m names) (described by_name H e) a)
    (fun es l _ => tidies false l -> printables by_name H es /\ clean_texts by_name H es /\
                  forall m, belows m l -> refers_all (firstn m names) (map (described by_name H) es) l)).
  - intros n c lo hi k T. repeat split; auto; try apply T. constructor.
  - intros n o i E _. destruct (FN _ _ E) as ((s & S1 & S2 & S3) & ID).
    assert (type_name_ok (Some s)) as TN by (split; [apply clean_bad, S2|exact S3]).
    split; [cbn [printable]; rewrite S1; destruct (dt_id (H o)); destruct by_name; auto|].
    split; [exists s; auto|]. intros m B. inversion B as [|n' j J|]; subst.
    match goal with X : Z.of_nat _ = Z.of_nat _ |- _ => apply Nat2Z.inj in X; subst end.
    cbn [described]. unfold reference_text. rewrite S1.
    destruct (Forall2_nth _ _ _ _ _ F E) as (nm & NM & X). rewrite S1 in X. subst nm. rewrite <- (nth_firstn names m i J) in NM.
    destruct by_name; [apply rf_name; exact NM|]. destruct ID as [ID|[-> | ->]]; [discriminate ID|..]; [apply rf_name; exact NM|].
    apply rf_index. apply nth_error_Some. congruence.
  - intros n es l SA IH T. rewrite tidy_rec in T. rewrite printable_rec, clean_text_rec. destruct (IH T) as (A & B & C).
    split; [exact A|]. split; [exact B|]. intros m BL. inversion BL; subst. cbn [described]. constructor. auto.
  - intros _. repeat split; auto. constructor.
  - intros e a es l ST IH1 SA IH2 ((s & S1 & S2) & T1 & T2). destruct (IH1 T1) as (A1 & B1 & C1). destruct (IH2 T2) as (A2 & B2 & C2).
    rewrite <- (stands_name _ _ _ ST) in S1. split; [|split].
    + cbn [printables]. split; [exists s; split; [exact S1|apply clean_bad, S2]|auto].
    + cbn [clean_texts]. eauto.
    + intros m BL. inversion BL; subst. cbn [map]. constructor; auto.
Qed.

Lemma own_text by_name H : forall e, tidy true e -> printable by_name H e /\ clean_text by_name H e /\ described by_name H e = e.
Proof.
  induction e as [n c lo hi a|n es IH|n r] using delem_ind2; intros T.
  - repeat split; auto; apply T.
  - rewrite tidy_rec in T. rewrite printable_rec, clean_text_rec. cbn [described].
    assert (printables by_name H es /\ clean_texts by_name H es /\ map (described by_name H) es = es) as (A & B & C).
    { induction IH as [|e es X F IHl]; [repeat split; auto|]. destruct T as ((s & S1 & S2) & T1 & T2).
      destruct (X T1) as (A1 & B1 & C1). destruct (IHl T2) as (A2 & B2 & C2). split; [|split].
      - cbn [printables]. split; [exists s; split; [exact S1|apply clean_bad, S2]|auto].
      - cbn [clean_texts]. eauto.
      - cbn [map]. congruence. }
    rewrite C. auto.
  - destruct r as [i|s|o]; [discriminate T| |contradiction]. destruct T as (_ & C & B).
    split; [split; [apply clean_bad, C|exact B]|]. split; [exact C|reflexivity].
Qed.

Lemma nameless_described by_name H e : nameless e = e -> nameless (described by_name H e) = described by_name H e.
Proof. destruct e as [| |n [i|s|o]]; cbn; congruence. Qed.

Lemma bad_in t : none bad t -> ~ In 35 t /\ ~ In 10 t /\ ~ In 58 t.
Proof.
  intros N. unfold none in N. rewrite Forall_forall in N.
  repeat split; intros I; apply N in I; discriminate I.
Qed.
Lemma plain_in s : plain_name s -> quoteless s /\ ~ In 35 s /\ ~ In 10 s.
Proof. intros P. repeat split; intros I; apply (P _ I); cbn; auto. Qed.
Lemma clean_plain s : clean_name s -> plain_name s.
Proof. intros C c I J. apply (C c I). cbn in *. tauto. Qed.


(** ** Declarations with the same text *)

Lemma cut_at (p : Z -> bool) a b x y : none p a -> none p b ->
  match x with c :: _ => p c = true | [] => True end -> match y with c :: _ => p c = true | [] => True end ->
  a ++ x = b ++ y -> a = b /\ x = y.
Proof.
  intros A. revert b. induction A as [|c a C A IH]; intros b B X Y E.
  - destruct b as [|d b]; [auto|]. inversion B as [|? ? D _]; subst. cbn in E. subst x. congruence.
  - destruct b as [|d b].
    + cbn in E. subst y. congruence.
    + inversion B as [|? ? D B']; subst. cbn in E. injection E as <- E. destruct (IH b B' X Y E) as [-> ->]. auto.
Qed.

Lemma decl_string_inj letter n s1 a1 s2 a2 : none bad s1 -> none bad s2 ->
  decl_string letter n s1 a1 = decl_string letter n s2 a2 -> s1 = s2 /\ a1 = a2.
Proof.
  intros N1 N2 E. unfold decl_string in E. do 3 apply app_inv_head in E.
  apply cut_at with (p := bad) in E as [A B]; [|exact N1|exact N2|destruct a1; cbn; auto|destruct a2; cbn; auto]. split; [exact A|].
  destruct a1, a2; try discriminate; [injection B as ->|]; reflexivity.
Qed.

Lemma verify_equal_ok a b : verify_equal a b = Ok tt -> exists x, a = Ok x /\ b = Ok x.
Proof.
  unfold verify_equal. intros E. inv_bind E. inv_bind E. destruct (str_eqb a0 a1) eqn:X; [|discriminate]. apply str_eqb_eq in X. subst. eauto.
Qed.

Lemma same_type_said H types names o d a : findable true H types -> Forall2 (fun o nm => dt_name (H o) = nm) types names ->
  stands types (dt_elem (H o)) a -> tidy false a -> below (length names) a -> nameless a = a ->
  tidy true (dt_elem d) -> nameless (dt_elem d) = dt_elem d -> dt_short (H o) = None -> dt_short d = None -> dt_name (H o) = dt_name d ->
  verify_equal (type_string true H (H o)) (type_string true H d) = Ok tt ->
  refers names (dt_elem d) a /\ dt_attr d = dt_attr (H o).
Proof.
  intros FN F ST TA BL NA TD ND S1 S2 NM E. apply verify_equal_ok in E as (x & E1 & E2). unfold type_string in E1, E2.
  rewrite S1 in E1. rewrite S2 in E2. rewrite NM in E1.
  destruct (stands_text true _ _ _ FN F _ _ ST TA) as (PR & CL & RF). destruct (own_text true H _ TD) as (PR2 & CL2 & DS).
  destruct (signature_read true _ _ PR) as (t1 & T1 & P1). destruct (signature_read true _ _ PR2) as (t2 & T2 & P2).
  rewrite T1 in E1. rewrite T2 in E2. cbn [bind] in *. assert (decl_string 84 (dt_name d) t2 (dt_attr d) = decl_string 84 (dt_name d) t1 (dt_attr (H o))) as EE by congruence.
  destruct (elem_string_good _ _ _ CL _ T1) as [NB1 _]. destruct (elem_string_good _ _ _ CL2 _ T2) as [NB2 _].
  apply decl_string_inj in EE as [-> EA]; auto. split; [|congruence]. rewrite P1 in P2. injection P2 as P2.
  assert (nameless (dt_elem (H o)) = dt_elem (H o)) as NO by (destruct ST; cbn in *; congruence).
  rewrite DS, ND in P2. rewrite nameless_described in P2 by exact NO. rewrite <- P2.
  specialize (RF _ BL). rewrite firstn_all in RF. exact RF.
Qed.
