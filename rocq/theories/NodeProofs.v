(** Lemmas about nodes and the definitions they stand for. *)
From Coq Require Import ZifyBool ZifyNat Lia.
From Verif Require Import Py PyLemmas TypesModel TextModel SigModel AttrModel NodeModel.
From Verif Require Import SigSpec NodeSpec TextProofs SigProofs.
Ltac Zify.zify_post_hook ::= Z.div_mod_to_equations.

Lemma Forall2_len {A B} (R : A -> B -> Prop) l m : Forall2 R l m -> length l = length m.
Proof. induction 1; cbn; congruence. Qed.
Lemma Forall2_nth {A B} (R : A -> B -> Prop) l m i x : Forall2 R l m -> nth_error l i = Some x ->
  exists y, nth_error m i = Some y /\ R x y.
Proof.
  intros F. revert i. induction F as [|a b l m H F IH]; intros i E; [destruct i; discriminate|].
  destruct i as [|i]; [invc E; exists b; auto|]. apply IH, E.
Qed.
Lemma Forall2_nth_r {A B} (R : A -> B -> Prop) l m i y : Forall2 R l m -> nth_error m i = Some y ->
  exists x, nth_error l i = Some x /\ R x y.
Proof.
  intros F. revert i. induction F as [|a b l m H F IH]; intros i E; [destruct i; discriminate|].
  destruct i as [|i]; [invc E; exists a; auto|]. apply IH, E.
Qed.
Lemma Forall2_imp {A B} (R R' : A -> B -> Prop) l m : (forall a b, In a l -> In b m -> R a b -> R' a b) -> Forall2 R l m -> Forall2 R' l m.
Proof.
  intros I F. induction F as [|a b l m H F IH]; constructor.
  - apply I; cbn; auto.
  - apply IH. intros. apply I; cbn; auto.
Qed.
Lemma Forall2_snoc {A B} (R : A -> B -> Prop) l m a b : Forall2 R l m -> R a b -> Forall2 R (l ++ [a]) (m ++ [b]).
Proof. intros F H. apply Forall2_app; [exact F|]. constructor; auto. Qed.

Scheme stands_mind := Induction for stands Sort Prop with stands_all_mind := Induction for stands_all Sort Prop.
Scheme refers_mind := Induction for refers Sort Prop with refers_all_mind := Induction for refers_all Sort Prop.

Lemma is_ref_bool e : is_reference e = true <-> is_ref e.
Proof. destruct e; cbn; split; auto; try discriminate; contradiction. Qed.
Lemma is_ref_false e : is_reference e = false <-> ~ is_ref e.
Proof. destruct e; cbn; split; auto; try discriminate; intros X; contradiction (X I). Qed.

Lemma opt_eqb_eq a b : opt_eqb a b = true <-> a = b.
Proof.
  destruct a as [a|], b as [b|]; cbn [opt_eqb]; split; intros E; try discriminate; try reflexivity.
  - apply str_eqb_eq in E. congruence.
  - invc E. apply str_eqb_refl.
Qed.

(** ** Linking *)

Lemma stands_more types more e a : stands types e a -> stands (types ++ more) e a.
Proof.
  revert e a. apply (stands_mind types (fun e a _ => stands (types ++ more) e a) (fun es l _ => stands_all (types ++ more) es l));
    intros; constructor; auto. rewrite nth_error_app1; [assumption|]. apply nth_error_Some. congruence.
Qed.

Lemma named_find H types names s i : Forall2 (fun o nm => dt_name (H o) = nm) types names -> NoDup names ->
  nth_error names i = Some (Some s) -> find_type H s types = nth_error types i.
Proof.
  intros F N E. destruct (Forall2_nth_r _ _ _ _ _ F E) as (o & O & E'). rewrite O.
  apply (find_type_first H types s o i); auto. intros j o' J O' X.
  destruct (Forall2_nth _ _ _ _ _ F O') as (nm & NM & E2). rewrite X in E2. subst nm.
  rewrite NoDup_nth_error in N. specialize (N j i). rewrite NM, E in N.
  assert (j < length names)%nat by (apply nth_error_Some; congruence). assert (j = i) by auto. lia.
Qed.
Lemma find_named H types names s o : Forall2 (fun o nm => dt_name (H o) = nm) types names ->
  find_type H s types = Some o -> exists i, nth_error types i = Some o /\ nth_error names i = Some (Some s).
Proof.
  unfold find_type. induction 1 as [|x nm types names E F IH]; cbn [find]; [discriminate|].
  destruct (opt_eqb (dt_name (H x)) (Some s)) eqn:X; intros R.
  - invc R. apply opt_eqb_eq in X. exists 0%nat. cbn. split; congruence.
  - destruct (IH R) as (i & A & B). exists (S i). auto.
Qed.

Lemma index_range {A} (l : list A) i x : index l i = Ok x ->
  exists k, nth_error l k = Some x /\ (i = Z.of_nat k \/ i = Z.of_nat k - len l).
Proof.
  unfold index, len. intros E. destruct (i <? 0) eqn:N.
  - destruct (i + Z.of_nat (length l) <? 0) eqn:M; [discriminate|].
    destruct (nth_error l (Z.to_nat (i + Z.of_nat (length l)))) as [y|] eqn:Y; [|discriminate]. invc E.
    eexists. split; [exact Y|]. right. lia.
  - rewrite N in E. destruct (nth_error l (Z.to_nat i)) as [y|] eqn:Y; [|discriminate]. invc E.
    eexists. split; [exact Y|]. left. lia.
Qed.
Lemma index_at {A} (l : list A) k : (k < length l)%nat ->
  exists x, nth_error l k = Some x /\ index l (Z.of_nat k) = Ok x /\ index l (Z.of_nat k - len l) = Ok x.
Proof.
  intros K. destruct (nth_error l k) as [x|] eqn:X; [|apply nth_error_None in X; lia].
  exists x. split; [reflexivity|]. unfold index, len. split.
  - replace (Z.of_nat k <? 0) with false by lia. replace (Z.of_nat k <? 0) with false by lia. rewrite Nat2Z.id, X. reflexivity.
  - replace (Z.of_nat k - Z.of_nat (length l) <? 0) with true by lia.
    replace (Z.of_nat k - Z.of_nat (length l) + Z.of_nat (length l) <? 0) with false by lia.
    replace (Z.to_nat (Z.of_nat k - Z.of_nat (length l) + Z.of_nat (length l))) with k by lia. rewrite X. reflexivity.
Qed.

Lemma links H types names : Forall2 (fun o nm => dt_name (H o) = nm) types names ->
  forall e, as_parsed e -> forall e', resolve_type H (Some types) e = Ok e' ->
  exists a, refers names e a /\ stands types e' a.
Proof.
  intros F. pose proof (Forall2_len _ _ _ F) as LN.
  induction e as [n c lo hi k|n es IH|n r] using delem_ind2; intros P e' R.
  - invc R. eexists. split; constructor.
  - rewrite resolve_type_rec in R. rewrite as_parsed_rec in P. inv_bind R. invc R.
    assert (exists l, refers_all names es l /\ stands_all types a l) as (l & A & B).
    { revert a Ha. induction IH as [|e es E IHF IHes]; intros es' R.
      - invc R. exists []. split; constructor.
      - cbn [resolve_types_list as_parseds] in *. inv_bind R. inv_bind R. invc R. destruct P as (_ & P1 & P2).
        destruct (E P1 _ Ha) as (x & X1 & X2). destruct (IHes P2 _ Ha0) as (l & L1 & L2).
        exists (x :: l). split; constructor; auto. }
    exists (DRec n l). split; constructor; auto.
  - destruct r as [i|s|o]; cbn [as_parsed] in P; [| |contradiction]; cbn [resolve_type] in R.
    + inv_bind R. invc R. destruct (index_range _ _ _ Ha) as (k & K & I).
      exists (DRef n (RInt (Z.of_nat k))). split; [|constructor; exact K].
      assert (k < length names)%nat by (rewrite <- LN; apply nth_error_Some; congruence).
      destruct I as [-> | ->]; [constructor; auto|]. unfold len. rewrite LN. apply rf_back. auto.
    + destruct (find_type H s types) as [o|] eqn:E; [|discriminate]. invc R.
      destruct (find_named _ _ _ _ _ F E) as (i & I & N). exists (DRef n (RInt (Z.of_nat i))). split; constructor; auto.
Qed.

Lemma linkable H types names : Forall2 (fun o nm => dt_name (H o) = nm) types names -> NoDup names ->
  forall e a, refers names e a -> exists e', resolve_type H (Some types) e = Ok e' /\ stands types e' a.
Proof.
  intros F N. pose proof (Forall2_len _ _ _ F) as LN.
  apply (refers_mind names (fun e a _ => exists e', resolve_type H (Some types) e = Ok e' /\ stands types e' a)
    (fun es l _ => exists es', resolve_types_list H (Some types) es = Ok es' /\ stands_all types es' l)).
  - intros. eexists. split; [reflexivity|constructor].
  - intros n s i E. cbn [resolve_type]. rewrite (named_find H types names s i F N E).
    destruct (Forall2_nth_r _ _ _ _ _ F E) as (o & O & _). rewrite O. eexists. split; [reflexivity|constructor; exact O].
  - intros n i I. destruct (index_at types i ltac:(lia)) as (x & X & A & _). cbn [resolve_type]. rewrite A.
    eexists. split; [reflexivity|constructor; exact X].
  - intros n i I. destruct (index_at types i ltac:(lia)) as (x & X & _ & A). cbn [resolve_type]. unfold len in *. rewrite LN in A. rewrite A.
    eexists. split; [reflexivity|constructor; exact X].
  - intros n es l _ (es' & E & S1). rewrite resolve_type_rec, E. eexists. split; [reflexivity|constructor; exact S1].
  - exists []. split; [reflexivity|constructor].
  - intros e a es l _ (e' & E & S1) _ (es' & Es & S2). cbn [resolve_types_list]. rewrite E, Es.
    eexists. split; [reflexivity|constructor; auto].
Qed.

(** ** Following references *)

Lemma follow H types ts : Forall2 (type_is H types) types ts -> forall k e a, stands types e a ->
  (forall d, resolve_loop k H e = Ok d -> reaches ts k a) /\ (reaches ts k a -> exists d, resolve_loop k H e = Ok d).
Proof.
  intros F. induction k as [|k IH]; intros e a S1; cbn [resolve_loop].
  - split.
    + intros d E. destruct (is_reference e) eqn:R; [discriminate|]. constructor. inversion S1; subst; cbn in *; try discriminate; auto.
    + intros R. inversion R as [n a' NR|]; subst. exists e. replace (is_reference e) with false; [reflexivity|].
      symmetry. apply is_ref_false. inversion S1; subst; auto.
  - inversion S1 as [n c lo hi x|n o i N|n es l SS]; subst.
    + split; [constructor; cbn; auto|intros _; eexists; reflexivity].
    + destruct (Forall2_nth _ _ _ _ _ F N) as (t & T & (_ & _ & S2)). destruct (IH _ _ S2) as [A B]. split.
      * intros d E. eapply rc_step; eauto.
      * intros R. inversion R as [n' a' NR|n' nm i' t' T' R']; subst; [contradiction (NR I)|].
        match goal with X : Z.of_nat _ = Z.of_nat _ |- _ => apply Nat2Z.inj in X; subst end. rewrite T in T'. invc T'. auto.
    + split; [constructor; cbn; auto|intros _; eexists; reflexivity].
Qed.

(** ** References of a signature *)

Lemma refers_below names e a : refers names e a -> below (length names) a.
Proof.
  revert e a. apply (refers_mind names (fun e a _ => below (length names) a) (fun es l _ => belows (length names) l));
    intros; constructor; auto. apply nth_error_Some. congruence.
Qed.
Lemma refers_ref names e a : refers names e a -> is_ref e <-> is_ref a.
Proof. intros [ ]; cbn; tauto. Qed.
Lemma refers_nameless names e a : refers names e a -> nameless e = e -> nameless a = a.
Proof. intros [ ] E; cbn in *; congruence. Qed.
Lemma stands_ref types e a : stands types e a -> is_ref e <-> is_ref a.
Proof. intros [ ]; cbn; tauto. Qed.

Lemma parse_nameless s e : parse_signature s = Ok e -> nameless e = e.
Proof.
  unfold parse_signature. intros E. inv_bind E. destruct a as [[e'|] [|c r]]; try discriminate. invc E.
  destruct s as [|c s]; [discriminate|]. replace (2 * length (c :: s) + 2)%nat with (S (2 * length (c :: s) + 1)) in Ha by lia.
  cbn [parse_sig] in Ha. destruct (c =? 123).
  - inv_bind Ha. destruct a as [es r]. invc Ha. reflexivity.
  - destruct (c =? 84).
    + inv_bind Ha. destruct a as [x r]. invc Ha. unfold parse_ref in Ha0. destruct (match_pair s 91 93) as [[d|] r]; [|discriminate].
      destruct (parse_str d) as [[nm|] [|y t]]; try discriminate; try (invc Ha0; reflexivity); inv_bind Ha0; invc Ha0; reflexivity.
    + destruct (char_code c) as [k|]; [|discriminate]. inv_bind Ha. destruct a as [x r]. invc Ha. unfold parse_prim in Ha0.
      inv_bind Ha0. destruct a as [[lo hi] r]. inv_bind Ha0. destruct a as [al r']. inv_bind Ha0. invc Ha0. reflexivity.
Qed.

Lemma attr_loop_str : forall fuel s a b, attr_loop fuel s a = Ok b -> pa_str b = pa_str a.
Proof.
  induction fuel as [|k IH]; intros s a b E; [discriminate|]. cbn [attr_loop] in E. destruct s as [|c s]; [invc E; reflexivity|].
  destruct (lstrip (c :: s)) as [|d r]; [discriminate|].
  destruct d as [|p|p]; try discriminate. do 7 (try (destruct p as [p|p|]; try discriminate)).
  - inv_bind E. destruct a0 as [v rest]. apply IH in E. exact E.
  - invc E. reflexivity.
  - apply IH in E. exact E.
Qed.
Lemma parse_port_attr_str t a : parse_port_attr t = Ok a -> pa_str a = t.
Proof. intros E. apply attr_loop_str in E. exact E. Qed.

Lemma make_type_inv n s attr d : make_type n s attr = Ok d ->
  exists e, parse_signature s = Ok e /\ type_attr_ok attr /\ d = mk_dtype n e attr None None.
Proof.
  unfold make_type. intros E. inv_bind E. inv_bind E. invc E. exists a. split; [exact Ha|]. split; [|reflexivity].
  destruct attr as [t|]; [|exact I]. exists a0. exact Ha0.
Qed.
Lemma make_port_inv pr n s attr p : make_port pr n s attr = Ok p ->
  exists e pa, parse_signature s = Ok e /\ port_attr_read attr pa /\ p = mk_port pr n e pa None.
Proof.
  unfold make_port. intros E. inv_bind E. inv_bind E. invc E. exists a, a0. split; [exact Ha|]. split; [|reflexivity].
  destruct attr as [t|]; [|invc Ha0; reflexivity]. inv_bind Ha0. invc Ha0. exists a1. auto.
Qed.

(** ** Frames *)

Lemma rep_frame W W' nd D : represents W nd D ->
  (forall o, In o (n_types nd) -> w_types W' o = w_types W o) ->
  (forall o, In o (n_provide nd ++ n_require nd) -> w_ports W' o = w_ports W o) ->
  (w_ntypes W <= w_ntypes W')%nat -> (w_nports W <= w_nports W')%nat -> represents W' nd D.
Proof.
  intros [A B C E F G I J K] T P LT LP. constructor; auto.
  - eapply Forall2_imp; [|exact B]. intros o t O _ X. unfold type_is in *. rewrite T by auto. exact X.
  - eapply Forall2_imp; [|exact C]. intros o t O _ X. unfold port_is in *. rewrite P by (apply in_or_app; auto). exact X.
  - eapply Forall2_imp; [|exact E]. intros o t O _ X. unfold port_is in *. rewrite P by (apply in_or_app; auto). exact X.
  - intros o O. apply J in O. lia.
  - intros o O. apply K in O. lia.
Qed.

Lemma rep_names W nd D : represents W nd D -> Forall2 (fun o nm => dt_name (w_types W o) = nm) (n_types nd) (type_names D).
Proof.
  intros R. pose proof (rp_types _ _ _ R) as F. unfold type_names. induction F as [|o t l m H F IH]; [constructor|].
  cbn [map]. constructor; [apply H|exact IH].
Qed.
Lemma rep_map_none W nd D nm : represents W nd D -> map_find nm (n_map nd) = None <-> ~ In nm (type_names D).
Proof.
  intros R. pose proof (rp_map _ _ _ R nm) as M. pose proof (rep_names _ _ _ R) as F. split.
  - intros E I. apply In_nth_error in I as [i I]. destruct (Forall2_nth_r _ _ _ _ _ F I) as (o & O & _).
    destruct (M o) as [_ M']. rewrite E in M'. discriminate M'. eauto.
  - intros N. destruct (map_find nm (n_map nd)) as [o|] eqn:E; [|reflexivity]. destruct (proj1 (M o) eq_refl) as (i & _ & I).
    exfalso. apply N. eapply nth_error_In; eauto.
Qed.

Lemma upd_same {A} (f : nat -> A) i x : upd_nat f i x i = x.
Proof. unfold upd_nat. rewrite Nat.eqb_refl. reflexivity. Qed.
Lemma upd_other {A} (f : nat -> A) i x j : j <> i -> upd_nat f i x j = f j.
Proof. unfold upd_nat. intros N. apply Nat.eqb_neq in N. rewrite N. reflexivity. Qed.

(** ** Growing definitions *)

Lemma reaches_more ts more k a : reaches ts k a -> reaches (ts ++ more) k a.
Proof.
  induction 1 as [|n nm i t E R IH]; [constructor; auto|]. eapply rc_step; [|exact IH].
  rewrite nth_error_app1; [exact E|]. apply nth_error_Some. congruence.
Qed.
Scheme below_mind := Induction for below Sort Prop with belows_mind := Induction for belows Sort Prop.
Lemma below_more i j a : (i <= j)%nat -> below i a -> below j a.
Proof.
  intros L. revert a. apply (below_mind i (fun a _ => below j a) (fun l _ => belows j l)); intros; constructor; auto. lia.
Qed.

Lemma NoDup_snoc {A} (l : list A) x : NoDup l -> ~ In x l -> NoDup (l ++ [x]).
Proof. intros N X. apply NoDup_Add with (a := x) (l := l); [|auto]. rewrite <- (app_nil_r l) at 1. apply Add_app. Qed.

Lemma linked_plus_type D n e a attr : linked D -> ~ In n (type_names D) -> refers (type_names D) e a -> nameless e = e ->
  reaches (df_types D) 10 a -> type_attr_ok attr -> linked (plus_type D (mk_tdef n a attr)).
Proof.
  intros [A B C E F G] N R NE RC T. assert (length (type_names D) = length (df_types D)) as LN by apply map_length.
  constructor.
  - unfold type_names, plus_type in *. cbn [df_types]. rewrite map_app. apply NoDup_snoc; auto.
  - cbn [plus_type df_types]. intros i t X. destruct (Nat.lt_ge_cases i (length (df_types D))) as [L|L].
    + rewrite nth_error_app1 in X by exact L. eauto.
    + rewrite nth_error_app2 in X by exact L. destruct (i - length (df_types D))%nat as [|k] eqn:I; [|destruct k; discriminate].
      cbn in X. invc X. cbn [td_elem]. replace i with (length (type_names D)) by lia. eapply refers_below; eauto.
  - cbn [plus_type df_types]. intros t I. apply in_app_or in I as [I|[<- | []]]; apply reaches_more; auto.
  - cbn [plus_type df_types]. intros t I. apply in_app_or in I as [I|[<- | []]]; auto. eapply refers_nameless; eauto.
  - cbn [plus_type df_types]. intros t x I X. apply in_app_or in I as [I|[<- | []]]; eauto. cbn [td_attr] in X. subst attr. exact T.
  - cbn [plus_type df_provide df_require]. intros p I. destruct (G p I) as (G1 & G2). split; [|exact G2].
    intros X. destruct (G1 X) as [G3 G4]. cbn [plus_type df_types]. split; [|apply reaches_more; auto].
    rewrite app_length. eapply below_more; [|exact G3]. lia.
Qed.

Lemma linked_plus_port pr D p : linked D -> good_port D p -> linked (plus_port pr D p).
Proof.
  intros [A B C E F G] P. destruct pr; constructor; auto; cbn [plus_port df_provide df_require]; intros q I.
  - rewrite <- app_assoc in I. apply in_app_or in I as [I|[<- | I]]; [apply G; apply in_or_app; auto|exact P|apply G; apply in_or_app; auto].
  - rewrite app_assoc in I. apply in_app_or in I as [I|[<- | []]]; [apply G; auto|exact P].
Qed.

Lemma stands_all_types types more ts H : Forall2 (type_is H types) types ts -> Forall2 (type_is H (types ++ more)) types ts.
Proof. apply Forall2_imp. intros o t _ _ (A & B & C). split; [exact A|]. split; [exact B|]. apply stands_more, C. Qed.
Lemma port_stands_more types more e a : port_stands types e a -> port_stands (types ++ more) e a.
Proof. intros [n r x S1|x N]; [constructor; apply stands_more, S1|constructor; exact N]. Qed.

Lemma nth_snoc {A} (l : list A) x i y : nth_error (l ++ [x]) i = Some y <->
  nth_error l i = Some y \/ (i = length l /\ x = y).
Proof.
  destruct (Nat.lt_ge_cases i (length l)) as [L|L].
  - rewrite nth_error_app1 by exact L. split; [auto|]. intros [H|[H _]]; [exact H|lia].
  - rewrite nth_error_app2 by exact L. split.
    + destruct (i - length l)%nat as [|k] eqn:I; [|destruct k; discriminate]. intros E. invc E. right. split; [lia|reflexivity].
    + intros [H|[-> ->]]; [apply nth_error_None in L; congruence|]. rewrite Nat.sub_diag. reflexivity.
Qed.

Lemma map_find_snoc nm m k o : map_find nm (m ++ [(k, o)]) =
  match map_find nm m with Some x => Some x | None => if opt_eqb k nm then Some o else None end.
Proof.
  unfold map_find. induction m as [|[k' o'] m IH]; cbn [app find fst]; [destruct (opt_eqb k nm); reflexivity|].
  destruct (opt_eqb k' nm); [reflexivity|exact IH].
Qed.

(** ** Adding a type *)

Lemma add_type_step W nd D o W' nd' o' : represents W nd D -> linked D ->
  (o < w_ntypes W)%nat -> ~ In o (n_types nd) -> as_parsed (dt_elem (w_types W o)) ->
  add_type W nd o = Ok (W', nd', o') ->
  (In (dt_name (w_types W o)) (type_names D) /\ W' = W /\ nd' = nd /\ In o' (n_types nd) /\ dt_name (w_types W o') = dt_name (w_types W o) /\
    verify_equal (type_string true (w_types W) (w_types W o')) (type_string true (w_types W) (w_types W o)) = Ok tt) \/
  (exists a e', ~ In (dt_name (w_types W o)) (type_names D) /\ refers (type_names D) (dt_elem (w_types W o)) a /\
    reaches (df_types D) 10 a /\ o' = o /\ W' = set_type W o (with_elem (w_types W o) e') /\
    nd' = mk_node (n_name nd) (n_final nd) (n_types nd ++ [o]) (n_require nd) (n_provide nd) (n_map nd ++ [(dt_name (w_types W o), o)]) /\
    represents W' nd' (plus_type D (mk_tdef (dt_name (w_types W o)) a (dt_attr (w_types W o))))).
Proof.
  intros R L OB ON AP E. unfold add_type in E.
  destruct (map_find (dt_name (w_types W o)) (n_map nd)) as [x|] eqn:M.
  - left. inv_bind E. invc E. apply (rp_map _ _ _ R) in M as (i & I & N). split; [eapply nth_error_In; eauto|].
    repeat split; auto; [eapply nth_error_In; eauto| |destruct a; exact Ha].
    destruct (Forall2_nth _ _ _ _ _ (rep_names _ _ _ R) I) as (y & Y & Z). congruence.
  - right. apply (rep_map_none _ _ _ _ R) in M. inv_bind E. destruct a as [e' d]. unfold resolve_sig in Ha. inv_bind Ha. inv_bind Ha.
    invc Ha. invc E. destruct (links _ _ _ (rep_names _ _ _ R) _ AP _ Ha0) as (a & RF & ST).
    pose proof (proj1 (follow _ _ _ (rp_types _ _ _ R) 10 _ _ ST) _ Ha1) as RC.
    exists a, e'. do 6 (split; [solve [auto]|]).
    destruct R as [A B C E F G I J K]. constructor; cbn [n_name n_types n_provide n_require n_map plus_type df_name df_types df_provide df_require]; auto.
    + apply Forall2_snoc.
      * eapply Forall2_imp; [|apply stands_all_types, B]. intros x t X _ T. unfold type_is in *. cbn [set_type w_types].
        rewrite upd_other by congruence. exact T.
      * unfold type_is. cbn [set_type w_types]. rewrite upd_same. cbn [with_elem dt_name dt_attr dt_elem td_name td_attr td_elem].
        split; [reflexivity|]. split; [reflexivity|]. apply stands_more, ST.
    + eapply Forall2_imp; [|exact C]. intros x t X _ (P1 & P2 & P3 & P4). repeat split; auto. apply port_stands_more, P4.
    + eapply Forall2_imp; [|exact E]. intros x t X _ (P1 & P2 & P3 & P4). repeat split; auto. apply port_stands_more, P4.
    + assert (length (n_types nd) = length (type_names D)) as LL by (unfold type_names; rewrite map_length; eapply Forall2_len; eauto).
      intros nm x. rewrite map_find_snoc. unfold type_names, plus_type in *. cbn [df_types]. rewrite map_app. cbn [map td_name]. split.
      * destruct (map_find nm (n_map nd)) as [y|] eqn:Y.
        -- intros X. invc X. apply F in Y as (i & I1 & I2). exists i. rewrite !nth_snoc. auto.
        -- destruct (opt_eqb (dt_name (w_types W o')) nm) eqn:Q; [|discriminate]. intros X. invc X. apply opt_eqb_eq in Q.
           exists (length (n_types nd)). rewrite !nth_snoc. auto.
      * intros (i & I1 & I2). rewrite !nth_snoc in *. destruct I1 as [I1|[-> ->]].
        -- destruct I2 as [I2|[-> <-]].
           ++ assert (map_find nm (n_map nd) = Some x) as -> by (apply F; eauto). reflexivity.
           ++ exfalso. assert (length (map td_name (df_types D)) < length (n_types nd))%nat by (apply nth_error_Some; congruence). lia.
        -- destruct I2 as [I2|[_ <-]].
           ++ exfalso. assert (length (n_types nd) < length (map td_name (df_types D)))%nat by (apply nth_error_Some; congruence). lia.
           ++ destruct (map_find (dt_name (w_types W x)) (n_map nd)) as [y|] eqn:Y.
              ** apply F in Y as (j & _ & J2). exfalso. apply M. eapply nth_error_In; eauto.
              ** replace (opt_eqb (dt_name (w_types W x)) (dt_name (w_types W x))) with true; [reflexivity|]. symmetry. apply opt_eqb_eq. reflexivity.
    + apply NoDup_snoc; auto.
    + intros x X. cbn [set_type w_ntypes]. apply in_app_or in X as [X|[<- | []]]; auto.
Qed.

Lemma add_type_ok W nd D o a : represents W nd D -> linked D ->
  ~ In (dt_name (w_types W o)) (type_names D) -> refers (type_names D) (dt_elem (w_types W o)) a -> reaches (df_types D) 10 a ->
  exists W' nd', add_type W nd o = Ok (W', nd', o).
Proof.
  intros R L M RF RC. unfold add_type. rewrite (proj2 (rep_map_none _ _ _ _ R) M).
  destruct (linkable _ _ _ (rep_names _ _ _ R) (ln_names _ L) _ _ RF) as (e' & E & ST).
  destruct (proj2 (follow _ _ _ (rp_types _ _ _ R) 10 _ _ ST) RC) as (d & RD).
  unfold resolve_sig. rewrite E. cbn [bind]. unfold resolve_data_element, MAX_RECURSE_DEPTH. rewrite RD. cbn [bind]. eauto.
Qed.

(** ** Adding a port *)

Definition port_found (D : ndef) (e a : delem) : Prop :=
  (is_ref e /\ refers (type_names D) e a /\ reaches (df_types D) 10 a) \/ (~ is_ref e /\ a = e).

Lemma resolve_port_step W nd D p p' : represents W nd D -> as_parsed (pt_elem p) -> resolve_port W (n_types nd) p = Ok p' ->
  exists a e', port_found D (pt_elem p) a /\ p' = with_pelem p e' /\ port_stands (n_types nd) e' a.
Proof.
  intros R AP E. unfold resolve_port in E. destruct (is_reference (pt_elem p)) eqn:IR.
  - inv_bind E. destruct a as [e' d]. invc E. unfold resolve_sig in Ha. inv_bind Ha. inv_bind Ha. invc Ha.
    destruct (links _ _ _ (rep_names _ _ _ R) _ AP _ Ha0) as (a & RF & ST).
    pose proof (proj1 (follow _ _ _ (rp_types _ _ _ R) 10 _ _ ST) _ Ha1) as RC.
    apply is_ref_bool in IR. exists a, e'. split; [left; auto|]. split; [reflexivity|].
    assert (is_ref e') as X. { apply (stands_ref _ _ _ ST), (refers_ref _ _ _ RF), IR. }
    destruct e' as [| |n r]; try contradiction. constructor. exact ST.
  - invc E. apply is_ref_false in IR. exists (pt_elem p'), (pt_elem p'). split; [right; auto|]. split; [destruct p'; reflexivity|].
    constructor; auto.
Qed.
Lemma resolve_port_ok W nd D p a : represents W nd D -> linked D -> port_found D (pt_elem p) a ->
  exists p', resolve_port W (n_types nd) p = Ok p'.
Proof.
  intros R L F. unfold resolve_port. destruct F as [(IR & RF & RC)|[NR ->]].
  - apply is_ref_bool in IR. rewrite IR.
    destruct (linkable _ _ _ (rep_names _ _ _ R) (ln_names _ L) _ _ RF) as (e' & E & ST).
    destruct (proj2 (follow _ _ _ (rp_types _ _ _ R) 10 _ _ ST) RC) as (d & RD).
    unfold resolve_sig. rewrite E. cbn [bind]. unfold resolve_data_element, MAX_RECURSE_DEPTH. rewrite RD. cbn [bind]. eauto.
  - apply is_ref_false in NR. rewrite NR. eauto.
Qed.

Lemma port_is_more W W' types pr o p : w_ports W' o = w_ports W o -> port_is W types pr o p -> port_is W' types pr o p.
Proof. unfold port_is. intros ->. auto. Qed.

Definition with_port (nd : node) (pr : bool) (o : nat) : node :=
  if pr then mk_node (n_name nd) (n_final nd) (n_types nd) (n_require nd) (n_provide nd ++ [o]) (n_map nd)
  else mk_node (n_name nd) (n_final nd) (n_types nd) (n_require nd ++ [o]) (n_provide nd) (n_map nd).

Lemma add_port_rep W nd D o p' a : represents W nd D -> (o < w_nports W)%nat -> ~ In o (n_provide nd ++ n_require nd) ->
  port_stands (n_types nd) (pt_elem p') a ->
  represents (set_port W o p') (with_port nd (pt_provide p') o) (plus_port (pt_provide p') D (mk_pdef (pt_name p') a (pt_attr p'))).
Proof.
  intros R OB ON ST.
  assert (NoDup ((n_provide nd ++ [o]) ++ n_require nd) /\ NoDup (n_provide nd ++ n_require nd ++ [o])) as [N1 N2].
  { split.
    - rewrite <- app_assoc. cbn [app]. apply NoDup_Add with (a := o) (l := n_provide nd ++ n_require nd); [apply Add_app|].
      split; [apply (rp_pdup _ _ _ R)|exact ON].
    - rewrite app_assoc. apply NoDup_snoc; [apply (rp_pdup _ _ _ R)|exact ON]. }
  assert (port_is (set_port W o p') (n_types nd) (pt_provide p') o (mk_pdef (pt_name p') a (pt_attr p'))) as X.
  { unfold port_is. cbn [set_port w_ports]. rewrite upd_same. auto. }
  assert (forall x pr q, In x (n_provide nd ++ n_require nd) -> port_is W (n_types nd) pr x q -> port_is (set_port W o p') (n_types nd) pr x q) as Y.
  { intros x pr q I P. eapply port_is_more; [|exact P]. cbn [set_port w_ports]. rewrite upd_other by congruence. reflexivity. }
  destruct R as [A B C E F G I J K].
  assert (Forall2 (port_is (set_port W o p') (n_types nd) true) (n_provide nd) (df_provide D)) as C'.
  { eapply Forall2_imp; [|exact C]. intros x q IX _. apply Y. apply in_or_app. auto. }
  assert (Forall2 (port_is (set_port W o p') (n_types nd) false) (n_require nd) (df_require D)) as E'.
  { eapply Forall2_imp; [|exact E]. intros x q IX _. apply Y. apply in_or_app. auto. }
  destruct (pt_provide p') eqn:PP; constructor; cbn [with_port n_name n_types n_provide n_require n_map plus_port df_name df_types df_provide df_require]; auto.
  - apply Forall2_snoc; auto.
  - intros x IX. cbn [set_port w_nports]. rewrite <- app_assoc in IX. apply in_app_or in IX as [IX|[<- | IX]]; auto; apply K, in_or_app; auto.
  - apply Forall2_snoc; auto.
  - intros x IX. cbn [set_port w_nports]. rewrite app_assoc in IX. apply in_app_or in IX as [IX|[<- | []]]; auto.
Qed.

Lemma add_port_shape W nd o W' nd' : add_port W nd o = Ok (W', nd') ->
  let p := w_ports W o in
  exists p', resolve_port W (n_types nd) (with_pid p (Some (len (if pt_provide p then n_provide nd else n_require nd)))) = Ok p' /\
    W' = set_port W o p' /\ nd' = with_port nd (pt_provide p) o.
Proof. cbv zeta. intros E. unfold add_port in E. inv_bind E. invc E. exists a. auto. Qed.

Lemma add_port_step W nd D o W' nd' : represents W nd D ->
  (o < w_nports W)%nat -> ~ In o (n_provide nd ++ n_require nd) -> as_parsed (pt_elem (w_ports W o)) ->
  add_port W nd o = Ok (W', nd') ->
  let p := w_ports W o in
  exists a e', port_found D (pt_elem p) a /\ nd' = with_port nd (pt_provide p) o /\
    W' = set_port W o (with_pelem (with_pid p (Some (len (if pt_provide p then n_provide nd else n_require nd)))) e') /\
    represents W' nd' (plus_port (pt_provide p) D (mk_pdef (pt_name p) a (pt_attr p))).
Proof.
  intros R OB ON AP E. cbv zeta. destruct (add_port_shape _ _ _ _ _ E) as (p' & RP & -> & ->).
  match type of RP with resolve_port _ _ ?q = _ => destruct (resolve_port_step W nd D q p' R AP RP) as (a & e' & F & -> & ST) end.
  exists a, e'. split; [exact F|]. split; [reflexivity|]. split; [reflexivity|].
  pose proof (add_port_rep W nd D o (with_pelem (with_pid (w_ports W o) (Some (len (if pt_provide (w_ports W o) then n_provide nd else n_require nd)))) e') a R OB ON ST) as X.
  exact X.
Qed.
Lemma add_port_ok W nd D o a : represents W nd D -> linked D -> port_found D (pt_elem (w_ports W o)) a ->
  exists W' nd', add_port W nd o = Ok (W', nd').
Proof.
  intros R L F. unfold add_port.
  destruct (resolve_port_ok W nd D (with_pid (w_ports W o) (Some (len (if pt_provide (w_ports W o) then n_provide nd else n_require nd)))) a R L F) as (p' & ->).
  cbn [bind]. eauto.
Qed.

Lemma numbered_add W nd o p' : numbered W nd -> ~ In o (n_provide nd ++ n_require nd) ->
  pt_id p' = Some (len (if pt_provide p' then n_provide nd else n_require nd)) ->
  numbered (set_port W o p') (with_port nd (pt_provide p') o).
Proof.
  intros [A B] ON I. assert (forall x, In x (n_provide nd ++ n_require nd) -> w_ports (set_port W o p') x = w_ports W x) as Y.
  { intros x IX. cbn [set_port w_ports]. apply upd_other. congruence. }
  assert (w_ports (set_port W o p') o = p') as Z by (cbn [set_port w_ports]; apply upd_same).
  destruct (pt_provide p') eqn:PP; split; cbn [with_port n_provide n_require]; intros i x N.
  - apply nth_snoc in N as [N|[-> <-]]; [rewrite Y by (apply in_or_app; left; eapply nth_error_In; eauto); auto|]. rewrite Z, I. reflexivity.
  - rewrite Y by (apply in_or_app; right; eapply nth_error_In; eauto). auto.
  - rewrite Y by (apply in_or_app; left; eapply nth_error_In; eauto). auto.
  - apply nth_snoc in N as [N|[-> <-]]; [rewrite Y by (apply in_or_app; right; eapply nth_error_In; eauto); auto|]. rewrite Z, I. reflexivity.
Qed.

Lemma refers_fun names : NoDup names -> forall e a, refers names e a -> forall b, refers names e b -> a = b.
Proof.
  intros N. apply (refers_mind names (fun e a _ => forall b, refers names e b -> a = b) (fun es l _ => forall m, refers_all names es m -> l = m)).
  - intros. inversion H; reflexivity.
  - intros n s i E b B. inversion B as [|n' s' j E'| | |]; subst. do 3 f_equal.
    rewrite NoDup_nth_error in N. apply N; [apply nth_error_Some; congruence|congruence].
  - intros n i I b B. inversion B as [| |n' j J E|n' j J E|]; subst; [reflexivity|]. exfalso. unfold len in *. lia.
  - intros n i I b B. inversion B as [| |n' j J E|n' j J E|]; subst; [exfalso; unfold len in *; lia|]. do 2 f_equal. lia.
  - intros n es l _ IH b B. inversion B; subst. f_equal. auto.
  - intros m M. inversion M; reflexivity.
  - intros e a es l _ IH1 _ IH2 m M. inversion M; subst. f_equal; auto.
Qed.
