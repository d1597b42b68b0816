From Coq Require Import ZifyBool ZifyNat Lia Sorted.
From Verif Require Import Py PyLemmas RmfModel FileModel FileMapSpec.
Ltac Zify.zify_post_hook ::= Z.div_mod_to_equations.

(** ** Bisection *)

Lemma div2_mid lo hi : (lo < hi)%nat -> (lo <= Nat.div2 (lo + hi) < hi)%nat.
Proof.
  intros H. pose proof (Nat.div2_odd (lo + hi)) as E. destruct (Nat.odd (lo + hi)); cbn [Nat.b2n] in E; lia.
Qed.

Lemma nth_app_lt l1 l2 i : (i < length l1)%nat -> nth i (l1 ++ l2) 0 = nth i l1 0.
Proof. intros; apply app_nth1; auto. Qed.

Lemma bisect_left_loop_split x l1 l2 fuel : forall lo hi,
  Forall (fun k => k < x) l1 -> Forall (fun k => x <= k) l2 ->
  (lo <= length l1 <= hi)%nat -> (hi <= length (l1 ++ l2))%nat -> (hi - lo < fuel)%nat ->
  bisect_left_loop fuel (l1 ++ l2) x lo hi = length l1.
Proof.
  induction fuel as [|fuel IH]; intros lo hi H1 H2 Hlo Hhi Hf; [lia|].
  cbn [bisect_left_loop]. destruct (Nat.ltb_spec lo hi); [|lia].
  pose proof (div2_mid lo hi H) as Hm. set (mid := Nat.div2 (lo + hi)) in *. clearbody mid.
  rewrite Forall_forall in H1, H2.
  destruct (le_lt_dec (length l1) mid) as [L|L].
  - rewrite app_nth2 by auto. rewrite app_length in Hhi.
    assert (x <= nth (mid - length l1) l2 0) by (apply H2, nth_In; lia).
    replace (nth (mid - length l1) l2 0 <? x) with false by lia.
    apply IH; try lia; try (apply Forall_forall; auto). rewrite app_length; lia.
  - rewrite app_nth1 by auto.
    assert (nth mid l1 0 < x) by (apply H1, nth_In; lia).
    replace (nth mid l1 0 <? x) with true by lia.
    apply IH; try lia; try (apply Forall_forall; auto).
Qed.

Lemma bisect_left_split x l1 l2 :
  Forall (fun k => k < x) l1 -> Forall (fun k => x <= k) l2 -> bisect_left (l1 ++ l2) x = length l1.
Proof.
  intros. unfold bisect_left. apply bisect_left_loop_split; auto; rewrite ?app_length; lia.
Qed.

Lemma bisect_right_loop_split x l1 l2 fuel : forall lo hi,
  Forall (fun k => k <= x) l1 -> Forall (fun k => x < k) l2 ->
  (lo <= length l1 <= hi)%nat -> (hi <= length (l1 ++ l2))%nat -> (hi - lo < fuel)%nat ->
  bisect_right_loop fuel (l1 ++ l2) x lo hi = length l1.
Proof.
  induction fuel as [|fuel IH]; intros lo hi H1 H2 Hlo Hhi Hf; [lia|].
  cbn [bisect_right_loop]. destruct (Nat.ltb_spec lo hi); [|lia].
  pose proof (div2_mid lo hi H) as Hm. set (mid := Nat.div2 (lo + hi)) in *. clearbody mid.
  rewrite Forall_forall in H1, H2.
  destruct (le_lt_dec (length l1) mid) as [L|L].
  - rewrite app_nth2 by auto. rewrite app_length in Hhi.
    assert (x < nth (mid - length l1) l2 0) by (apply H2, nth_In; lia).
    replace (x <? nth (mid - length l1) l2 0) with true by lia.
    apply IH; try lia; try (apply Forall_forall; auto). rewrite app_length; lia.
  - rewrite app_nth1 by auto.
    assert (nth mid l1 0 <= x) by (apply H1, nth_In; lia).
    replace (x <? nth mid l1 0) with false by lia.
    apply IH; try lia; try (apply Forall_forall; auto).
Qed.

Lemma bisect_right_split x l1 l2 :
  Forall (fun k => k <= x) l1 -> Forall (fun k => x < k) l2 -> bisect_right (l1 ++ l2) x = length l1.
Proof.
  intros. unfold bisect_right. apply bisect_right_loop_split; auto; rewrite ?app_length; lia.
Qed.

(** ** Lists of files in address order *)

Definition addr (H : heap) (i : nat) : Z := match f_address (H i) with Some a => a | None => 0 end.
Definition fend (H : heap) (i : nat) : Z := addr H i + f_length (H i).

Lemma map_ok_keys H m : map_ok H m -> m_keys m = map (addr H) (m_items m).
Proof.
  intros [F _]. induction F; auto. cbn [map]. f_equal; auto. unfold addr. rewrite H0. auto.
Qed.

Lemma map_ok_addr H m i : map_ok H m -> In i (m_items m) -> f_address (H i) = Some (addr H i).
Proof.
  intros [F _] Hi. induction F; [destruct Hi|]. destruct Hi as [<-|Hi]; auto.
  unfold addr. rewrite H0. auto.
Qed.

Lemma FOP_app {A} (R : A -> A -> Prop) l1 l2 :
  ForallOrdPairs R (l1 ++ l2) <->
  ForallOrdPairs R l1 /\ ForallOrdPairs R l2 /\ (forall x y, In x l1 -> In y l2 -> R x y).
Proof.
  induction l1 as [|a l1 IH]; cbn [app].
  - split; [intros; repeat split; auto; [constructor | intros ? ? []] | tauto].
  - split.
    + intros F. invc F. rewrite IH in H2. destruct H2 as (A1 & A2 & A3).
      rewrite Forall_app in H1. destruct H1 as [B1 B2]. repeat split; auto.
      * constructor; auto.
      * intros x y [<-|Hx] Hy; auto. rewrite Forall_forall in B2. auto.
    + intros (F1 & F2 & F3). invc F1. constructor.
      * rewrite Forall_app. split; auto. apply Forall_forall. intros; apply F3; cbn; auto.
      * apply IH. repeat split; auto. intros; apply F3; cbn; auto.
Qed.

Lemma before_iff H i j a b : f_address (H i) = Some a -> f_address (H j) = Some b ->
  (before H i j <-> a + f_length (H i) <= b).
Proof.
  intros Ha Hb. unfold before, range. split.
  - intros (a' & b' & n & [E1 E2] & E3 & L). rewrite E1 in Ha. rewrite E3 in Hb. invc Ha. invc Hb. auto.
  - intros. eexists _, _, _. repeat split; eauto.
Qed.

(** Every threshold cuts the ordered items in two. *)
Lemma cut H x items :
  ForallOrdPairs (before H) items -> Forall (fun i => 0 < f_length (H i)) items ->
  (forall i, In i items -> f_address (H i) = Some (addr H i)) ->
  exists l1 l2, items = l1 ++ l2 /\ Forall (fun i => addr H i < x) l1 /\ Forall (fun i => x <= addr H i) l2.
Proof.
  induction items as [|i items IH]; intros F P A.
  - exists [], []. auto.
  - invc F. invc P. destruct (Z.ltb_spec (addr H i) x).
    + destruct IH as (l1 & l2 & -> & B1 & B2); auto. { intros; apply A; cbn; auto. }
      exists (i :: l1), l2. repeat split; auto.
    + exists [], (i :: items). repeat split; auto. constructor; auto.
      rewrite Forall_forall in *. intros j Hj. specialize (H2 j Hj).
      rewrite (before_iff H i j (addr H i) (addr H j)) in H2; try (apply A; cbn; auto).
      lia.
Qed.

Lemma map_ok_cut H m x : map_ok H m ->
  exists l1 l2, m_items m = l1 ++ l2 /\ Forall (fun i => addr H i < x) l1 /\ Forall (fun i => x <= addr H i) l2 /\
  bisect_left (m_keys m) x = length l1.
Proof.
  intros Hok. destruct (cut H x (m_items m)) as (l1 & l2 & E & F1 & F2); try apply Hok.
  { intros. apply (map_ok_addr H m); auto. }
  exists l1, l2. repeat split; auto. rewrite (map_ok_keys _ _ Hok), E, map_app.
  rewrite bisect_left_split; [apply map_length| |]; apply Forall_map; auto.
Qed.

Lemma map_ok_len H m : map_ok H m -> length (m_keys m) = length (m_items m).
Proof. intros. rewrite (map_ok_keys H m) by auto. apply map_length. Qed.

Lemma map_ok_build H items ks :
  (forall i, In i items -> f_address (H i) = Some (addr H i)) ->
  ks = map (addr H) items ->
  ForallOrdPairs (before H) items -> Forall (fun i => 0 < f_length (H i)) items -> map_ok H (mk_fmap ks items).
Proof.
  intros A -> F P. repeat split; auto. cbn. clear F P. induction items; cbn; constructor; auto.
  - apply A; cbn; auto.
  - apply IHitems. intros; apply A; cbn; auto.
Qed.

Lemma map_ok_before H m l1 l2 i j :
  map_ok H m -> m_items m = l1 ++ l2 -> In i l1 -> In j l2 -> fend H i <= addr H j.
Proof.
  intros Hok E Hi Hj. pose proof Hok as (_ & F & _). rewrite E in F. apply FOP_app in F as (_ & _ & F).
  specialize (F i j Hi Hj).
  rewrite (before_iff H i j (addr H i) (addr H j)) in F; auto;
    apply (map_ok_addr H m); auto; rewrite E; apply in_or_app; auto.
Qed.

(** ** Heap updates that leave the places alone *)

Definition same_place (H H' : heap) (l : list nat) : Prop :=
  forall j, In j l -> f_address (H' j) = f_address (H j) /\ f_length (H' j) = f_length (H j).

Lemma FOP_impl {A} (R R' : A -> A -> Prop) l :
  (forall x y, In x l -> In y l -> R x y -> R' x y) -> ForallOrdPairs R l -> ForallOrdPairs R' l.
Proof.
  intros Hi F. induction F; constructor.
  - apply Forall_forall. intros x Hx. rewrite Forall_forall in H. apply Hi; cbn; auto.
  - apply IHF. intros; apply Hi; cbn; auto.
Qed.

Lemma Forall2_impl_in {A B} (R R' : A -> B -> Prop) l l' :
  (forall x y, In y l' -> R x y -> R' x y) -> Forall2 R l l' -> Forall2 R' l l'.
Proof.
  intros Hi F. induction F; constructor; auto.
  - apply Hi; cbn; auto.
  - apply IHF. intros; apply Hi; cbn; auto.
Qed.

Lemma map_ok_same H H' m : same_place H H' (m_items m) -> map_ok H m -> map_ok H' m.
Proof.
  intros S (F1 & F2 & F3). split; [|split].
  - eapply Forall2_impl_in; [|exact F1]. intros k i Hi E. cbn beta in *. destruct (S i Hi) as [-> _]. auto.
  - eapply FOP_impl; [|exact F2]. intros i j Hi Hj (a & b & n & [E1 E2] & E3 & L).
    exists a, b, n. unfold range. destruct (S i Hi) as [-> ->]. destruct (S j Hj) as [-> _]. auto.
  - rewrite Forall_forall in *. intros i Hi. destruct (S i Hi) as [_ ->]. auto.
Qed.

Lemma upd_same H i f : upd H i f i = f.
Proof. unfold upd. rewrite Nat.eqb_refl. auto. Qed.

Lemma upd_other H i f j : j <> i -> upd H i f j = H j.
Proof. unfold upd. intros. destruct (Nat.eqb_spec j i); congruence. Qed.

(** ** Inserting *)

(** Where a range that touches no file goes. *)
Lemma insert_between H m i k l1 l2 f :
  map_ok H m -> ~ In i (m_items m) -> 0 < f_length f ->
  m_items m = l1 ++ l2 -> f_address f = Some k ->
  (forall j, In j l1 -> fend H j <= k) -> (forall j, In j l2 -> k + f_length f <= addr H j) ->
  bisect_left (m_keys m) k = length l1 /\
  map_ok (upd H i f)
    (mk_fmap (insert_at (bisect_left (m_keys m) k) k (m_keys m)) (insert_at (bisect_left (m_keys m) k) i (m_items m))) /\
  insert_at (bisect_left (m_keys m) k) i (m_items m) = l1 ++ i :: l2.
Proof.
  intros Hok Hi Hn E Hk H1 H2. pose proof Hok as (_ & _ & P). rewrite Forall_forall in P.
  assert (B : bisect_left (m_keys m) k = length l1).
  { rewrite (map_ok_keys _ _ Hok), E, map_app, bisect_left_split; [apply map_length| |];
      apply Forall_map, Forall_forall; intros j Hj.
    - specialize (H1 j Hj). unfold fend in H1. specialize (P j). rewrite E in P.
      specialize (P (in_or_app _ _ _ (or_introl Hj))). lia.
    - specialize (H2 j Hj). lia. }
  assert (I1 : insert_at (length l1) i (m_items m) = l1 ++ i :: l2).
  { unfold insert_at. rewrite E, firstn_app, skipn_app, Nat.sub_diag, firstn_all, skipn_all. cbn.
    rewrite app_nil_r. auto. }
  rewrite B. split; auto. split; auto. rewrite I1.
  assert (N : forall j, In j (l1 ++ l2) -> j <> i) by (intros j Hj ->; apply Hi; rewrite E; auto).
  assert (A : forall j, In j (l1 ++ l2) -> upd H i f j = H j) by (intros; apply upd_other; auto).
  assert (A2 : forall j, In j (l1 ++ l2) -> addr (upd H i f) j = addr H j).
  { intros. unfold addr. rewrite A; auto. }
  assert (Ai : addr (upd H i f) i = k) by (unfold addr; rewrite upd_same, Hk; auto).
  assert (AA : forall j, In j (l1 ++ i :: l2) -> f_address (upd H i f j) = Some (addr (upd H i f) j)).
  { intros j Hj. destruct (Nat.eq_dec j i) as [->|Hne]. { rewrite Ai, upd_same. auto. }
    assert (Hj' : In j (l1 ++ l2)). { rewrite in_app_iff in *. destruct Hj as [|[|]]; auto. congruence. }
    rewrite A2, A by auto. apply (map_ok_addr H m); auto. rewrite E; auto. }
  apply map_ok_build; auto.
  - unfold insert_at. rewrite (map_ok_keys _ _ Hok), E, map_app.
    rewrite firstn_app, skipn_app, map_length, Nat.sub_diag.
    rewrite firstn_all2, skipn_all2 by (rewrite map_length; auto). cbn [firstn skipn app].
    rewrite app_nil_r. rewrite map_app. cbn [map]. rewrite Ai.
    f_equal; [|f_equal]; apply map_ext_in; intros; symmetry; apply A2, in_or_app; auto.
  - pose proof Hok as (_ & F & _). rewrite E in F. apply FOP_app in F as (F1 & F2 & F3).
    assert (T : forall x y, In x (l1 ++ l2) -> In y (l1 ++ l2) -> before H x y -> before (upd H i f) x y).
    { intros x y Hx Hy (a & b & n & R1 & R2 & L). exists a, b, n. unfold range. rewrite !A by auto. auto. }
    apply FOP_app. repeat split.
    + eapply FOP_impl; [|exact F1]. intros; apply T; auto; apply in_or_app; auto.
    + constructor.
      * apply Forall_forall. intros j Hj. apply (before_iff _ _ _ k (addr (upd H i f) j)).
        { rewrite upd_same; auto. } { apply AA, in_or_app; cbn; auto. }
        rewrite upd_same, A2 by (apply in_or_app; auto). auto.
      * eapply FOP_impl; [|exact F2]. intros; apply T; auto; apply in_or_app; auto.
    + intros x y Hx [<-|Hy].
      * apply (before_iff _ _ _ (addr (upd H i f) x) k). { apply AA, in_or_app; auto. } { rewrite upd_same; auto. }
        rewrite A2, A by (apply in_or_app; auto). apply H1; auto.
      * apply T; auto; apply in_or_app; auto.
  - apply Forall_forall. intros j Hj. destruct (Nat.eq_dec j i) as [->|Hne]. { rewrite upd_same. auto. }
    assert (Hj' : In j (l1 ++ l2)). { rewrite in_app_iff in *. destruct Hj as [|[|]]; auto. congruence. }
    rewrite A by auto. apply P. rewrite E; auto.
Qed.

Lemma land_lnot_align v k : 0 <= k -> Z.land v (Z.lnot (2 ^ k - 1)) = v - v mod 2 ^ k.
Proof.
  intros Hk. replace (2 ^ k - 1) with (Z.ones k) by (rewrite Z.ones_equiv; lia).
  rewrite <- Z.ldiff_land, Z.ldiff_ones_r, Z.shiftl_mul_pow2, Z.shiftr_div_pow2 by auto.
  pose proof (Z.div_mod v (2 ^ k)). assert (0 < 2 ^ k) by (apply Z.pow_pos_nonneg; lia). lia.
Qed.

Lemma aligned_up_land b k x : b = 2 ^ k -> 0 <= k -> aligned_up b x (Z.land (x + b - 1) (Z.lnot (b - 1))).
Proof.
  intros -> Hk. rewrite land_lnot_align by auto.
  assert (0 < 2 ^ k) by (apply Z.pow_pos_nonneg; lia). set (b := 2 ^ k) in *. clearbody b.
  pose proof (Z.mod_pos_bound (x + b - 1) b ltac:(lia)).
  split; [|lia].
  rewrite Zminus_mod_idemp_r, Z.sub_diag. apply Z.mod_0_l. lia.
Qed.

(** The backward search on a cut map. *)
Lemma placement_loop_skip H s e b l3 l :
  Forall (fun i => f_address (H i) = Some (addr H i) /\ s <= addr H i /\ e <= addr H i) l3 ->
  placement_loop H (l3 ++ l) s e b = placement_loop H l s e b.
Proof.
  induction 1 as [|i l3 (A & B & C) _ IH]; auto. cbn [app placement_loop]. rewrite A.
  replace (addr H i <? s) with false by lia. replace (addr H i <? e) with false by lia. auto.
Qed.

Inductive placement (H : heap) (m : fmap) (s e b : Z) : option Z -> Prop :=
| PEmpty : m_items m = [] -> placement H m s e b (Some s)
| PLast j p : last_in H m s e j -> aligned_up b (fend H j) p -> placement H m s e b (Some p)
| PFirst j : In j (m_items m) -> addr H j < s ->
    (forall j', In j' (m_items m) -> addr H j' < s \/ e <= addr H j') -> placement H m s e b (Some s)
| PUnbound : m_items m <> [] -> (forall j, In j (m_items m) -> e <= addr H j) -> placement H m s e b None.

Lemma assign_outcome H m f s e b k :
  map_ok H m -> (s = 0 \/ Z.land s (s - 1) = 0) -> s <= e -> b = 2 ^ k -> 0 <= k -> Z.land b (b - 1) = 0 ->
  exists pl, placement H m s e b pl /\
  assignFileAddress H m f s e b =
    match pl with
    | None => Err UnboundLocalError
    | Some p => if p + f_length f <=? e then Ok p else Err ValueError
    end.
Proof.
  intros Hok Hs He Hb Hk Hb2. unfold assignFileAddress.
  replace (negb (s =? 0) && negb (Z.land s (s - 1) =? 0)) with false by lia.
  replace (e <? s) with false by lia. rewrite Hb2. cbn [Z.eqb negb].
  unfold len. rewrite (map_ok_len _ _ Hok).
  destruct (m_items m) as [|i0 rest] eqn:Ei.
  { cbn. exists (Some s). split; [apply PEmpty; auto|]. auto. }
  rewrite <- Ei in *.
  assert (Hne : m_items m <> []) by congruence.
  assert (Hl : (0 < length (m_items m))%nat) by (rewrite Ei; cbn; lia). clear Ei.
  replace (Z.of_nat (length (m_items m)) =? 0) with false by lia.
  destruct (map_ok_cut H m e Hok) as (l12 & l3 & E & F12 & F3 & B). rewrite B.
  assert (Ad : forall i, In i (m_items m) -> f_address (H i) = Some (addr H i)) by (intros; apply (map_ok_addr H m); auto).
  assert (Q : placement_loop H (rev (firstn (S (if (length (m_items m) <=? length l12)%nat
      then (length (m_items m) - 1)%nat else length l12)) (m_items m))) s e b =
    placement_loop H (rev l12) s e b).
  { destruct l3 as [|j l3].
    - rewrite app_nil_r in E. rewrite E, Nat.leb_refl.
      replace (S (length l12 - 1)) with (length l12) by (rewrite E in Hl; lia). rewrite firstn_all. auto.
    - replace (length (m_items m) <=? length l12)%nat with false
        by (symmetry; apply Nat.leb_gt; rewrite E, app_length; cbn; lia).
      replace (firstn (S (length l12)) (m_items m)) with (l12 ++ [j]).
      + rewrite rev_app_distr. cbn [rev app]. change (j :: rev l12) with ([j] ++ rev l12).
        apply placement_loop_skip. constructor; auto. invc F3. split; [|lia].
        apply Ad. rewrite E. apply in_or_app; cbn; auto.
      + rewrite E, firstn_app. replace (S (length l12) - length l12)%nat with 1%nat by lia.
        rewrite firstn_all2 by lia. auto. }
  rewrite Q. clear Q B.
  destruct (rev l12) as [|j r] eqn:Er.
  - assert (l12 = []) by (rewrite <- (rev_involutive l12), Er; auto). subst l12.
    exists None. split; [|reflexivity]. apply PUnbound; auto. cbn in E. rewrite E.
    rewrite Forall_forall in F3. auto.
  - assert (E12 : l12 = rev r ++ [j]) by (rewrite <- (rev_involutive l12), Er; auto).
    assert (Hj : In j l12) by (rewrite E12; apply in_or_app; cbn; auto).
    assert (Hjm : In j (m_items m)) by (rewrite E; apply in_or_app; auto).
    assert (Hje : addr H j < e) by (rewrite Forall_forall in F12; auto).
    assert (Mx : forall j', In j' l12 -> addr H j' <= addr H j).
    { intros j' Hj'. rewrite E12 in Hj'. apply in_app_or in Hj' as [Hj'|[<-|[]]]; [|lia].
      pose proof (map_ok_before H m (rev r) (j :: l3) j' j Hok) as X.
      pose proof Hok as (_ & _ & P). rewrite Forall_forall in P. specialize (P j').
      unfold fend in X. rewrite E, E12 in P. rewrite E, E12, <- app_assoc in X.
      specialize (X eq_refl Hj' (or_introl eq_refl)).
      specialize (P ltac:(rewrite !in_app_iff; auto)). lia. }
    cbn [placement_loop]. rewrite Ad by auto.
    destruct (Z.ltb_spec (addr H j) s).
    + exists (Some s). split; [|reflexivity]. eapply PFirst; eauto.
      intros j' Hj'. rewrite E in Hj'. apply in_app_or in Hj' as [Hj'|Hj'].
      * left. specialize (Mx j' Hj'). lia.
      * right. rewrite Forall_forall in F3. auto.
    + replace (addr H j <? e) with true by lia. eexists (Some _). split; [|reflexivity].
      apply PLast with j.
      * split; auto. exists (addr H j). repeat split; auto; try lia.
        intros j' a' Hj' Ea' La'. assert (a' = addr H j') as -> by (unfold addr; rewrite Ea'; auto).
        rewrite E in Hj'. apply in_app_or in Hj' as [Hj'|Hj']; auto.
        rewrite Forall_forall in F3. specialize (F3 j' Hj'). lia.
      * apply (aligned_up_land b k); auto.
Qed.

(** The region arguments that [_assignFileAddressDefault] passes. *)
Lemma default_region H m f s e b :
  region_for (f_name f) s e b -> assignFileAddressDefault H m f = assignFileAddress H m f s e b.
Proof.
  intros R. unfold assignFileAddressDefault.
  destruct (ends_with (lit ".in") (f_name f)) eqn:E1, (ends_with (lit ".out") (f_name f)) eqn:E2,
    (ends_with (lit ".apx") (f_name f)) eqn:E3; cbn [orb];
  rewrite <- ?not_true_iff_false, ?ends_with_spec in *; destruct R as [R | R1 R2 R3 | R1 R2 R3]; try tauto; reflexivity.
Qed.

Lemma region_exists name : exists s e b, region_for name s e b.
Proof.
  destruct (ends_with (lit ".in") name) eqn:E1; rewrite <- ?not_true_iff_false, ?ends_with_spec in E1.
  { do 3 eexists. apply RPort. auto. }
  destruct (ends_with (lit ".out") name) eqn:E2; rewrite <- ?not_true_iff_false, ?ends_with_spec in E2.
  { do 3 eexists. apply RPort. auto. }
  destruct (ends_with (lit ".apx") name) eqn:E3; rewrite <- ?not_true_iff_false, ?ends_with_spec in E3.
  { do 3 eexists. apply RDef; auto. }
  do 3 eexists. apply RUser; auto.
Qed.

Lemma region_facts name s e b : region_for name s e b ->
  (s = 0 \/ Z.land s (s - 1) = 0) /\ s <= e /\ Z.land b (b - 1) = 0 /\ s mod b = 0 /\ 0 <= s /\ 0 < b /\
  (exists k, 0 <= k /\ b = 2 ^ k) /\
  ((s = 0 /\ e = 0x4000000) \/ (s = 0x4000000 /\ e = 0x20000000) \/ (s = 0x20000000 /\ e = 0x3FFFFC00)).
Proof.
  intros []; (split; [try (left; reflexivity); right; reflexivity|]); (split; [lia|]);
   (split; [reflexivity|]); (split; [reflexivity|]); (split; [lia|]); (split; [lia|]); split; try tauto.
  - exists 10. split; [lia|reflexivity].
  - exists 20. split; [lia|reflexivity].
  - exists 20. split; [lia|reflexivity].
Qed.

Lemma region_fun name s e b s' e' b' :
  region_for name s e b -> region_for name s' e' b' -> s = s' /\ e = e' /\ b = b'.
Proof. intros [] []; tauto. Qed.

(** Any placement is free. *)
Lemma placement_free H m s e b p n :
  map_ok H m -> no_straddle H m -> 0 < n -> s mod b = 0 -> 0 < b ->
  ((s = 0 /\ e = 0x4000000) \/ (s = 0x4000000 /\ e = 0x20000000) \/ (s = 0x20000000 /\ e = 0x3FFFFC00)) ->
  placement H m s e b (Some p) -> p + n <= e ->
  s <= p /\ p mod b = 0 /\
  exists l1 l2, m_items m = l1 ++ l2 /\ (forall j, In j l1 -> fend H j <= p) /\ (forall j, In j l2 -> p + n <= addr H j).
Proof.
  intros Hok Hns Hn Hsb Hb Hreg Hp He.
  destruct (map_ok_cut H m e Hok) as (l1 & l2 & E & F1 & F2 & _). rewrite Forall_forall in F1, F2.
  assert (Hin : forall j, In j l1 -> In j (m_items m)) by (intros; rewrite E; apply in_or_app; auto).
  assert (St : forall j, In j (m_items m) -> 0 <= addr H j /\
    (addr H j < 0x4000000 -> fend H j <= 0x4000000) /\ (addr H j < 0x20000000 -> fend H j <= 0x20000000)).
  { intros j Hj. apply (Hns j (addr H j) (f_length (H j)) Hj). split; auto. apply (map_ok_addr H m); auto. }
  assert (Lo : forall j, In j (m_items m) -> addr H j < s -> fend H j <= s).
  { intros j Hj Hs. destruct (St j Hj) as (S0 & S1 & S2).
    destruct Hreg as [[-> _]|[[-> _]|[-> _]]]; [lia| |]; auto. }
  assert (Res : s <= p /\ p mod b = 0 /\ (forall j, In j l1 -> fend H j <= p)).
  { inversion Hp as [Em Ep | j p' Hlast Hal Ep | j Hj Hjs Hall Ep |]; clear Hp; subst.
    - split; [lia|]. split; auto. intros j Hj. apply Hin in Hj. rewrite Em in Hj. destruct Hj.
    - destruct Hal as [Hal1 Hal2]. destruct Hlast as (Hj & a & Ha & Hr & Hmax).
      assert (addr H j = a) as Eaj by (unfold addr; rewrite Ha; auto).
      pose proof Hok as (_ & _ & P). rewrite Forall_forall in P. pose proof (P j Hj).
      unfold fend in Hal2. repeat split; auto; try lia.
      intros j' Hj'. destruct (Nat.eq_dec j' j) as [->|Hne]; [unfold fend; lia|].
      assert (fend H j' <= addr H j); [|lia].
      specialize (Hmax j' (addr H j') (Hin j' Hj') (map_ok_addr H m j' Hok (Hin j' Hj')) (F1 j' Hj')).
      assert (Hj1 : In j l1).
      { rewrite E in Hj. apply in_app_or in Hj as [Hj|Hj]; auto. specialize (F2 j Hj). lia. }
      pose proof Hok as (_ & F & _). rewrite E in F. apply FOP_app in F as (F & _).
      assert (before H j' j \/ before H j j').
      { clear - F Hj1 Hj' Hne. induction F; [destruct Hj1|]. rewrite Forall_forall in H0.
        destruct Hj1 as [<-|Hj1], Hj' as [<-|Hj']; auto. congruence. }
      rewrite !(before_iff H _ _ _ _ (map_ok_addr H m _ Hok (Hin _ Hj')) (map_ok_addr H m _ Hok (Hin _ Hj1))) in H1.
      rewrite !(before_iff H _ _ _ _ (map_ok_addr H m _ Hok (Hin _ Hj1)) (map_ok_addr H m _ Hok (Hin _ Hj'))) in H1.
      unfold fend. pose proof (P j' (Hin _ Hj')). lia.
    - split; [lia|]. split; auto. intros j' Hj'. apply Lo; auto.
      destruct (Hall j' (Hin _ Hj')); auto. specialize (F1 j' Hj'). lia. }
  destruct Res as (R1 & R2 & R3). split; auto. split; auto. exists l1, l2. repeat split; auto.
  intros j Hj. specialize (F2 j Hj). lia.
Qed.

Lemma with_address_info f a :
  f_address (with_address f a) = a /\ f_length (with_address f a) = f_length f /\
  f_name (with_address f a) = f_name f /\ f_kind (with_address f a) = f_kind f.
Proof. repeat split. Qed.

(** Inserting a file whose address is left to the map. *)
Lemma insert_auto H m i s e b :
  map_ok H m -> is_apx_file (H i) = true -> f_address (H i) = None -> region_for (f_name (H i)) s e b ->
  exists pl, placement H m s e b pl /\
  match pl with
  | None => insert H m i = Err UnboundLocalError
  | Some p =>
    if p + f_length (H i) <=? e then
      insert H m i = Ok (upd H i (with_address (H i) (Some p)),
        mk_fmap (insert_at (bisect_left (m_keys m) p) p (m_keys m))
                (insert_at (bisect_left (m_keys m) p) i (m_items m)))
    else insert H m i = Err ValueError
  end.
Proof.
  intros Hok Hk Ha R. destruct (region_facts _ _ _ _ R) as (Q1 & Q2 & Q3 & Q4 & Q5 & Q6 & (k & Q7 & Q8) & _).
  destruct (assign_outcome H m (H i) s e b k Hok Q1 Q2 Q8 Q7 Q3) as (pl & Hp & E).
  exists pl. split; auto. unfold insert. rewrite Hk, Ha, (default_region _ _ _ _ _ _ R), E. cbn [negb].
  destruct pl as [p|]; auto. destruct (p + f_length (H i) <=? e); auto.
Qed.

Lemma insert_auto_ok H m i H' m' :
  map_ok H m -> no_straddle H m -> f_address (H i) = None -> 0 < f_length (H i) ->
  insert H m i = Ok (H', m') ->
  map_ok H' m' /\ no_straddle H' m' /\ well_placed H' i /\
  (forall j, j <> i -> H' j = H j) /\
  exists p l1 l2, H' i = with_address (H i) (Some p) /\ m_items m = l1 ++ l2 /\ m_items m' = l1 ++ i :: l2.
Proof.
  intros Hok Hns Ha Hn Hins.
  destruct (region_exists (f_name (H i))) as (s & e & b & R).
  destruct (is_apx_file (H i)) eqn:Hk; [|unfold insert in Hins; rewrite Hk in Hins; discriminate].
  destruct (insert_auto H m i s e b Hok Hk Ha R) as (pl & Hp & E).
  destruct pl as [p|]; [|congruence].
  destruct (Z.leb_spec (p + f_length (H i)) e) as [Le|]; [|congruence].
  rewrite Hins in E. invc E.
  destruct (region_facts _ _ _ _ R) as (Q1 & Q2 & Q3 & Q4 & Q5 & Q6 & _ & Q9).
  destruct (placement_free H m s e b p (f_length (H i)) Hok Hns Hn Q4 Q6 Q9 Hp Le) as (P1 & P2 & l1 & l2 & E & F1 & F2).
  assert (Hi : ~ In i (m_items m)).
  { intros Hi. rewrite (map_ok_addr H m i Hok Hi) in Ha. discriminate. }
  destruct (insert_between H m i p l1 l2 (with_address (H i) (Some p)) Hok Hi Hn E eq_refl F1 F2) as (B & M & I).
  split; auto. split; [|split; [|split]].
  - intros j a n Hj [Ea En]. cbn [m_items] in Hj. rewrite I in Hj.
    destruct (Nat.eq_dec j i) as [->|Hne].
    + rewrite upd_same in Ea, En. cbn in Ea, En. invc Ea. unfold f_length in Le. lia.
    + rewrite upd_other in Ea, En by auto. apply (Hns j a n); [|split; auto].
      rewrite E. rewrite !in_app_iff in *. destruct Hj as [|[|]]; auto. congruence.
  - intros s' e' b' R'. rewrite upd_same in R'. destruct (region_fun _ _ _ _ _ _ _ R R') as (<- & <- & <-).
    exists p, (f_length (H i)). unfold range. rewrite upd_same. repeat split; auto.
  - intros. apply upd_other; auto.
  - exists p, l1, l2. rewrite upd_same. auto.
Qed.

(** Inserting a file with a given address into a free range. *)
Lemma free_cut H m a n :
  map_ok H m -> 0 < n ->
  (forall j x, In j (m_items m) -> covers H j x -> ~ a <= x < a + n) ->
  exists l1 l2, m_items m = l1 ++ l2 /\ (forall j, In j l1 -> fend H j <= a) /\ (forall j, In j l2 -> a + n <= addr H j).
Proof.
  intros Hok Hn Hf. destruct (map_ok_cut H m a Hok) as (l1 & l2 & E & F1 & F2 & _).
  rewrite Forall_forall in F1, F2.
  pose proof Hok as (_ & _ & P). rewrite Forall_forall in P.
  assert (Cv : forall j x, In j (m_items m) -> addr H j <= x < fend H j -> covers H j x).
  { intros j x Hj Hx. exists (addr H j), (f_length (H j)). repeat split; try apply Hx. apply (map_ok_addr H m); auto. }
  exists l1, l2. split; auto. split; intros j Hj.
  - assert (Hm : In j (m_items m)) by (rewrite E; apply in_or_app; auto).
    specialize (F1 j Hj). destruct (Z.leb_spec (fend H j) a); auto.
    exfalso. apply (Hf j a Hm); [apply Cv; auto; lia | lia].
  - assert (Hm : In j (m_items m)) by (rewrite E; apply in_or_app; auto).
    specialize (F2 j Hj). specialize (P j Hm). destruct (Z.leb_spec (a + n) (addr H j)); auto.
    exfalso. apply (Hf j (addr H j) Hm); [apply Cv; auto; unfold fend; lia | lia].
Qed.

Lemma insert_fixed_ok H m i a :
  map_ok H m -> is_apx_file (H i) = true -> f_address (H i) = Some a -> 0 < f_length (H i) ->
  ~ In i (m_items m) ->
  (forall j x, In j (m_items m) -> covers H j x -> ~ a <= x < a + f_length (H i)) ->
  exists H' m', insert H m i = Ok (H', m') /\ map_ok H' m' /\ H' i = H i /\ (forall j, j <> i -> H' j = H j) /\
  exists l1 l2, m_items m = l1 ++ l2 /\ m_items m' = l1 ++ i :: l2.
Proof.
  intros Hok Hk Ha Hn Hi Hf. unfold insert. rewrite Hk, Ha. cbn [negb bind].
  destruct (free_cut H m a (f_length (H i)) Hok Hn Hf) as (l1 & l2 & E & F1 & F2).
  destruct (insert_between H m i a l1 l2 (with_address (H i) (Some a)) Hok Hi Hn E eq_refl F1 F2) as (B & M & I).
  do 2 eexists. split; [reflexivity|]. split; auto. split; [|split].
  - rewrite upd_same. destruct (H i) as [k [nm ln ft ad dt dd] o mg hd d]. cbn in *. subst. auto.
  - intros. apply upd_other; auto.
  - exists l1, l2. auto.
Qed.

(** ** Looking up *)

Lemma hit_covers H i x : f_address (H i) = Some (addr H i) -> (hit (H i) x = true <-> covers H i x).
Proof.
  intros E. unfold hit, covers, range. rewrite E. split.
  - intros L. exists (addr H i), (f_length (H i)). repeat split; lia.
  - intros (a & n & [E1 E2] & L). invc E1. lia.
Qed.

Lemma find_exact H m x i :
  map_ok H m -> (findByAddress H m x = Some i <-> In i (m_items m) /\ covers H i x).
Proof.
  intros Hok. unfold findByAddress.
  pose proof (map_ok_addr H m) as Ad. specialize (fun i => Ad i Hok).
  destruct (map_ok_cut H m x Hok) as (l1 & l2 & E & F1 & F2 & B). rewrite Forall_forall in F1, F2. rewrite B.
  unfold len. rewrite (map_ok_len _ _ Hok).
  destruct (Z.eqb_spec (Z.of_nat (length (m_items m))) 0) as [L0|L0].
  { assert (m_items m = []) by (destruct (m_items m); [auto | cbn in L0; lia]). rewrite H0.
    split; [discriminate | intros [[] _]]. }
  pose proof Hok as (_ & _ & P). rewrite Forall_forall in P.
  assert (Cv : forall j, In j (m_items m) -> (covers H j x <-> addr H j <= x < fend H j)).
  { intros j Hj. unfold covers, range. rewrite Ad by auto. split.
    - intros (a & n & [E1 E2] & L). invc E1. auto.
    - intros L. exists (addr H j), (f_length (H j)). auto. }
  (* a covering file in l2 is its head and starts at x; one in l1 is its last *)
  assert (C2 : forall j, In j l2 -> covers H j x -> exists l2', l2 = j :: l2').
  { intros j Hj Hc. apply Cv in Hc; [|rewrite E; apply in_or_app; auto].
    pose proof (F2 j Hj). destruct l2 as [|j2 l2]; [destruct Hj|]. destruct Hj as [->|Hj]; eauto. exfalso.
    pose proof (map_ok_before H m (l1 ++ [j2]) l2 j2 j Hok) as X. rewrite <- app_assoc in X.
    specialize (X E ltac:(apply in_or_app; cbn; auto) Hj). specialize (F2 j2 (or_introl eq_refl)).
    specialize (P j2). rewrite E in P. specialize (P ltac:(apply in_or_app; cbn; auto)). unfold fend in X. lia. }
  assert (C1 : forall j, In j l1 -> covers H j x -> exists l1', l1 = l1' ++ [j]).
  { intros j Hj Hc. apply Cv in Hc; [|rewrite E; apply in_or_app; auto].
    destruct (@exists_last _ l1) as (l1' & j1 & ->). { destruct l1; [destruct Hj | discriminate]. }
    apply in_app_or in Hj as [Hj|[->|[]]]; eauto. exfalso.
    pose proof (map_ok_before H m l1' (j1 :: l2) j j1 Hok) as X. rewrite E, <- app_assoc in X.
    specialize (X eq_refl Hj (or_introl eq_refl)).
    specialize (F1 j1 ltac:(apply in_or_app; cbn; auto)). lia. }
  assert (N2 : nth_error (m_items m) (length l1) = nth_error l2 0).
  { rewrite E, nth_error_app2, Nat.sub_diag; auto. }
  assert (N1 : forall l1' j, l1 = l1' ++ [j] -> nth_error (m_items m) (length l1 - 1) = Some j).
  { intros l1' j ->. rewrite E, <- app_assoc, app_length. cbn [length].
    replace (length l1' + 1 - 1)%nat with (length l1') by lia.
    rewrite nth_error_app2, Nat.sub_diag; auto. }
  rewrite N2.
  set (second := if (0 <? length l1)%nat then _ else None).
  assert (S2 : second = Some i <-> In i l1 /\ covers H i x).
  { unfold second. clear second. destruct l1 as [|q l1t] eqn:El.
    - cbn. split; [discriminate | intros [[] _]].
    - destruct (@exists_last _ (q :: l1t)) as (l1' & j1 & E1); [discriminate|]. rewrite <- El in *. clear El q l1t.
      assert (Lp : (0 <? length l1)%nat = true) by (apply Nat.ltb_lt; rewrite E1, app_length; cbn; lia). rewrite Lp.
      rewrite (N1 _ _ E1).
      assert (Hj1 : In j1 l1) by (rewrite E1; apply in_or_app; cbn; auto).
      assert (Hj1m : In j1 (m_items m)) by (rewrite E; apply in_or_app; auto).
      destruct (hit (H j1) x) eqn:Eh.
      + apply hit_covers in Eh; auto. split.
        * intros X. invc X. auto.
        * intros [Hi Hc]. destruct (C1 i Hi Hc) as (l' & El'). rewrite E1 in El'. apply app_inj_tail in El' as [_ ->]. auto.
      + split; [discriminate|]. intros [Hi Hc]. destruct (C1 i Hi Hc) as (l' & El'). rewrite E1 in El'.
        apply app_inj_tail in El' as [_ ->]. apply hit_covers in Hc; auto. congruence. }
  assert (Spl : In i (m_items m) /\ covers H i x <-> (In i l1 /\ covers H i x) \/ (In i l2 /\ covers H i x)).
  { rewrite E, in_app_iff. tauto. }
  rewrite Spl, <- S2.
  destruct l2 as [|j2 l2]; cbn [nth_error].
  - split; auto. intros [?|[[] _]]; auto.
  - assert (Hj2m : In j2 (m_items m)) by (rewrite E; apply in_or_app; cbn; auto).
    destruct (hit (H j2) x) eqn:Eh.
    + apply hit_covers in Eh; auto. split.
      * intros X. invc X. right. cbn; auto.
      * intros [X|[Hi Hc]].
        -- apply S2 in X as [Hi Hc]. exfalso.
           apply Cv in Eh; auto. apply Cv in Hc; [|rewrite E; apply in_or_app; auto].
           pose proof (map_ok_before H m l1 (j2 :: l2) i j2 Hok E Hi (or_introl eq_refl)). lia.
        -- destruct (C2 i Hi Hc) as (l' & El'). invc El'. auto.
    + split; auto. intros [X|[Hi Hc]]; auto. exfalso.
      destruct (C2 i Hi Hc) as (l' & El'). invc El'. apply hit_covers in Hc; auto. congruence.
Qed.

(** ** Removing *)

Lemma map_ok_app_remove H l1 i l2 ks :
  map_ok H (mk_fmap ks (l1 ++ i :: l2)) ->
  map_ok H (mk_fmap (map (addr H) (l1 ++ l2)) (l1 ++ l2)).
Proof.
  intros Hok. pose proof Hok as (_ & F & P). cbn [m_items] in *. apply map_ok_build; auto.
  - intros j Hj. apply (map_ok_addr H _ j Hok). cbn. rewrite !in_app_iff in *. cbn. tauto.
  - apply FOP_app in F as (F1 & F2 & F3). invc F2. apply FOP_app. repeat split; auto.
    intros; apply F3; cbn; auto.
  - rewrite Forall_app in *. destruct P as [P1 P2]. invc P2. auto.
Qed.

Lemma index_of_found H m i l1 l2 :
  map_ok H m -> m_items m = l1 ++ i :: l2 -> index_of H m i = Ok (length l1).
Proof.
  intros Hok E. unfold index_of.
  assert (Hi : In i (m_items m)) by (rewrite E; apply in_or_app; cbn; auto).
  rewrite (map_ok_addr _ _ _ Hok Hi).
  pose proof Hok as (_ & _ & P). rewrite Forall_forall in P.
  assert (L : forall j, In j l1 -> addr H j < addr H i).
  { intros j Hj. pose proof (map_ok_before H m l1 (i :: l2) j i Hok E Hj (or_introl eq_refl)) as X.
    specialize (P j). rewrite E in P. specialize (P ltac:(apply in_or_app; auto)). unfold fend in X. lia. }
  assert (R : forall j, In j l2 -> addr H i < addr H j).
  { intros j Hj. pose proof (map_ok_before H m (l1 ++ [i]) l2 i j Hok) as X. rewrite <- app_assoc in X.
    specialize (X E ltac:(apply in_or_app; cbn; auto) Hj).
    specialize (P i Hi). unfold fend in X. lia. }
  rewrite (map_ok_keys _ _ Hok), E, map_app. cbn [map].
  rewrite bisect_left_split.
  2: { apply Forall_map, Forall_forall; auto. }
  2: { constructor; [lia|]. apply Forall_map, Forall_forall. intros j Hj. specialize (R j Hj). lia. }
  replace (map (addr H) l1 ++ addr H i :: map (addr H) l2) with ((map (addr H) l1 ++ [addr H i]) ++ map (addr H) l2)
    by (rewrite <- app_assoc; auto).
  rewrite bisect_right_split.
  2: { apply Forall_app. split; [|constructor; [lia|constructor]]. apply Forall_map, Forall_forall. intros j Hj. specialize (L j Hj). lia. }
  2: { apply Forall_map, Forall_forall; auto. }
  rewrite app_length, !map_length. cbn [length].
  replace (length l1 + 1 - length l1)%nat with 1%nat by lia.
  rewrite skipn_app, Nat.sub_diag, skipn_all. cbn. rewrite Nat.eqb_refl. auto.
Qed.

Lemma pos_of_none i l : ~ In i l -> pos_of i l = None.
Proof.
  induction l as [|x l IH]; intros Hi; auto. cbn. destruct (Nat.eqb_spec x i); [subst; exfalso; apply Hi; cbn; auto|].
  rewrite IH; auto. intros X. apply Hi; cbn; auto.
Qed.

Lemma in_firstn_skipn {A} (x : A) n k l : In x (firstn n (skipn k l)) -> In x l.
Proof.
  intros Hx. rewrite <- (firstn_skipn k l). apply in_or_app. right.
  rewrite <- (firstn_skipn n (skipn k l)). apply in_or_app. auto.
Qed.

Lemma remove_found H m i l1 l2 :
  map_ok H m -> is_apx_file (H i) = true -> m_items m = l1 ++ i :: l2 ->
  exists m', remove H m i = Ok m' /\ m_items m' = l1 ++ l2 /\ map_ok H m'.
Proof.
  intros Hok Hk E. unfold remove. rewrite Hk. cbn [negb].
  rewrite (index_of_found _ _ _ _ _ Hok E). cbn [bind].
  assert (D : forall {A} (a : list A) x b, delete_at (length a) (a ++ x :: b) = a ++ b).
  { intros. unfold delete_at. rewrite firstn_app, firstn_all, Nat.sub_diag. cbn [firstn]. rewrite app_nil_r.
    rewrite skipn_app, skipn_all2 by lia. replace (S (length a) - length a)%nat with 1%nat by lia. auto. }
  eexists. split; [reflexivity|]. cbn [m_items]. rewrite E, D. split; auto.
  rewrite (map_ok_keys _ _ Hok), E, map_app. cbn [map].
  rewrite <- (map_length (addr H) l1), D, <- map_app.
  apply map_ok_app_remove with i (m_keys m). destruct m as [ks its]. cbn in *. subst its. auto.
Qed.

Lemma remove_missing H m i :
  ~ In i (m_items m) ->
  exists e, remove H m i = Err e /\
  (is_apx_file (H i) = true -> f_address (H i) <> None -> e = ValueError).
Proof.
  intros Hi. unfold remove. destruct (is_apx_file (H i)); cbn [negb]; [|eexists; split; eauto; congruence].
  unfold index_of. destruct (f_address (H i)) as [k|].
  - rewrite pos_of_none; [eexists; split; reflexivity|]. intros X. apply Hi. eapply in_firstn_skipn; eauto.
  - destruct (len (m_keys m) =? 0); eexists; (split; [reflexivity | congruence]).
Qed.

(** ** Programs *)

Lemma NoDup_FOP H items :
  ForallOrdPairs (before H) items -> Forall (fun i => 0 < f_length (H i)) items -> NoDup items.
Proof.
  intros F P. induction F; constructor; invc P; auto.
  intros Hi. rewrite Forall_forall in H0. destruct (H0 a Hi) as (x & y & n & [E1 E2] & E3 & L).
  rewrite E1 in E3. invc E3. lia.
Qed.

(** State reached by a program that inserts each file at most once. *)
Lemma mrun_ok : forall ops H m,
  map_ok H m -> no_straddle H m -> (forall j, In j (m_items m) -> well_placed H j) ->
  NoDup (flat_map inserted ops) ->
  (forall i, In i (flat_map inserted ops) -> f_address (H i) = None /\ 0 < f_length (H i)) ->
  let '(H', m') := mrun (H, m) ops in
  map_ok H' m' /\ no_straddle H' m' /\ (forall j, In j (m_items m') -> well_placed H' j).
Proof.
  induction ops as [|o ops IH]; intros H m Hok Hns Hwp Hnd Hnew; [cbn; auto|].
  cbn [flat_map] in *. unfold mrun. cbn [fold_left]. fold (mrun (mstep (H, m) o) ops).
  assert (Hnd2 : NoDup (flat_map inserted ops)).
  { destruct o; cbn [inserted app] in Hnd; auto. invc Hnd; auto. }
  assert (Hnew2 : forall i, In i (flat_map inserted ops) -> f_address (H i) = None /\ 0 < f_length (H i)).
  { intros; apply Hnew, in_or_app; auto. }
  destruct o as [i|i]; cbn [mstep].
  - destruct (insert H m i) as [[H' m']|] eqn:Ei; [|apply IH; auto].
    destruct (Hnew i) as [Ha Hl]; [cbn; auto|].
    destruct (insert_auto_ok H m i H' m' Hok Hns Ha Hl Ei) as (A & B & C & D & p & l1 & l2 & E1 & E2 & E3).
    apply IH; auto.
    + intros j Hj. rewrite E3 in Hj. destruct (Nat.eq_dec j i) as [->|Hne]; auto.
      assert (Hj2 : In j (m_items m)). { rewrite E2. rewrite !in_app_iff in *. destruct Hj as [|[|]]; auto. congruence. }
      specialize (Hwp j Hj2). intros s e b R. rewrite D in R by auto. destruct (Hwp s e b R) as (a & n & R1 & R2).
      exists a, n. unfold range in *. rewrite D by auto. auto.
    + intros j Hj. rewrite D; auto. intros ->. cbn in Hnd. invc Hnd. auto.
  - destruct (remove H m i) as [m'|] eqn:Er; [|apply IH; auto].
    destruct (in_dec Nat.eq_dec i (m_items m)) as [Hi|Hi].
    2: { destruct (remove_missing H m i Hi) as (e & Ee & _). congruence. }
    apply in_split in Hi as (l1 & l2 & E).
    destruct (is_apx_file (H i)) eqn:Hk; [|unfold remove in Er; rewrite Hk in Er; discriminate].
    destruct (remove_found H m i l1 l2 Hok Hk E) as (m'' & E1 & E2 & E3).
    rewrite Er in E1. invc E1.
    assert (Sub : forall j, In j (m_items m'') -> In j (m_items m)).
    { intros j Hj. rewrite E2 in Hj. rewrite E. rewrite !in_app_iff in *. cbn. tauto. }
    apply IH; auto. intros j a n Hj. apply Hns; auto.
Qed.
