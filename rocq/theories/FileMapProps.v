(** Properties C10 to C14: address allocation and lookup in the file map. *)
From Coq Require Import ZifyBool ZifyNat Lia Sorted.
From Verif Require Import Py PyLemmas RmfModel FileModel FileMapSpec FileMapProofs.
Ltac Zify.zify_post_hook ::= Z.div_mod_to_equations.

(** ** C10 *)

(** Any program of insertions (each file object at most once, non-empty, address
    left to the map) and removals ends with a proper map in which every file lies
    in the region of its name, on its boundary. *)
Theorem filemap_allocation (ops : list mop) (H0 : heap) :
  NoDup (flat_map inserted ops) ->
  (forall i, In i (flat_map inserted ops) -> f_address (H0 i) = None /\ 0 < f_length (H0 i)) ->
  let '(H, m) := mrun (H0, empty_map) ops in
  map_ok H m /\ NoDup (m_items m) /\
  (forall i, In i (m_items m) -> well_placed H i) /\
  (forall i x, In i (m_items m) -> covers H i x -> 0 <= x < RMF_CMD_START_ADDR).
Proof.
  intros Hnd Hnew.
  assert (M : map_ok H0 empty_map) by (repeat split; constructor).
  pose proof (mrun_ok ops H0 empty_map M ltac:(intros ? ? ? []) ltac:(intros ? []) Hnd Hnew) as R.
  destruct (mrun (H0, empty_map) ops) as [H m]. destruct R as (A & B & C).
  split; auto. split. { destruct A as (_ & A1 & A2). eapply NoDup_FOP; eauto. }
  split; auto. intros i x Hi (a & n & [E1 E2] & L).
  destruct (region_exists (f_name (H i))) as (s & e & b & R).
  destruct (C i Hi s e b R) as (a' & n' & [E3 E4] & L1 & L2 & L3).
  rewrite E1 in E3. rewrite E2 in E4. invc E3. destruct (region_facts _ _ _ _ R) as (_ & _ & _ & _ & Q5 & _ & _ & Q9).
  unfold RMF_CMD_START_ADDR. lia.
Qed.
Print Assumptions filemap_allocation.

(** One automatic insertion into any proper map, also one that holds files at
    addresses chosen by somebody else, as long as none crosses a region border. *)
Theorem filemap_insert_auto (H : heap) (m : fmap) (i : nat) (H' : heap) (m' : fmap) :
  map_ok H m -> no_straddle H m -> f_address (H i) = None -> 0 < f_length (H i) ->
  insert H m i = Ok (H', m') ->
  map_ok H' m' /\ no_straddle H' m' /\ well_placed H' i /\
  (forall j, In j (m_items m') <-> j = i \/ In j (m_items m)) /\
  (forall j, j <> i -> H' j = H j).
Proof.
  intros Hok Hns Ha Hl Hi.
  destruct (insert_auto_ok H m i H' m' Hok Hns Ha Hl Hi) as (A & B & C & D & p & l1 & l2 & E1 & E2 & E3).
  split; [auto|]. split; [auto|]. split; [auto|]. split; [|auto].
  intros j. rewrite E3, E2, !in_app_iff; cbn; intuition congruence.
Qed.
Print Assumptions filemap_insert_auto.

(** A file with a given address goes where it says, if that place is free. *)
Theorem filemap_insert_fixed (H : heap) (m : fmap) (i : nat) (a : Z) :
  map_ok H m -> is_apx_file (H i) = true -> f_address (H i) = Some a -> 0 < f_length (H i) ->
  ~ In i (m_items m) ->
  (forall j x, In j (m_items m) -> covers H j x -> ~ covers H i x) ->
  exists H' m', insert H m i = Ok (H', m') /\ map_ok H' m' /\
  (forall j, H' j = H j) /\ (forall j, In j (m_items m') <-> j = i \/ In j (m_items m)).
Proof.
  intros Hok Hk Ha Hl Hi Hf.
  destruct (insert_fixed_ok H m i a Hok Hk Ha Hl Hi) as (H' & m' & A & B & C & D & l1 & l2 & E1 & E2).
  { intros j x Hj Hc Hx. apply (Hf j x Hj Hc). exists a, (f_length (H i)). split; [split; auto | auto]. }
  exists H', m'. split; [auto|]. split; [auto|]. split.
  - intros j. destruct (Nat.eq_dec j i) as [->|]; auto.
  - intros j. rewrite E1, E2, !in_app_iff; cbn; intuition congruence.
Qed.
Print Assumptions filemap_insert_fixed.

(** Things that are not apx.File objects are refused. *)
Theorem filemap_insert_foreign (H : heap) (m : fmap) (i : nat) :
  f_kind (H i) = KRemote -> insert H m i = Err AssertionError /\ remove H m i = Err AssertionError.
Proof. intros Hk. unfold insert, remove, is_apx_file. rewrite Hk. auto. Qed.
Print Assumptions filemap_insert_foreign.

(** With an empty file in the map the claim fails: the third file shares all its
    bytes with the second.  (Contents do not matter to the map.) *)
Definition plain (name : str) (n : Z) : file := mk_file KFile (mk_finfo name n 0 None 0 []) false false false [].
Definition empty_heap : heap := fun i =>
  match i with O => plain (lit "a.in") 0 | 1%nat => plain (lit "b.in") 5 | _ => plain (lit "c.in") 5 end.

Theorem filemap_empty_file_disjoint_refuted :
  ~ (forall ops H0, NoDup (flat_map inserted ops) ->
       (forall i, In i (flat_map inserted ops) -> f_address (H0 i) = None /\ 0 <= f_length (H0 i)) ->
       let '(H, m) := mrun (H0, empty_map) ops in
       forall i j x, In i (m_items m) -> In j (m_items m) -> covers H i x -> covers H j x -> i = j).
Proof.
  intros C. specialize (C [OInsert 0%nat; OInsert 1%nat; OInsert 2%nat] empty_heap).
  assert (X : (1 = 2)%nat); [|discriminate].
  apply C with 0.
  - cbn. repeat constructor; cbn; intuition congruence.
  - intros i [<-|[<-|[<-|[]]]]; cbn; split; auto; lia.
  - vm_compute; tauto.
  - vm_compute; tauto.
  - exists 0, 5. split; [split; vm_compute; reflexivity | lia].
  - exists 0, 5. split; [split; vm_compute; reflexivity | lia].
Qed.
Print Assumptions filemap_empty_file_disjoint_refuted.

(** Removing a file and inserting the same object again can also produce an
    overlap, because the object keeps its old address. *)
Definition two_heap : heap := fun i => match i with O => plain (lit "a.in") 5 | _ => plain (lit "b.in") 5 end.

Theorem filemap_reinsert_disjoint_refuted :
  ~ (forall ops H0,
       (forall i, f_address (H0 i) = None /\ 0 < f_length (H0 i)) ->
       let '(H, m) := mrun (H0, empty_map) ops in
       forall i j x, In i (m_items m) -> In j (m_items m) -> covers H i x -> covers H j x -> i = j).
Proof.
  intros C. specialize (C [OInsert 0%nat; ORemove 0%nat; OInsert 1%nat; OInsert 0%nat] two_heap).
  assert (X : (0 = 1)%nat); [|discriminate].
  apply C with 0.
  - intros [|i]; cbn; split; auto; lia.
  - vm_compute; tauto.
  - vm_compute; tauto.
  - exists 0, 5. split; [split; vm_compute; reflexivity | lia].
  - exists 0, 5. split; [split; vm_compute; reflexivity | lia].
Qed.
Print Assumptions filemap_reinsert_disjoint_refuted.

(** ** C11 *)

(** What automatic insertion does, completely: behind the last file of the region
    (aligned up), or at the start of the region when the map is empty or has only
    lower files; ValueError when that does not fit; UnboundLocalError exactly when
    the map is not empty and every file lies above the region. *)
Theorem filemap_insert_outcome (H : heap) (m : fmap) (i : nat) (s e b : Z) :
  map_ok H m -> is_apx_file (H i) = true -> f_address (H i) = None -> region_for (f_name (H i)) s e b ->
  let outcome p :=
    if p + f_length (H i) <=? e then
      exists H' m', insert H m i = Ok (H', m') /\ f_address (H' i) = Some p
    else insert H m i = Err ValueError in
  (exists j, last_in H m s e j /\
     exists a n p, range H j a n /\ aligned_up b (a + n) p /\ outcome p)
  \/ ((m_items m = [] \/ exists j a, In j (m_items m) /\ f_address (H j) = Some a /\ a < s) /\
      (forall j a, In j (m_items m) -> f_address (H j) = Some a -> ~ s <= a < e) /\ outcome s)
  \/ (m_items m <> [] /\ (forall j a, In j (m_items m) -> f_address (H j) = Some a -> e <= a) /\
      insert H m i = Err UnboundLocalError).
Proof.
  intros Hok Hk Ha R. cbv zeta.
  destruct (insert_auto H m i s e b Hok Hk Ha R) as (pl & Hp & E).
  assert (Ad : forall j, In j (m_items m) -> f_address (H j) = Some (addr H j)) by (intros; apply (map_ok_addr H m); auto).
  assert (Out : forall p, pl = Some p ->
    if p + f_length (H i) <=? e then
      exists H' m', insert H m i = Ok (H', m') /\ f_address (H' i) = Some p
    else insert H m i = Err ValueError).
  { intros p ->. destruct (p + f_length (H i) <=? e); auto.
    do 2 eexists. split; eauto. rewrite upd_same. auto. }
  destruct Hp as [Em | j p Hl Hal | j Hj Hjs Hall | Hne Hall].
  - right; left. rewrite Em. split; auto. split; [intros j a []|]. apply Out; auto.
  - left. exists j. split; auto. exists (addr H j), (f_length (H j)), p.
    split; [split; auto; apply Ad, Hl|]. split; auto. apply Out; auto.
  - right; left. split; [right; exists j, (addr H j); auto|]. split; [|apply Out; auto].
    intros j' a' Hj' Ea'. rewrite Ad in Ea' by auto. invc Ea'. specialize (Hall j' Hj'). lia.
  - right; right. repeat split; auto. intros j a Hj Ea. rewrite Ad in Ea by auto. invc Ea. auto.
Qed.
Print Assumptions filemap_insert_outcome.

(** So "insertion succeeds when there is room" is false: after a definition file, a
    port data file raises although its whole region is empty. *)
Definition def_heap : heap := fun i => match i with O => plain (lit "n.apx") 10 | _ => plain (lit "n.out") 4 end.
Definition def_state : heap * fmap := mrun (def_heap, empty_map) [OInsert 0%nat].

Theorem filemap_insert_when_room_refuted :
  ~ (forall H m i s e b, map_ok H m -> no_straddle H m -> is_apx_file (H i) = true -> f_address (H i) = None ->
       region_for (f_name (H i)) s e b ->
       (forall j x, In j (m_items m) -> covers H j x -> ~ s <= x < e) -> s + f_length (H i) <= e ->
       is_ok (insert H m i) = true).
Proof.
  intros C. specialize (C (fst def_state) (snd def_state) 1%nat 0 0x4000000 1024).
  assert (X : is_ok (insert (fst def_state) (snd def_state) 1%nat) = false) by reflexivity.
  rewrite C in X; [discriminate|..]; clear C X.
  - repeat split; cbn; repeat constructor.
  - intros i a n [<-|[]] [E1 E2]. vm_compute in E1, E2. invc E1. lia.
  - reflexivity.
  - reflexivity.
  - apply RPort. right. exists (lit "n"). reflexivity.
  - intros j x [<-|[]] (a & n & [E1 E2] & L). vm_compute in E1, E2. invc E1. lia.
  - vm_compute. discriminate.
Qed.
Print Assumptions filemap_insert_when_room_refuted.

(** ** C12 *)

Theorem filemap_find_exact (H : heap) (m : fmap) (x : Z) :
  map_ok H m ->
  (forall i, findByAddress H m x = Some i <-> In i (m_items m) /\ covers H i x) /\
  (findByAddress H m x = None <-> forall i, In i (m_items m) -> ~ covers H i x).
Proof.
  intros Hok. split; [intros; apply find_exact; auto|]. split.
  - intros E i Hi Hc. assert (findByAddress H m x = Some i) by (apply find_exact; auto). congruence.
  - intros Hn. destruct (findByAddress H m x) as [i|] eqn:E; auto.
    apply find_exact in E as [Hi Hc]; auto. exfalso. eapply Hn; eauto.
Qed.
Print Assumptions filemap_find_exact.

(** With empty files the lookup is not exact: an empty file that starts inside or at
    the start of another file can hide it. *)
Definition hide_heap : heap := fun i =>
  match i with
  | O => with_address (plain (lit "a.in") 10) (Some 0)
  | 1%nat => with_address (plain (lit "b.in") 0) (Some 3)
  | _ => with_address (plain (lit "c.in") 0) (Some 5)
  end.

Theorem filemap_find_empty_files_refuted :
  ~ (forall ops H0, (forall i, 0 <= f_length (H0 i)) ->
       let '(H, m) := mrun (H0, empty_map) ops in
       forall i x, In i (m_items m) -> covers H i x -> findByAddress H m x <> None).
Proof.
  intros C. specialize (C [OInsert 0%nat; OInsert 1%nat; OInsert 2%nat] hide_heap).
  refine (C _ 0%nat 4 _ _ _).
  - intros [|[|i]]; cbn; lia.
  - vm_compute; tauto.
  - exists 0, 10. split; [split; vm_compute; reflexivity | lia].
  - reflexivity.
Qed.
Print Assumptions filemap_find_empty_files_refuted.

(** ** C13 *)

(** What the name lookup does find: the file with the lowest address, if the name
    is right. *)
Theorem filemap_find_name_first (H : heap) (m : fmap) (name : str) (i : nat) :
  map_ok H m ->
  (findByName H m name = Some i <->
   In i (m_items m) /\ f_name (H i) = name /\
   forall j a b, In j (m_items m) -> f_address (H i) = Some a -> f_address (H j) = Some b -> a <= b).
Proof.
  intros Hok. unfold findByName. destruct (m_items m) as [|k r] eqn:E.
  { split; [discriminate | intros ([] & _)]. }
  pose proof Hok as (_ & F & P). rewrite E in F, P. rewrite Forall_forall in P. invc F.
  rewrite Forall_forall in H2.
  assert (Lt : forall j a b, In j r -> f_address (H k) = Some a -> f_address (H j) = Some b -> a < b).
  { intros j a b Hj Ea Eb. specialize (H2 j Hj). rewrite (before_iff H k j a b) in H2 by auto.
    specialize (P k (or_introl eq_refl)). lia. }
  split.
  - destruct (str_eqb (f_name (H k)) name) eqn:En; [|discriminate]. intros X. invc X.
    apply str_eqb_eq in En. split; [cbn; auto|]. split; auto.
    intros j a b [<-|Hj] Ea Eb; [rewrite Ea in Eb; invc Eb; lia|]. specialize (Lt j a b Hj Ea Eb). lia.
  - intros (Hi & En & Hmin). destruct Hi as [<-|Hi].
    + rewrite En, str_eqb_refl. auto.
    + exfalso. assert (Ak : f_address (H k) = Some (addr H k)) by (apply (map_ok_addr H m); auto; rewrite E; cbn; auto).
      assert (Ai : f_address (H i) = Some (addr H i)) by (apply (map_ok_addr H m); auto; rewrite E; cbn; auto).
      specialize (Lt i _ _ Hi Ak Ai). specialize (Hmin k _ _ (or_introl eq_refl) Ai Ak). lia.
Qed.
Print Assumptions filemap_find_name_first.

Definition name_state : heap * fmap := mrun (def_heap, empty_map) [OInsert 1%nat; OInsert 0%nat].

Theorem filemap_find_name_refuted :
  ~ (forall H m name i, map_ok H m -> In i (m_items m) -> f_name (H i) = name ->
       exists j, findByName H m name = Some j).
Proof.
  intros C. destruct (C (fst name_state) (snd name_state) (lit "n.apx") 0%nat) as (j & E).
  - repeat split; cbn; repeat constructor. exists 0, 0x4000000, 4. repeat split. lia.
  - vm_compute; tauto.
  - reflexivity.
  - vm_compute in E. discriminate.
Qed.
Print Assumptions filemap_find_name_refuted.

(** ** C14 *)

Theorem filemap_remove (H : heap) (m : fmap) (i : nat) (l1 l2 : list nat) :
  map_ok H m -> is_apx_file (H i) = true -> m_items m = l1 ++ i :: l2 ->
  exists m', remove H m i = Ok m' /\ m_items m' = l1 ++ l2 /\ map_ok H m' /\
  (forall x, covers H i x -> findByAddress H m' x = None) /\
  (forall x, ~ covers H i x -> findByAddress H m' x = findByAddress H m x).
Proof.
  intros Hok Hk E. destruct (remove_found H m i l1 l2 Hok Hk E) as (m' & A & B & C).
  assert (Ni : ~ In i (l1 ++ l2)).
  { pose proof Hok as (_ & F & P). rewrite E in F, P. pose proof (NoDup_FOP _ _ F P) as N.
    apply NoDup_remove_2 in N. auto. }
  exists m'. split; [auto|]. split; [auto|]. split; [auto|]. split.
  - intros x Hx. destruct (findByAddress H m' x) as [j|] eqn:Ef; auto. exfalso.
    apply find_exact in Ef as [Hj Hc]; auto. rewrite B in Hj.
    assert (Fi : findByAddress H m x = Some i) by (apply find_exact; auto; split; auto; rewrite E; apply in_or_app; cbn; auto).
    assert (Fj : findByAddress H m x = Some j).
    { apply find_exact; auto. split; auto. rewrite E. rewrite !in_app_iff in *. cbn. tauto. }
    rewrite Fi in Fj. invc Fj. auto.
  - intros x Hx. destruct (findByAddress H m x) as [j|] eqn:Ef.
    + apply find_exact in Ef as [Hj Hc]; auto. apply find_exact; auto. split; auto.
      rewrite B. rewrite E in Hj. rewrite !in_app_iff in *. destruct Hj as [|[|]]; auto. congruence.
    + destruct (findByAddress H m' x) as [j|] eqn:Ef'; auto.
      apply find_exact in Ef' as [Hj Hc]; auto.
      assert (findByAddress H m x = Some j); [|congruence].
      apply find_exact; auto. split; auto. rewrite E. rewrite B in Hj. rewrite !in_app_iff in *. cbn. tauto.
Qed.
Print Assumptions filemap_remove.

Theorem filemap_remove_missing (H : heap) (m : fmap) (i : nat) (a : Z) :
  ~ In i (m_items m) -> is_apx_file (H i) = true -> f_address (H i) = Some a ->
  remove H m i = Err ValueError.
Proof.
  intros Hi Hk Ha. destruct (remove_missing H m i Hi) as (e & E & X). rewrite E, X; auto. congruence.
Qed.
Print Assumptions filemap_remove_missing.

(** Files that bring their own addresses may lie anywhere, also at the same address: the
    map keeps them sorted, and each can be removed again. *)
Definition addressed (H : heap) (m : fmap) : Prop :=
  Forall2 (fun k j => f_address (H j) = Some k) (m_keys m) (m_items m) /\
  StronglySorted Z.le (m_keys m) /\ NoDup (m_items m).

Lemma pair_len {A B} (R : A -> B -> Prop) a b : Forall2 R a b -> length a = length b.
Proof. intros F. induction F; cbn [length]; congruence. Qed.
Lemma pair_impl {A B} (R R' : A -> B -> Prop) a b : (forall x y, R x y -> R' x y) -> Forall2 R a b -> Forall2 R' a b.
Proof. intros I F. induction F; constructor; auto. Qed.
Lemma sorted_split k l : StronglySorted Z.le l ->
  exists a b c, l = a ++ b ++ c /\ Forall (fun x => x < k) a /\ Forall (fun x => x = k) b /\ Forall (fun x => k < x) c.
Proof.
  intros So. induction So as [|x l So (a & b & c & -> & A & B & C) F]; [exists [], [], []; repeat split; constructor|].
  destruct (Z.lt_trichotomy x k) as [X|[X|X]].
  - exists (x :: a), b, c. repeat split; auto.
  - subst x. exists [], (k :: b), c. destruct a as [|y a]; [repeat split; auto|].
    exfalso. invc A. invc F. lia.
  - exists [], [], (x :: a ++ b ++ c). repeat split; auto. constructor; [exact X|]. eapply Forall_impl; [|exact F]. cbn. intros; lia.
Qed.
Lemma pos_of_mid i l1 l2 : ~ In i l1 -> pos_of i (l1 ++ i :: l2) = Some (length l1).
Proof.
  induction l1 as [|x l1 IH]; intros Hi; cbn [app pos_of length]; [rewrite Nat.eqb_refl; reflexivity|].
  destruct (Nat.eqb_spec x i) as [->|_]; [exfalso; apply Hi; left; reflexivity|]. rewrite IH; [reflexivity|]. intros X. apply Hi. right. exact X.
Qed.
Theorem filemap_insert_given (H : heap) (m : fmap) (i : nat) (k : Z) :
  addressed H m -> ~ In i (m_items m) -> is_apx_file (H i) = true -> f_address (H i) = Some k ->
  exists H' m' l1 l2, insert H m i = Ok (H', m') /\ addressed H' m' /\ (forall j, H' j = H j) /\
    m_items m = l1 ++ l2 /\ m_items m' = l1 ++ i :: l2.
Proof.
  intros (F & So & N) NI K A. unfold insert. rewrite K, A. cbn [negb bind].
  destruct (sorted_split k _ So) as (a & b & c & E & Fa & Fb & Fc). destruct m as [ks its]. cbn [m_keys m_items] in *. subst ks.
  apply Forall2_app_inv_l in F as (l1 & l2 & F1 & F2 & ->). pose proof (pair_len _ _ _ F1) as L1.
  assert (Fbc : Forall (fun x => k <= x) (b ++ c)) by (apply Forall_app; split; eapply Forall_impl; [|exact Fb| |exact Fc]; cbn; intros; lia).
  rewrite (bisect_left_split k a (b ++ c)) by assumption.
  assert (X : forall {A} (p q : list A) (x : A), insert_at (length p) x (p ++ q) = p ++ x :: q).
  { intros. unfold insert_at. rewrite firstn_app, firstn_all, Nat.sub_diag, skipn_app, skipn_all, Nat.sub_diag. cbn [firstn skipn app]. rewrite app_nil_r. reflexivity. }
  rewrite X. replace (length a) with (length l1) by congruence. rewrite X.
  assert (Same : forall j, upd H i (with_address (H i) (Some k)) j = H j).
  { intros j. unfold upd. destruct (Nat.eqb_spec j i) as [->|]; [|reflexivity]. clear -A. destruct (H i) as [kd inf x y z d]. destruct inf. cbn in *. subst. reflexivity. }
  do 2 eexists. exists l1, l2. split; [reflexivity|]. split; [|split; [exact Same|split; reflexivity]].
  split; [|split]; cbn [m_keys m_items].
  - apply Forall2_app; [|constructor; [rewrite Same; exact A|]]; (eapply pair_impl; [|eassumption]); cbn; intros; rewrite Same; assumption.
  - clear -So Fa Fb Fc. induction a as [|x a IH]; cbn [app] in *.
    + constructor; [exact So|]. apply Forall_app; split; eapply Forall_impl; [|exact Fb| |exact Fc]; cbn; intros; lia.
    + invc So. invc Fa. constructor; [apply IH; assumption|]. apply Forall_app in H2 as (Q1 & Q2). apply Forall_app. split; [exact Q1|constructor; [lia|exact Q2]].
  - apply NoDup_Add with (a := i) (l := l1 ++ l2); [apply Add_app|]. split; assumption.
Qed.
Print Assumptions filemap_insert_given.
Theorem filemap_remove_given (H : heap) (m : fmap) (i : nat) (l1 l2 : list nat) :
  addressed H m -> is_apx_file (H i) = true -> m_items m = l1 ++ i :: l2 ->
  exists m', remove H m i = Ok m' /\ addressed H m' /\ m_items m' = l1 ++ l2.
Proof.
  intros (F & So & N) K E. destruct m as [ks its]. cbn [m_keys m_items] in *. subst its.
  apply Forall2_app_inv_r in F as (k1 & kr & F1 & F2 & ->). inversion F2 as [|k ? k2 ? A F3]; subst. pose proof (pair_len _ _ _ F1) as L1. pose proof (pair_len _ _ _ F3) as L2.
  unfold remove. rewrite K. cbn [negb]. unfold index_of. rewrite A. cbn [m_keys m_items].
  assert (S1 : StronglySorted Z.le k1 /\ StronglySorted Z.le k2 /\ Forall (fun x => x <= k) k1 /\ Forall (fun x => k <= x) k2 /\ StronglySorted Z.le (k1 ++ k2)).
  { clear -So. induction k1 as [|x k1 IH]; cbn [app] in *; invc So; [repeat split; try constructor; assumption|].
    destruct (IH H1) as (Q1 & Q2 & Q3 & Q4 & Q5). apply Forall_app in H2 as (R1 & R2). invc R2. repeat split; try assumption; constructor; try assumption. apply Forall_app; split; assumption. }
  destruct S1 as (S1 & S2 & Le1 & Le2 & S3).
  destruct (sorted_split k k1 S1) as (a & b & z & -> & Fa & Fb & Fz). destruct z as [|z zs]; [|exfalso; invc Fz; apply Forall_app in Le1 as (_ & Le1); apply Forall_app in Le1 as (_ & Le1); invc Le1; lia].
  destruct (sorted_split k k2 S2) as (y & c & d & -> & Fy & Fc & Fd). destruct y as [|y ys]; [|exfalso; invc Fy; invc Le2; lia]. cbn [app] in *. rewrite app_nil_r in *.
  replace ((a ++ b) ++ k :: c ++ d) with (a ++ (b ++ k :: c ++ d)) by (rewrite <- app_assoc; reflexivity).
  rewrite bisect_left_split; [|assumption|apply Forall_app; split; [eapply Forall_impl; [|exact Fb]; cbn; intros; lia|constructor; [lia|assumption]]].
  replace (a ++ (b ++ k :: c ++ d)) with ((a ++ b ++ k :: c) ++ d) by (rewrite <- !app_assoc; reflexivity).
  rewrite bisect_right_split; [|repeat (apply Forall_app; split); try constructor; try lia; (eapply Forall_impl; [|eassumption]); cbn; intros; lia|assumption].
  apply Forall2_app_inv_l in F1 as (ja & jb & Ga & Gb & ->). apply Forall2_app_inv_l in F3 as (jc & jd & Gc & Gd & ->).
  pose proof (pair_len _ _ _ Ga) as La. pose proof (pair_len _ _ _ Gb) as Lb. pose proof (pair_len _ _ _ Gc) as Lc.
  replace (length (a ++ b ++ k :: c) - length a)%nat with (length (jb ++ i :: jc)) by (rewrite !app_length; cbn [length]; lia).
  replace ((ja ++ jb) ++ i :: jc ++ jd) with (ja ++ (jb ++ i :: jc) ++ jd) by (rewrite <- !app_assoc; reflexivity).
  rewrite La, skipn_app, skipn_all, Nat.sub_diag. cbn [skipn app]. rewrite firstn_app, firstn_all, Nat.sub_diag. cbn [firstn]. rewrite app_nil_r.
  rewrite pos_of_mid by (intros X; apply NoDup_remove_2 in N; apply N; rewrite !in_app_iff; tauto). cbn [bind].
  assert (D : forall {A} (a : list A) x b, delete_at (length a) (a ++ x :: b) = a ++ b).
  { intros. unfold delete_at. rewrite firstn_app, firstn_all, Nat.sub_diag. cbn [firstn]. rewrite app_nil_r.
    rewrite skipn_app, skipn_all2 by lia. replace (S (length a0) - length a0)%nat with 1%nat by lia. reflexivity. }
  eexists. split; [reflexivity|].
  replace ((a ++ b ++ k :: c) ++ d) with ((a ++ b) ++ k :: c ++ d) by (rewrite <- !app_assoc; reflexivity).
  replace (ja ++ (jb ++ i :: jc) ++ jd) with ((ja ++ jb) ++ i :: jc ++ jd) by (rewrite <- !app_assoc; reflexivity).
  replace (length jb + length ja)%nat with (length (ja ++ jb)) by (rewrite app_length; lia). rewrite D.
  replace (length (ja ++ jb)) with (length (a ++ b)) by (rewrite !app_length; lia). rewrite D.
  split; [|reflexivity]. split; [|split; [exact S3|]]; cbn [m_keys m_items].
  - repeat apply Forall2_app; assumption.
  - apply NoDup_remove_1 in N. exact N.
Qed.
Print Assumptions filemap_remove_given.
(** Three files at one address and one before; the second of the three is removed. *)
Example ex_remove_given :
  let f n a := mk_file KFile (mk_finfo n 4 0 (Some a) 0 []) false false false [0; 0; 0; 0] in
  let H i := match i with O => f (lit "a") 8 | 1%nat => f (lit "b") 8 | 2%nat => f (lit "c") 8 | _ => f (lit "d") 0 end in
  exists H1 m1 H2 m2 H3 m3 H4 m4, insert H empty_map 0%nat = Ok (H1, m1) /\ insert H1 m1 1%nat = Ok (H2, m2) /\ insert H2 m2 2%nat = Ok (H3, m3) /\ insert H3 m3 3%nat = Ok (H4, m4) /\
  m_items m4 = [3; 2; 1; 0]%nat /\ m_keys m4 = [0; 8; 8; 8] /\ remove H4 m4 1%nat = Ok (mk_fmap [0; 8; 8] [3; 2; 0]%nat).
Proof. cbv zeta. do 8 eexists. repeat (split; [reflexivity|]). reflexivity. Qed.

(** ** Examples (tests/file_map_test.py) *)

Definition demo_heap : heap := fun i =>
  match i with
  | O => plain (lit "test1.in") 1025
  | 1%nat => plain (lit "test1.out") 100
  | 2%nat => plain (lit "test1.apx") 1500000
  | 3%nat => plain (lit "user") 10
  | _ => plain (lit "test2.apx") 7
  end.
Definition demo_ops : list mop :=
  [OInsert 0%nat; OInsert 1%nat; OInsert 2%nat; OInsert 3%nat; OInsert 4%nat; ORemove 1%nat].

Example ex_filemap :
  NoDup (flat_map inserted demo_ops) /\
  (let '(H, m) := mrun (demo_heap, empty_map) demo_ops in
   m_keys m = [0; 0x4000000; 0x4200000; 0x20000000] /\ m_items m = [0; 2; 4; 3]%nat /\
   findByAddress H m 1024 = Some 0%nat /\ findByAddress H m 1025 = None /\
   findByAddress H m 2048 = None /\ findByAddress H m 0x4200006 = Some 4%nat) /\
  (let '(H, m) := mrun (demo_heap, empty_map) (firstn 2 demo_ops) in f_address (H 1%nat) = Some 2048).
Proof.
  split; [repeat constructor; cbn; intuition congruence|]. split.
  - vm_compute. repeat split.
  - vm_compute. reflexivity.
Qed.

Example ex_insert_full :
  insert (fun _ => plain (lit "x.in") 0x4000001) empty_map 0%nat = Err ValueError.
Proof. reflexivity. Qed.
