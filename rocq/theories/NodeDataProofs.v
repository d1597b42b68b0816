(** Lemmas about the data of a node: construction. *)
From Coq Require Import ZifyBool ZifyNat Lia.
From Verif Require Import Py PyLemmas TypesModel CompilerModel VmModel TypesSpec TypesProofs
  CompilerProofs VmProofs VmPackProofs VmUnpackProofs CompilerProps VmProps
  TextModel SigModel AttrModel NodeModel RmfModel FileModel FileProofs NodeDataModel NodeDataSpec.
Ltac Zify.zify_post_hook ::= Z.div_mod_to_equations.

(** The initial bytes that one turn of the loop adds. *)
Definition turn_init (fuel : nat) (H : theap) (target : delem) (v : ivalue) (n : Z) : res bytes :=
  match v with IVNone => mk_zeros n | _ => createInitData fuel H target v end.

Definition first_value (p : port) : oval :=
  match init_of p with IVNone => OVal (VInt 0) | v => OInit v end.

Definition spread (maps : list portmap) : list nat :=
  flat_map (fun m => repeat (pm_port m) (Z.to_nat (pm_len m))) maps.

Fixpoint sum_len (maps : list portmap) : Z :=
  match maps with [] => 0 | m :: r => pm_len m + sum_len r end.

(** What the loop leaves behind for the ports [l], starting with number [i] at
    offset [a]. *)
Fixpoint laid (fuel : nat) (d : dir) (W : world) (i a : Z) (l : list nat) (maps : list portmap)
    (progs inits : list bytes) : Prop :=
  match l, maps, progs, inits with
  | [], [], [], [] => True
  | o :: l', m :: maps', p :: progs', b :: inits' =>
    pm_port m = o /\ pm_offset m = a /\ pt_id (w_ports W o) = Some i /\
    (exists target,
       resolve_data_element (w_types W) (pt_elem (w_ports W o)) = Ok target /\
       packLen fuel (w_types W) (pt_elem (w_ports W o)) = Ok (pm_len m) /\
       compileProg fuel d (w_types W) target = Ok p /\
       turn_init fuel (w_types W) target (init_of (w_ports W o)) (pm_len m) = Ok b) /\
    laid fuel d W (i + 1) (a + pm_len m) l' maps' progs' inits'
  | _, _, _, _ => False
  end.

Lemma upd_same {A} (f : nat -> A) i x : upd_nat f i x i = x.
Proof. unfold upd_nat. rewrite Nat.eqb_refl. reflexivity. Qed.
Lemma upd_other {A} (f : nat -> A) i j x : j <> i -> upd_nat f i x j = f j.
Proof. intros N. unfold upd_nat. destruct (Nat.eqb_spec j i); congruence. Qed.

(** Everything but the elements of the listed ports is the same. *)
Definition same_but_elems (l : list nat) (W W' : world) : Prop :=
  w_types W' = w_types W /\ w_ntypes W' = w_ntypes W /\ w_nports W' = w_nports W /\
  (forall o, with_pelem (w_ports W' o) (pt_elem (w_ports W o)) = w_ports W o) /\
  (forall o, ~ In o l -> w_ports W' o = w_ports W o).

Lemma with_pelem_elem p : with_pelem p (pt_elem p) = p.
Proof. destruct p; reflexivity. Qed.

Lemma same_refl l W : same_but_elems l W W.
Proof.
  split; [auto|]. split; [auto|]. split; [auto|]. split; [|auto]. intros. apply with_pelem_elem.
Qed.

Lemma same_id l W W' o : same_but_elems l W W' -> pt_id (w_ports W' o) = pt_id (w_ports W o).
Proof. intros (_ & _ & _ & S & _). specialize (S o). rewrite <- S. reflexivity. Qed.
Lemma same_init l W W' o : same_but_elems l W W' -> init_of (w_ports W' o) = init_of (w_ports W o).
Proof. intros (_ & _ & _ & S & _). specialize (S o). rewrite <- S. reflexivity. Qed.

Lemma same_trans l l' W W1 W2 : same_but_elems l W W1 -> same_but_elems l' W1 W2 ->
  same_but_elems (l ++ l') W W2.
Proof.
  intros (A1 & A2 & A3 & A4 & A5) (B1 & B2 & B3 & B4 & B5).
  split; [congruence|]. split; [congruence|]. split; [congruence|]. split.
  - intros o. specialize (A4 o). specialize (B4 o).
    destruct (w_ports W o), (w_ports W1 o), (w_ports W2 o). unfold with_pelem in *. cbn in *. congruence.
  - intros o N. rewrite B5, A5; auto; intros I; apply N, in_or_app; auto.
Qed.

Lemma same_set W o e : same_but_elems [o] W (set_port W o (with_pelem (w_ports W o) e)).
Proof.
  split; [reflexivity|]. split; [reflexivity|]. split; [reflexivity|]. split.
  - intros o'. cbn [w_ports set_port]. destruct (Nat.eq_dec o' o) as [->|N].
    + rewrite upd_same. destruct (w_ports W o); reflexivity.
    + rewrite upd_other by auto. apply with_pelem_elem.
  - intros o' N. cbn [w_ports set_port]. apply upd_other. cbn in N. intuition congruence.
Qed.

(** Ports that keep their elements keep what was laid out for them. *)
Lemma laid_frame fuel d W W' : forall l i a maps progs inits lx,
  same_but_elems lx W W' -> (forall o j, In o lx -> pt_id (w_ports W o) = Some j -> i + len l <= j) ->
  laid fuel d W i a l maps progs inits -> laid fuel d W' i a l maps progs inits.
Proof.
  induction l as [|o l IH]; intros i a maps progs inits lx S N L;
    destruct maps as [|m maps], progs as [|p progs], inits as [|b inits]; try exact L.
  cbn [laid] in *. destruct L as (A & B & C & D & L).
  assert (E : w_ports W' o = w_ports W o).
  { apply (proj2 (proj2 (proj2 (proj2 S)))). intros I. specialize (N o i I C).
    rewrite len_cons in N. pose proof (len_nonneg l). lia. }
  rewrite E. rewrite (proj1 S). split; [auto|]. split; [auto|]. split; [auto|]. split; [auto|].
  apply (IH (i + 1) _ _ _ _ lx); auto. intros o' j I J. specialize (N o' j I J).
  rewrite len_cons in N. lia.
Qed.

Lemma laid_app fuel d W l2 : forall l i a maps progs inits maps2 progs2 inits2,
  laid fuel d W i a l maps progs inits ->
  laid fuel d W (i + len l) (a + sum_len maps) l2 maps2 progs2 inits2 ->
  laid fuel d W i a (l ++ l2) (maps ++ maps2) (progs ++ progs2) (inits ++ inits2).
Proof.
  induction l as [|o l IH]; intros i a maps progs inits maps2 progs2 inits2 L L2;
    destruct maps as [|m maps], progs as [|p progs], inits as [|b inits]; try contradiction.
  - cbn [app]. change (@len nat []) with 0 in L2. cbn [sum_len] in L2. rewrite !Z.add_0_r in L2. exact L2.
  - cbn [laid app] in *. destruct L as (A & B & C & D & L). repeat (split; [assumption|]).
    apply IH; auto. rewrite len_cons in L2. cbn [sum_len] in L2.
    replace (i + 1 + len l) with (i + (1 + len l)) by lia.
    replace (a + pm_len m + sum_len maps) with (a + (pm_len m + sum_len maps)) by lia. exact L2.
Qed.

(** One turn. *)
Lemma add_to_side_inv fuel d types W s o W' s' :
  add_to_side fuel d types W s o = Ok (W', s') ->
  same_but_elems [o] W W' /\
  exists m p b, laid fuel d W' (len (s_progs s)) (s_offset s) [o] [m] [p] [b] /\
    s' = mk_side (s_offset s + pm_len m) (s_init s ++ b) (s_map s ++ [m])
           (s_bytemap s ++ spread [m]) (s_progs s ++ [p]) (s_values s ++ [first_value (w_ports W o)]).
Proof.
  unfold add_to_side. intros E.
  apply bind_ok in E as (u & _ & E).
  apply bind_ok in E as ([e target] & R & E).
  apply bind_ok in E as (n & P & E).
  apply bind_ok in E as (prog & C & E).
  apply bind_ok in E as (u' & S & E).
  apply bind_ok in E as (b & I & E).
  injection E as <- <-. split; [apply same_set|].
  exists (mk_portmap (s_offset s) n o), prog, b. split.
  - cbn [laid pm_port pm_offset pm_len set_port w_ports w_types] in *. rewrite upd_same.
    split; [reflexivity|]. split; [reflexivity|]. split.
    { unfold check_sync in S. cbn [with_pelem pt_id]. destruct (pt_id (w_ports W o)) as [j|]; [|discriminate].
      destruct (Z.eqb_spec (len (s_progs s)) j); [congruence|discriminate]. }
    split; [|exact Logic.I]. exists target. cbn [with_pelem pt_elem].
    unfold resolve_sig in R. apply bind_ok in R as (e' & R1 & R). apply bind_ok in R as (tg & R2 & R).
    injection R as -> ->. split; [exact R2|]. split; [exact P|]. split; [exact C|].
    unfold turn_init. unfold init_of in *. cbn [with_pelem pt_attr]. destruct (pt_attr (w_ports W o)) as [pa|]; [|exact I].
    destruct (pa_init pa); exact I.
  - unfold spread, first_value. cbn [pm_len pm_port flat_map]. rewrite app_nil_r. reflexivity.
Qed.

Lemma laid_later fuel d W o j : forall l i a maps progs inits,
  laid fuel d W i a l maps progs inits -> In o l -> pt_id (w_ports W o) = Some j -> i <= j.
Proof.
  induction l as [|x l IH]; intros i a maps progs inits L I J; [destruct I|].
  destruct maps as [|m maps], progs as [|p progs], inits as [|b inits]; try contradiction.
  cbn [laid] in L. destruct L as (_ & _ & C & _ & L). destruct I as [->|I].
  - rewrite C in J. injection J as <-. lia.
  - specialize (IH _ _ _ _ _ L I J). lia.
Qed.

Lemma add_all_inv fuel d types : forall l W s W' s',
  add_all fuel d types W s l = Ok (W', s') ->
  same_but_elems l W W' /\
  exists maps progs inits, laid fuel d W' (len (s_progs s)) (s_offset s) l maps progs inits /\
    s' = mk_side (s_offset s + sum_len maps) (s_init s ++ concat inits) (s_map s ++ maps)
           (s_bytemap s ++ spread maps) (s_progs s ++ progs)
           (s_values s ++ map (fun o => first_value (w_ports W o)) l).
Proof.
  induction l as [|o l IH]; intros W s W' s' E.
  - cbn [add_all] in E. injection E as <- <-. split; [apply same_refl|].
    exists [], [], []. split; [exact I|]. cbn. rewrite !app_nil_r, Z.add_0_r. destruct s; reflexivity.
  - cbn [add_all] in E. apply bind_ok in E as ([W1 s1] & E1 & E).
    apply add_to_side_inv in E1 as (S1 & m & p & b & L1 & ->).
    apply IH in E as (S2 & maps & progs & inits & L2 & ->). cbn [s_progs s_offset s_init s_map s_bytemap s_values] in *.
    split; [apply (same_trans [o] l W W1 W'); auto|].
    exists (m :: maps), (p :: progs), (b :: inits). split.
    + apply (laid_app fuel d W' l [o] _ _ [m] [p] [b]).
      * assert (N : forall o' j, In o' l -> pt_id (w_ports W1 o') = Some j -> len (s_progs s) + len [o] <= j).
        { intros o' j I J. rewrite len_app in L2. change (len [p]) with 1 in L2. change (len [o]) with 1.
          rewrite <- (same_id _ _ _ o' S2) in J.
          eapply laid_later; eauto. }
        eapply laid_frame; eauto.
      * rewrite len_app in L2. cbn [sum_len]. rewrite Z.add_0_r. exact L2.
    + cbn [sum_len concat spread flat_map map]. rewrite <- !app_assoc, Z.add_assoc. cbn [app].
      do 2 f_equal. f_equal. apply map_ext. intros o'.
      unfold first_value. rewrite (same_init _ _ _ o' S1). reflexivity.
Qed.

(** ** The same with types *)

Lemma means_target H e t tg : means H e t -> resolve_data_element H e = Ok tg -> means H tg t.
Proof.
  unfold resolve_data_element. generalize MAX_RECURSE_DEPTH. intros k.
  revert e. induction k as [|k IH]; intros e M R.
  - cbn [resolve_loop] in R. destruct (is_reference e); [discriminate|]. injection R as <-. exact M.
  - cbn [resolve_loop] in R. destruct e as [nm c lo hi a|nm es|nm [i|s|o]]; try discriminate;
      try (injection R as <-; exact M).
    apply (IH (dt_elem (H o))); auto. destruct M as [n M]. inversion M; subst. eexists; eauto.
Qed.

Lemma means_packLen H e t fuel n : means H e t -> packLen fuel H e = Ok n -> n = tlen t.
Proof.
  intros [m D] P.
  assert (packLen (Nat.max m fuel) H e = Ok (tlen t)) as P1 by (eapply packLen_denotes; eauto; lia).
  assert (packLen (Nat.max m fuel) H e = Ok n) as P2
    by (unfold packLen in *; eapply packLen_fuel; [|exact P]; lia).
  congruence.
Qed.

Fixpoint tlaid (d : dir) (W : world) (i a : Z) (l : list nat) (ts : list ty) (maps : list portmap)
    (progs : list bytes) : Prop :=
  match l, ts, maps, progs with
  | [], [], [], [] => True
  | o :: l', t :: ts', m :: maps', p :: progs' =>
    pm_port m = o /\ pm_offset m = a /\ pm_len m = tlen t /\ pt_id (w_ports W o) = Some i /\
    p = head d (tlen t) ++ body d t /\ regular t /\
    tlaid d W (i + 1) (a + tlen t) l' ts' maps' progs'
  | _, _, _, _ => False
  end.

Definition port_means (W : world) (o : nat) (t : ty) : Prop :=
  means (w_types W) (pt_elem (w_ports W o)) t.

Lemma laid_tlaid fuel d W : forall l i a maps progs inits ts,
  laid fuel d W i a l maps progs inits -> Forall2 (port_means W) l ts -> Forall regular ts ->
  tlaid d W i a l ts maps progs /\ sum_len maps = total ts.
Proof.
  induction l as [|o l IH]; intros i a maps progs inits ts L M R;
    destruct maps as [|m maps], progs as [|p progs], inits as [|b inits]; try contradiction;
    inversion M; subst.
  - split; [exact I|reflexivity].
  - inversion R; subst. cbn [laid] in L. destruct L as (A & B & C & (tg & D1 & D2 & D3 & D4) & L).
    pose proof (means_packLen _ _ _ _ _ H1 D2) as E.
    eapply IH in L; eauto. destruct L as [L S]. cbn [sum_len total]. split; [|lia].
    cbn [tlaid]. split; [auto|]. split; [auto|]. split; [auto|]. split; [auto|]. split.
    { eapply compile_means; eauto. eapply means_target; eauto. }
    split; [auto|]. rewrite <- E. exact L.
Qed.

Lemma tlaid_nth d W : forall l i a ts maps progs k t,
  tlaid d W i a l ts maps progs -> nth_error ts k = Some t ->
  exists m, nth_error maps k = Some m /\ nth_error l k = Some (pm_port m) /\
    nth_error progs k = Some (head d (tlen t) ++ body d t) /\
    pm_offset m = a + port_start ts k /\ pm_len m = tlen t /\
    pt_id (w_ports W (pm_port m)) = Some (i + Z.of_nat k) /\ regular t.
Proof.
  induction l as [|o l IH]; intros i a ts maps progs k t L N;
    destruct ts as [|t0 ts], maps as [|m maps], progs as [|p progs]; try contradiction.
  - destruct k; discriminate.
  - cbn [tlaid] in L. destruct L as (A & B & C & D & E & R & L). destruct k as [|k]; cbn [nth_error] in *.
    + injection N as ->. exists m. unfold port_start. cbn [firstn total].
      rewrite A, B, C, D, E, !Z.add_0_r. auto 10.
    + destruct (IH _ _ _ _ _ _ _ L N) as (m' & A' & B' & C' & D' & E' & F' & R').
      exists m'. unfold port_start in *. cbn [firstn total].
      split; [auto|]. split; [auto|]. split; [auto|]. split; [lia|]. split; [auto|]. split; [|auto].
      rewrite F'. f_equal. lia.
Qed.

Lemma tlaid_length d W : forall l i a ts maps progs, tlaid d W i a l ts maps progs ->
  length l = length ts /\ length maps = length ts /\ length progs = length ts /\
  Forall regular ts.
Proof.
  induction l as [|o l IH]; intros i a ts maps progs L;
    destruct ts as [|t0 ts], maps as [|m maps], progs as [|p progs]; try contradiction; [auto|].
  cbn [tlaid] in L. destruct L as (A & B & C & D & E & R & L). apply IH in L as (? & ? & ? & ?).
  cbn [length]. auto 10.
Qed.

Lemma total_app : forall a b, total (a ++ b) = total a + total b.
Proof. induction a; intros; cbn [app total]; [lia|rewrite IHa; lia]. Qed.
Lemma total_nonneg ts : Forall regular ts -> 0 <= total ts.
Proof.
  induction 1 as [|t ts [W _] _ IH]; cbn [total]; [lia|]. pose proof (tlen_nonneg t W). lia.
Qed.
Lemma firstn_regular ts k : Forall regular ts -> Forall regular (firstn k ts).
Proof. intros F. rewrite <- (firstn_skipn k ts) in F. apply Forall_app in F. tauto. Qed.
Lemma skipn_regular ts k : Forall regular ts -> Forall regular (skipn k ts).
Proof. intros F. rewrite <- (firstn_skipn k ts) in F. apply Forall_app in F. tauto. Qed.
Lemma port_start_S ts k t : nth_error ts k = Some t -> port_start ts (S k) = port_start ts k + tlen t.
Proof.
  unfold port_start. revert k. induction ts as [|x ts IH]; intros [|k] N; try discriminate.
  - cbn in *. injection N as ->. lia.
  - cbn [nth_error] in N. cbn [firstn total] in *. rewrite (IH _ N). lia.
Qed.
Lemma port_start_mono ts j k : Forall regular ts -> (j <= k)%nat -> port_start ts j <= port_start ts k.
Proof.
  intros R L. unfold port_start. replace k with (j + (k - j))%nat by lia.
  rewrite <- (firstn_skipn j (firstn (j + (k - j)) ts)). rewrite total_app, firstn_firstn.
  rewrite Nat.min_l by lia.
  assert (0 <= total (skipn j (firstn (j + (k - j)) ts)))
    by (apply total_nonneg, skipn_regular, firstn_regular, R). lia.
Qed.
Lemma port_start_total ts k : Forall regular ts -> 0 <= port_start ts k <= total ts.
Proof.
  intros R. split; [apply total_nonneg, firstn_regular, R|].
  unfold port_start. rewrite <- (firstn_skipn k ts) at 2. rewrite total_app.
  pose proof (total_nonneg _ (skipn_regular _ k R)). lia.
Qed.
Lemma port_end ts k t : Forall regular ts -> nth_error ts k = Some t ->
  0 <= port_start ts k /\ 0 <= tlen t /\ port_start ts k + tlen t <= total ts.
Proof.
  intros R N. pose proof (port_start_total ts k R). pose proof (port_start_total ts (S k) R).
  rewrite (port_start_S _ _ _ N) in *.
  apply nth_error_In in N. rewrite Forall_forall in R. apply R in N as [W _].
  pose proof (tlen_nonneg t W). lia.
Qed.

(** ** Bytes and ports *)

Lemma spread_len d W : forall l i a ts maps progs, tlaid d W i a l ts maps progs ->
  len (spread maps) = total ts.
Proof.
  induction l as [|o l IH]; intros i a ts maps progs L;
    destruct ts as [|t0 ts], maps as [|m maps], progs as [|p progs]; try contradiction; [reflexivity|].
  cbn [tlaid] in L. destruct L as (A & B & C & D & E & [R _] & L). apply IH in L.
  unfold spread in *. cbn [flat_map total]. rewrite len_app, L, C.
  unfold len. rewrite repeat_length. pose proof (tlen_nonneg t0 R). lia.
Qed.

Lemma spread_nth d W : forall l i a ts maps progs x, tlaid d W i a l ts maps progs ->
  0 <= x < total ts ->
  exists k t m, nth_error ts k = Some t /\ nth_error maps k = Some m /\
    port_start ts k <= x < port_start ts k + tlen t /\
    nth_error (spread maps) (Z.to_nat x) = Some (pm_port m).
Proof.
  induction l as [|o l IH]; intros i a ts maps progs x L X;
    destruct ts as [|t0 ts], maps as [|m maps], progs as [|p progs]; try contradiction.
  - cbn [total] in X. lia.
  - cbn [tlaid] in L. destruct L as (A & B & C & D & E & [R _] & L).
    pose proof (tlen_nonneg t0 R). unfold spread. cbn [flat_map total] in *.
    destruct (Z.ltb_spec x (tlen t0)).
    + exists 0%nat, t0, m. split; [reflexivity|]. split; [reflexivity|].
      unfold port_start. cbn [firstn total]. split; [lia|].
      rewrite nth_error_app1 by (rewrite repeat_length; lia).
      apply nth_error_repeat. lia.
    + destruct (IH _ _ _ _ _ (x - tlen t0) L ltac:(lia)) as (k & t & m' & N1 & N2 & X' & N3).
      exists (S k), t, m'. split; [exact N1|]. split; [exact N2|].
      unfold port_start in *. cbn [firstn total]. split; [lia|].
      rewrite nth_error_app2 by (rewrite repeat_length; lia). rewrite repeat_length.
      rewrite <- N3. unfold spread. f_equal. lia.
Qed.

Definition meets (ts : list ty) (off e : Z) (i : nat) : bool :=
  match nth_error ts i with
  | Some t => Z.max (port_start ts i) off <? Z.min (port_start ts i + tlen t) e
  | None => false
  end.

Lemma filter_none {A} (f : A -> bool) l : (forall x, In x l -> f x = false) -> filter f l = [].
Proof.
  induction l as [|x l IH]; intros N; [reflexivity|]. cbn [filter].
  rewrite (N x) by (cbn; auto). apply IH. intros y I. apply N. cbn; auto.
Qed.

Lemma affected_next ts x e k t : Forall regular ts -> nth_error ts k = Some t ->
  port_start ts k <= x < port_start ts k + tlen t -> x < e ->
  filter (meets ts x e) (seq 0 (length ts)) =
  k :: filter (meets ts (port_start ts k + tlen t) e) (seq 0 (length ts)).
Proof.
  intros R N X XE. assert (K : (k < length ts)%nat) by (apply nth_error_Some; congruence).
  replace (length ts) with (k + S (length ts - S k))%nat by lia.
  rewrite seq_app, !filter_app. cbn [seq filter Nat.add].
  assert (Low : forall y, port_start ts k <= y -> filter (meets ts y e) (seq 0 k) = []).
  { intros y Y. apply filter_none. intros j J. apply in_seq in J. unfold meets.
    destruct (nth_error ts j) as [tj|] eqn:Nj; [|reflexivity].
    pose proof (port_start_mono ts (S j) k R ltac:(lia)) as Mo. rewrite (port_start_S _ _ _ Nj) in Mo. lia. }
  rewrite !Low by lia. cbn [app].
  assert (meets ts x e k = true) as -> by (unfold meets; rewrite N; lia).
  assert (meets ts (port_start ts k + tlen t) e k = false) as -> by (unfold meets; rewrite N; lia).
  f_equal. apply filter_ext_in. intros j J. apply in_seq in J. unfold meets.
  destruct (nth_error ts j) as [tj|] eqn:Nj; [|reflexivity].
  pose proof (port_start_mono ts (S k) j R ltac:(lia)) as Mo. rewrite (port_start_S _ _ _ N) in Mo. lia.
Qed.

Lemma affected_meets ts off n : affected ts off n = filter (meets ts off (off + n)) (seq 0 (length ts)).
Proof. reflexivity. Qed.

Lemma index_at {A} (l : list A) i a : 0 <= i -> nth_error l (Z.to_nat i) = Some a -> index l i = Ok a.
Proof.
  intros I N. assert (Z.to_nat i < length l)%nat by (apply nth_error_Some; congruence).
  destruct (index_nth l i) as (a' & N' & ->); [unfold len; lia|congruence].
Qed.

(** The model's loop finds exactly the ports that meet the range. *)
Lemma byte_loop_ok d W s l ts : tlaid d W 0 0 l ts (s_map s) (s_progs s) ->
  s_bytemap s = spread (s_map s) ->
  forall fuel x e, 0 <= x <= total ts -> e <= total ts -> (total ts < Z.of_nat fuel + x) ->
  exists ms, byte_loop fuel W s x e = Ok ms /\
    map Some ms = map (nth_error (s_map s)) (filter (meets ts x e) (seq 0 (length ts))).
Proof.
  intros L B. destruct (tlaid_length _ _ _ _ _ _ _ _ L) as (_ & LM & _ & R).
  induction fuel as [|fuel IH]; intros x e X E F.
  - exfalso. lia.
  - cbn [byte_loop]. destruct (Z.ltb_spec x e).
    + destruct (spread_nth _ _ _ _ _ _ _ _ x L ltac:(lia)) as (k & t & m & N1 & N2 & XX & N3).
      destruct (tlaid_nth _ _ _ _ _ _ _ _ _ _ L N1) as (m' & M1 & M2 & M3 & M4 & M5 & M6 & M7).
      assert (m' = m) as -> by congruence.
      rewrite B. rewrite (index_at _ x (pm_port m)) by (auto; lia). cbn [bind]. rewrite M6. cbn [bind].
      rewrite (index_at _ (0 + Z.of_nat k) m)
        by (try lia; replace (Z.to_nat (0 + Z.of_nat k)) with k by lia; exact N2). cbn [bind].
      rewrite Nat.eqb_refl. cbn [negb]. rewrite M4, M5, Z.add_0_l.
      destruct (IH (port_start ts k + tlen t) e ltac:(pose proof (port_end ts k t R N1); lia) E ltac:(lia)) as (ms & -> & Q).
      exists (m :: ms). split; [reflexivity|]. rewrite (affected_next ts x e k t) by auto.
      cbn [map]. rewrite N2, Q. reflexivity.
    + exists []. split; [reflexivity|]. cbn [map]. rewrite filter_none; [reflexivity|].
      intros j _. unfold meets. destruct (nth_error ts j); lia.
Qed.

Lemma byte_to_port_ok W D l ts : tlaid Unpack W 0 0 l ts (s_map (d_inside D)) (s_progs (d_inside D)) ->
  s_bytemap (d_inside D) = spread (s_map (d_inside D)) ->
  forall off n, 0 <= off -> off + n <= total ts -> off <= total ts ->
  exists ms, byte_to_port W D off n = Ok ms /\
    map Some ms = map (nth_error (s_map (d_inside D))) (affected ts off n).
Proof.
  intros L B off n O E E2. unfold byte_to_port. pose proof (spread_len _ _ _ _ _ _ _ _ L) as SL.
  rewrite B, SL. replace (total ts <? off) with false by lia.
  replace (total ts <? off + n) with false by lia.
  apply (byte_loop_ok _ _ _ _ _ L B); auto. unfold len in SL. lia.
Qed.

(** ** Reading *)

Definition pleasant (t : ty) : Prop := flat t \/ nested t.

Lemma readable_flat t b : flat t -> readable t b = dec t b.
Proof.
  destruct t as [k|k n| |n|ms]; intros F; try reflexivity. cbn [readable].
  replace (existsb (fun m : str * ty => is_rec (snd m)) ms) with false; [reflexivity|].
  destruct F as [F _]. induction F as [|m ms E _ IH]; [reflexivity|]. cbn [existsb]. rewrite E. exact IH.
Qed.
Lemma readable_nested t b : nested t -> readable t b = None.
Proof.
  destruct t as [k|k n| |n|ms]; intros F; try contradiction. cbn [readable].
  replace (existsb (fun m : str * ty => is_rec (snd m)) ms) with true; [reflexivity|].
  cbn in F. symmetry. apply existsb_exists. apply Exists_exists in F. exact F.
Qed.

Lemma exec_readable t data : regular t -> pleasant t -> bytes_ok data -> len data = tlen t ->
  match readable t data with
  | Some v => exec_unpack_prog (head Unpack (tlen t) ++ body Unpack t) data 0 = Ok v
  | None => exists e, exec_unpack_prog (head Unpack (tlen t) ++ body Unpack t) data 0 = Err e
  end.
Proof.
  intros [W T] [F|N] B L.
  - rewrite readable_flat by auto. rewrite exec_unpack_exact by (auto; lia).
    replace (len data - 0 <? tlen t) with false by lia.
    replace (win data 0 (tlen t)) with data.
    + destruct (dec t data); eauto.
    + unfold win. cbn [skipn Z.to_nat]. rewrite <- L. rewrite to_nat_len, firstn_all. reflexivity.
  - rewrite readable_nested by auto.
    destruct (exec_unpack_nested t data 0 W N T B ltac:(lia) ltac:(lia)) as (e & E & _). eauto.
Qed.

Lemma part_len ts data k t : Forall regular ts -> nth_error ts k = Some t -> total ts <= len data ->
  len (part_of ts data k) = tlen t.
Proof.
  intros R N L. unfold part_of. rewrite N, len_firstn, len_skipn.
  pose proof (port_end ts k t R N). lia.
Qed.
Lemma part_ok ts data k : bytes_ok data -> bytes_ok (part_of ts data k).
Proof.
  intros B. unfold part_of. destruct (nth_error ts k); [|constructor].
  apply bytes_ok_firstn, bytes_ok_skipn, B.
Qed.

Definition unlocked_read (t : ty) (D : ndata) (part : bytes) (x : ndata * pres pyval) : Prop :=
  match readable t part with
  | Some v => x = (D, Done v)
  | None => exists e, x = (with_lock D true, Raised e)
  end.

Lemma unpack_require_ok W F D l ts k t i :
  tlaid Unpack W 0 0 l ts (s_map (d_inside D)) (s_progs (d_inside D)) ->
  Forall pleasant ts -> nth_error ts k = Some t -> d_in D = Some i ->
  bytes_ok (f_data (F i)) -> len (f_data (F i)) = total ts ->
  if d_locked D then unpack_require F D (Z.of_nat k) (port_start ts k) (tlen t) = (D, Blocked)
  else unlocked_read t D (part_of ts (f_data (F i)) k)
         (unpack_require F D (Z.of_nat k) (port_start ts k) (tlen t)).
Proof.
  intros L P N I B T.
  destruct (tlaid_length _ _ _ _ _ _ _ _ L) as (_ & _ & _ & R).
  destruct (tlaid_nth _ _ _ _ _ _ _ _ _ _ L N) as (m & M1 & M2 & M3 & M4 & M5 & M6 & M7).
  pose proof (port_end ts k t R N) as PE.
  unfold unlocked_read, unpack_require.
  rewrite (index_at _ (Z.of_nat k) _ ltac:(lia) ltac:(rewrite Nat2Z.id; exact M3)), I.
  unfold file_read. replace ((port_start ts k <? 0) || (len (f_data (F i)) <? port_start ts k + tlen t)) with false by lia.
  assert (slice (f_data (F i)) (port_start ts k) (port_start ts k + tlen t) = part_of ts (f_data (F i)) k) as ->.
  { unfold part_of. rewrite N. unfold slice. rewrite !slice_bound_in by lia. f_equal. lia. }
  destruct (d_locked D); [reflexivity|].
  assert (Pl : pleasant t) by (rewrite Forall_forall in P; apply P; eapply nth_error_In; eauto).
  pose proof (exec_readable t (part_of ts (f_data (F i)) k) M7 Pl (part_ok _ _ _ B)
    (part_len ts (f_data (F i)) k t R N ltac:(lia))) as X.
  destruct (readable t _) as [v|].
  - rewrite X. reflexivity.
  - destruct X as [e ->]. eauto.
Qed.

Lemma notify_ok W F D l ts i :
  tlaid Unpack W 0 0 l ts (s_map (d_inside D)) (s_progs (d_inside D)) ->
  Forall pleasant ts -> d_in D = Some i ->
  bytes_ok (f_data (F i)) -> len (f_data (F i)) = total ts ->
  forall ks ms, map Some ms = map (nth_error (s_map (d_inside D))) ks ->
  (forall k, In k ks -> (k < length ts)%nat) ->
  exists calls out,
    notify_loop W F D ms =
      ((if d_locked D then D else if snd (deliver ts (f_data (F i)) ks) then D else with_lock D true),
       calls, out) /\
    (if d_locked D then calls = [] /\ out = match ks with [] => Done tt | _ => Blocked end
     else numbered W calls = fst (deliver ts (f_data (F i)) ks) /\
       if snd (deliver ts (f_data (F i)) ks) then out = Done tt else exists e, out = Raised e).
Proof.
  intros L P I B T. destruct (tlaid_length _ _ _ _ _ _ _ _ L) as (_ & _ & _ & R).
  induction ks as [|k ks IH]; intros ms Q K.
  - destruct ms; [|discriminate]. cbn [notify_loop deliver snd fst].
    exists [], (Done tt). destruct (d_locked D); auto.
  - destruct ms as [|m ms]; [discriminate|]. cbn [map] in Q. injection Q as Qm Q.
    assert (Kk : (k < length ts)%nat) by (apply K; cbn; auto).
    destruct (nth_error ts k) as [t|] eqn:N; [|apply nth_error_None in N; lia].
    destruct (tlaid_nth _ _ _ _ _ _ _ _ _ _ L N) as (m' & M1 & M2 & M3 & M4 & M5 & M6 & M7).
    assert (m' = m) as -> by congruence.
    cbn [notify_loop]. rewrite M6, M4, M5, !Z.add_0_l.
    pose proof (unpack_require_ok W F D l ts k t i L P N I B T) as U.
    specialize (IH ms Q ltac:(intros; apply K; cbn; auto)) as (calls & out & E & O).
    destruct (d_locked D) eqn:Lk.
    + rewrite U. exists [], Blocked. auto.
    + unfold unlocked_read in U. cbn [deliver]. rewrite N.
      destruct (readable t (part_of ts (f_data (F i)) k)) as [v|].
      * rewrite U, E. destruct (deliver ts (f_data (F i)) ks) as [c ok]. cbn [fst snd] in *.
        exists ((pm_port m, v) :: calls), out. split; [reflexivity|].
        destruct O as [O1 O2]. split; [|exact O2].
        unfold numbered in *. cbn [map fst snd]. rewrite O1. f_equal. f_equal.
        unfold port_number. rewrite M6. lia.
      * destruct U as [e ->]. cbn [fst snd]. exists [], (Raised e). split; [reflexivity|]. split; [reflexivity|eauto].
Qed.

(** ** Writing *)

Definition sized (ts : list ty) (parts : list bytes) : Prop := Forall2 (fun t b => len b = tlen t) ts parts.

Lemma sized_length ts parts : sized ts parts -> length parts = length ts.
Proof. induction 1; cbn; congruence. Qed.

Lemma sized_concat ts parts : sized ts parts -> len (concat parts) = total ts.
Proof. induction 1; cbn [concat total]; [reflexivity|]. rewrite len_app. lia. Qed.

Lemma sized_replaced ts parts k t b : sized ts parts -> nth_error ts k = Some t -> len b = tlen t ->
  sized ts (replaced parts k b).
Proof.
  intros S. revert k. induction S as [|t0 b0 ts parts H S IH]; intros [|k] N L; try discriminate.
  - injection N as ->. constructor; auto.
  - constructor; [auto|]. apply IH; auto.
Qed.

Lemma concat_replaced ts parts k t b : Forall regular ts -> sized ts parts -> nth_error ts k = Some t ->
  firstn (Z.to_nat (port_start ts k)) (concat parts) ++ b ++
    skipn (Z.to_nat (port_start ts k + tlen t)) (concat parts) = concat (replaced parts k b).
Proof.
  intros R S. revert k. induction S as [|t0 b0 ts parts H S IH]; intros [|k] N; try discriminate.
  - injection N as ->. unfold port_start, replaced. change (Z.to_nat (total (firstn 0 (t :: ts)))) with 0%nat.
    cbn [firstn total app concat skipn]. rewrite Z.add_0_l, <- H. f_equal.
    rewrite to_nat_len, skipn_app, skipn_all, Nat.sub_diag. reflexivity.
  - inversion R; subst. cbn [nth_error] in N. specialize (IH H3 _ N).
    pose proof (port_end ts k t H3 N). destruct H2 as [W _]. pose proof (tlen_nonneg t0 W).
    unfold port_start in *. cbn [firstn total concat]. 
    change (replaced (b0 :: parts) (Datatypes.S k) b) with (b0 :: replaced parts k b). cbn [concat].
    rewrite <- H in *. rewrite firstn_app, skipn_app.
    rewrite firstn_all2 by (unfold len in *; lia). rewrite skipn_all2 by (unfold len in *; lia).
    cbn [app]. rewrite <- app_assoc. f_equal. etransitivity; [|exact IH]. f_equal; [f_equal; unfold len; lia|].
    f_equal. f_equal. unfold len. lia.
Qed.

Lemma wr_all data b : len b = len data -> wr data 0 b = b.
Proof.
  intros L. unfold wr. cbn [firstn Z.to_nat app]. rewrite skipn_all2 by (unfold len in *; lia).
  apply app_nil_r.
Qed.

Lemma replaced_set {A} (l : list A) k x : set_nth l (Z.of_nat k) x = replaced l k x.
Proof. unfold set_nth, replaced. rewrite Nat2Z.id. do 3 f_equal. lia. Qed.

Lemma replaced_length {A} (l : list A) k x : (k < length l)%nat -> length (replaced l k x) = length l.
Proof.
  intros. unfold replaced. rewrite app_length, firstn_length. cbn [length]. rewrite skipn_length. lia.
Qed.

Lemma replaced_nth {A} (l : list A) k x j : (k < length l)%nat ->
  nth_error (replaced l k x) j = if Nat.eqb j k then Some x else nth_error l j.
Proof.
  intros L. unfold replaced. assert (length (firstn k l) = k) as E by (rewrite firstn_length; lia).
  destruct (Nat.eqb_spec j k) as [->|N].
  - rewrite nth_error_app2 by lia. rewrite E, Nat.sub_diag. reflexivity.
  - destruct (Nat.ltb_spec j k).
    + rewrite nth_error_app1 by lia. rewrite nth_error_firstn.
      destruct (Nat.ltb_spec j k); [reflexivity|lia].
    + rewrite nth_error_app2 by lia. rewrite E.
      replace (j - k)%nat with (S (j - k - 1)) by lia. cbn [nth_error]. rewrite nth_error_skipn. f_equal. lia.
Qed.

Lemma exec_store t v : regular t ->
  match exec_pack_prog (head Pack (tlen t) ++ body Pack t) (zeros (tlen t)) 0 v with
  | Ok r => roomy t v /\ enc t v = Some r /\ len r = tlen t
  | Err _ => roomy t v -> enc t v = None
  end.
Proof.
  intros [W T]. pose proof (tlen_nonneg t W).
  assert (LZ : len (zeros (tlen t)) = tlen t) by (unfold zeros, len; rewrite repeat_length; lia).
  destruct (exec_pack_prog _ _ _ _) as [r|e] eqn:E.
  - apply exec_pack_iff in E as (_ & Y & b & Eb & ->); auto; [|lia].
    pose proof (enc_len t W v b Eb). rewrite wr_all by lia. auto.
  - intros Y. destruct (enc t v) as [b|] eqn:Eb; [|reflexivity]. exfalso.
    assert (X : exec_pack_prog (head Pack (tlen t) ++ body Pack t) (zeros (tlen t)) 0 v = Ok (wr (zeros (tlen t)) 0 b)).
    { apply exec_pack_iff; auto; try lia. split; [lia|]. eauto. }
    congruence.
Qed.

(** ** The simulation *)

Record sim (W : world) (ins outs : list ty) (live heard : bool) (F : heap) (D : ndata) (s : astate) : Prop := {
  sim_lin : exists l, tlaid Unpack W 0 0 l ins (s_map (d_inside D)) (s_progs (d_inside D));
  sim_bytes : s_bytemap (d_inside D) = spread (s_map (d_inside D));
  sim_lout : exists l, tlaid Pack W 0 0 l outs (s_map (d_outside D)) (s_progs (d_outside D));
  sim_pleasant : Forall pleasant ins;
  sim_vals : s_values (d_outside D) = a_vals s;
  sim_nvals : length (a_vals s) = length outs;
  sim_parts : sized outs (a_parts s);
  sim_lock : d_locked D = a_stuck s;
  sim_client : d_client D = heard;
  sim_out : match d_out D with
            | Some k => 0 < total outs /\ f_kind (F k) = KOutput /\ f_data (F k) = concat (a_parts s) /\
                        f_managed (F k) && f_isOpen (F k) = live
            | None => total outs = 0
            end;
  sim_in : match d_in D with
           | Some k => 0 < total ins /\ f_kind (F k) = KInput /\ f_handled (F k) = true /\ f_data (F k) = a_in s
           | None => total ins = 0
           end;
  sim_inlen : len (a_in s) = total ins;
  sim_inok : bytes_ok (a_in s);
  sim_apart : d_in D = None \/ d_out D = None \/ d_in D <> d_out D
}.

Lemma port_entry_out W m i : i < 0 \/ len m <= i -> (forall e, In e m -> match pt_id (w_ports W (pm_port e)) with Some j => 0 <= j | None => True end) ->
  exists e, port_entry W m i = Err e.
Proof.
  intros O N. unfold port_entry. destruct (index m i) as [e|e] eqn:E; cbn [bind]; [|eauto].
  destruct O as [O|O].
  - apply index_ok_inv in E. specialize (N e E). destruct (pt_id _) as [j|]; [|eauto].
    destruct (Z.eqb_spec j i); [lia|eauto].
  - exfalso. unfold index in E. pose proof (len_nonneg m). replace (i <? 0) with false in E by lia.
    replace (i <? 0) with false in E by lia.
    destruct (nth_error m (Z.to_nat i)) eqn:N'; [|discriminate].
    assert (Z.to_nat i < length m)%nat by (apply nth_error_Some; congruence). unfold len in *. lia.
Qed.

Lemma tlaid_ids d W l ts maps progs : forall i a, 0 <= i -> tlaid d W i a l ts maps progs ->
  forall e, In e maps -> match pt_id (w_ports W (pm_port e)) with Some j => 0 <= j | None => True end.
Proof.
  revert ts maps progs. induction l as [|o l IH]; intros ts maps progs i a I L e E;
    destruct ts as [|t0 ts], maps as [|m maps], progs as [|p progs]; try contradiction.
  cbn [tlaid] in L. destruct L as (A & B & C & D & _ & _ & L). destruct E as [<-|E].
  - rewrite A, D. exact I.
  - apply (IH _ _ _ (i + 1) _ ltac:(lia) L e E).
Qed.

Lemma port_entry_ok W l ts d maps progs k t m : tlaid d W 0 0 l ts maps progs ->
  nth_error ts k = Some t -> nth_error maps k = Some m ->
  port_entry W maps (Z.of_nat k) = Ok m.
Proof.
  intros L N M. destruct (tlaid_nth _ _ _ _ _ _ _ _ _ _ L N) as (m' & M1 & M2 & M3 & M4 & M5 & M6 & M7).
  assert (m' = m) as -> by congruence.
  unfold port_entry. rewrite (index_at _ _ m) by (try lia; rewrite Nat2Z.id; exact M). cbn [bind].
  rewrite M6, Z.add_0_l, Z.eqb_refl. reflexivity.
Qed.

Lemma which_port (l : list ty) i : (i < 0 \/ len l <= i) \/ exists k t, i = Z.of_nat k /\ nth_error l k = Some t.
Proof.
  destruct (Z.ltb_spec i 0); [left; lia|]. destruct (Z.leb_spec (len l) i); [left; lia|].
  right. exists (Z.to_nat i). destruct (nth_error l (Z.to_nat i)) as [t|] eqn:N.
  - exists t. split; [lia|reflexivity].
  - apply nth_error_None in N. unfold len in *. lia.
Qed.

Definition matched (W : world) (ins outs : list ty) (live heard : bool) (s : astate) (op : nop)
    (x : heap * ndata * reply) : Prop :=
  exists s', astep ins outs live heard s op s' (snd x) /\
    sim W ins outs live heard (fst (fst x)) (snd (fst x)) s'.

Lemma sim_write W ins outs live heard F D s i v : sim W ins outs live heard F D s ->
  matched W ins outs live heard s (NWrite i v) (cstep W F D (NWrite i v)).
Proof.
  intros SIM. pose proof SIM as [Lin SB Lout SP SV SN SZ SL SC SO SI SIL SIO SA]. destruct Lout as [lout Lout].
  destruct (tlaid_length _ _ _ _ _ _ _ _ Lout) as (_ & LMo & _ & Ro).
  cbn [cstep]. unfold write_provide_port, matched.
  destruct (which_port outs i) as [O|(k & t & -> & N)].
  { destruct (port_entry_out W (s_map (d_outside D)) i) as [e E].
    { unfold len in *. rewrite LMo. exact O. }
    { eapply tlaid_ids; [|exact Lout]; lia. }
    rewrite E. cbn [fst snd reply_of]. exists s. split; [apply as_write_none; exact O|exact SIM]. }
  destruct (tlaid_nth _ _ _ _ _ _ _ _ _ _ Lout N) as (m & M1 & M2 & M3 & M4 & M5 & M6 & M7).
  rewrite (port_entry_ok W lout outs Pack _ _ k t m Lout N M1).
  rewrite (index_at (s_progs (d_outside D)) (Z.of_nat k) _ ltac:(lia) ltac:(rewrite Nat2Z.id; exact M3)).
  unfold mk_zeros. rewrite M5. pose proof (port_end outs k t Ro N) as PE.
  assert (KL : (k < length outs)%nat) by (apply nth_error_Some; congruence).
  replace (tlen t <? 0) with false by lia. rewrite SL.
  destruct (a_stuck s) eqn:St.
  { cbn [fst snd reply_of]. exists s. split; [eapply as_write_wait; eauto|exact SIM]. }
  pose proof (exec_store t v M7) as X.
  destruct (exec_pack_prog _ _ _ _) as [r|e] eqn:E.
  2:{ cbn [fst snd reply_of]. eexists. split; [eapply as_refuse; eauto|].
      constructor; cbn [a_vals a_parts a_stuck a_in with_lock d_inside d_outside d_in d_out d_locked d_client]; eauto. }
  destruct X as (X1 & X2 & X3). cbn [with_values d_out].
  destruct (d_out D) as [fo|] eqn:Do.
  2:{ cbn [fst snd reply_of]. eexists. split; [eapply as_store_empty; eauto|].
      constructor; cbn [a_vals a_parts a_stuck a_in with_values d_inside d_outside d_in d_out d_locked d_client s_values s_map s_progs]; eauto.
      - rewrite SV, replaced_set. reflexivity.
      - rewrite replaced_length by lia. exact SN.
      - rewrite Do. exact SO. }
  destruct SO as (T & Kd & Dt & Lv). unfold write2. rewrite Kd. unfold output_write, file_write.
  rewrite M4, Z.add_0_l, X3, Dt, (sized_concat _ _ SZ).
  replace ((port_start outs k <? 0) || (total outs <? port_start outs k + tlen t)) with false by lia.
  replace (0 <=? tlen t) with true by lia. cbn [with_data f_managed f_isOpen andb].
  rewrite Lv.
  exists (mk_astate (replaced (a_parts s) k r) (replaced (a_vals s) k (OVal v)) (a_in s) false).
  split.
  { pose proof (as_store ins outs live heard s k t v r St N X1 X2 T) as A.
    destruct live; exact A. }
  replace (fst (fst _)) with (upd F fo (with_data (F fo) (splice (concat (a_parts s)) (port_start outs k) (port_start outs k + tlen t) r)))
    by (destruct live; reflexivity).
  replace (snd (fst _)) with (with_values D (set_nth (s_values (d_outside D)) (Z.of_nat k) (OVal v)))
    by (destruct live; unfold with_values; rewrite ?Do; reflexivity).
  constructor; cbn [a_vals a_parts a_stuck a_in with_values d_inside d_outside d_in d_out d_locked d_client s_values s_map s_progs]; eauto.
  - rewrite SV, replaced_set. reflexivity.
  - rewrite replaced_length by lia. exact SN.
  - eapply sized_replaced; eauto.
  - rewrite Do. unfold upd. rewrite Nat.eqb_refl. cbn [with_data f_kind f_data f_managed f_isOpen].
    split; [exact T|]. split; [exact Kd|]. split; [|exact Lv].
    rewrite splice_in by (rewrite ?(sized_concat _ _ SZ); lia). apply (concat_replaced outs); auto.
  - destruct (d_in D) as [fi|] eqn:Di; [|exact SI]. unfold upd.
    destruct (Nat.eqb_spec fi fo) as [->|Nq]; [|exact SI].
    destruct SA as [A|[A|A]]; congruence.
  - rewrite Do. exact SA.
Qed.

Lemma sim_value W ins outs live heard F D s i : sim W ins outs live heard F D s ->
  matched W ins outs live heard s (NValue i) (cstep W F D (NValue i)).
Proof.
  intros SIM. pose proof SIM as [Lin SB Lout SP SV SN SZ SL SC SO SI SIL SIO SA]. destruct Lout as [lout Lout].
  destruct (tlaid_length _ _ _ _ _ _ _ _ Lout) as (_ & LMo & _ & Ro).
  cbn [cstep]. unfold read_provide_port, matched.
  destruct (which_port outs i) as [O|(k & t & -> & N)].
  { destruct (port_entry_out W (s_map (d_outside D)) i) as [e E].
    { unfold len in *. rewrite LMo. exact O. }
    { eapply tlaid_ids; [|exact Lout]; lia. }
    rewrite E. cbn [bind fst snd reply_of]. exists s. split; [apply as_value_none; exact O|exact SIM]. }
  destruct (tlaid_nth _ _ _ _ _ _ _ _ _ _ Lout N) as (m & M1 & M2 & M3 & M4 & M5 & M6 & M7).
  rewrite (port_entry_ok W lout outs Pack _ _ k t m Lout N M1). cbn [bind].
  assert (KL : (k < length outs)%nat) by (apply nth_error_Some; congruence).
  destruct (nth_error (a_vals s) k) as [x|] eqn:Nv; [|apply nth_error_None in Nv; lia].
  rewrite (index_at (s_values (d_outside D)) (Z.of_nat k) x ltac:(lia) ltac:(rewrite SV, Nat2Z.id; exact Nv)).
  cbn [fst snd reply_of]. exists s. split; [apply as_value; exact Nv|exact SIM].
Qed.

Lemma sim_locked W ins outs live heard F D s : sim W ins outs live heard F D s ->
  sim W ins outs live heard F (with_lock D true) (mk_astate (a_parts s) (a_vals s) (a_in s) true).
Proof.
  intros [Lin SB Lout SP SV SN SZ SL SC SO SI SIL SIO SA].
  constructor; cbn [a_vals a_parts a_stuck a_in with_lock d_inside d_outside d_in d_out d_locked d_client]; eauto.
Qed.

Lemma sim_read W ins outs live heard F D s i : sim W ins outs live heard F D s ->
  matched W ins outs live heard s (NRead i) (cstep W F D (NRead i)).
Proof.
  intros SIM. pose proof SIM as [Lin SB Lout SP SV SN SZ SL SC SO SI SIL SIO SA]. destruct Lin as [lin Lin].
  destruct (tlaid_length _ _ _ _ _ _ _ _ Lin) as (_ & LMi & _ & Ri).
  cbn [cstep]. unfold read_require_port, matched.
  destruct (which_port ins i) as [O|(k & t & -> & N)].
  { destruct (port_entry_out W (s_map (d_inside D)) i) as [e E].
    { unfold len in *. rewrite LMi. exact O. }
    { eapply tlaid_ids; [|exact Lin]; lia. }
    rewrite E. cbn [bind fst snd reply_of]. exists s. split; [apply as_read_none; tauto|exact SIM]. }
  destruct (tlaid_nth _ _ _ _ _ _ _ _ _ _ Lin N) as (m & M1 & M2 & M3 & M4 & M5 & M6 & M7).
  rewrite (port_entry_ok W lin ins Unpack _ _ k t m Lin N M1). cbn [bind].
  rewrite M4, M5, Z.add_0_l.
  destruct (d_in D) as [fi|] eqn:Di.
  2:{ unfold unpack_require. rewrite (index_at _ (Z.of_nat k) _ ltac:(lia) ltac:(rewrite Nat2Z.id; exact M3)), Di.
      cbn [fst snd reply_of]. exists s. split; [apply as_read_none; auto|exact SIM]. }
  destruct SI as (T & Kd & Hd & Dt).
  pose proof (unpack_require_ok W F D lin ins k t fi Lin SP N Di ltac:(rewrite Dt; exact SIO) ltac:(rewrite Dt; exact SIL)) as U.
  rewrite SL, Dt in U. destruct (a_stuck s) eqn:St.
  - rewrite U. cbn [fst snd reply_of]. exists s. split; [eapply as_read_wait; eauto|exact SIM].
  - unfold unlocked_read in U. destruct (readable t _) as [v|] eqn:Rd.
    + rewrite U. cbn [fst snd reply_of]. exists s. split; [eapply as_read; eauto|exact SIM].
    + destruct U as [e ->]. cbn [fst snd reply_of]. eexists. split; [eapply as_read_bad; eauto|].
      apply sim_locked, SIM.
Qed.

Lemma sim_arrive W ins outs live heard F D s off d more : sim W ins outs live heard F D s -> bytes_ok d ->
  matched W ins outs live heard s (NArrive off d more) (cstep W F D (NArrive off d more)).
Proof.
  intros SIM BD. pose proof SIM as [Lin SB Lout SP SV SN SZ SL SC SO SI SIL SIO SA]. destruct Lin as [lin Lin].
  destruct (tlaid_length _ _ _ _ _ _ _ _ Lin) as (_ & LMi & _ & Ri).
  pose proof (len_nonneg d).
  cbn [cstep]. unfold matched. destruct (d_in D) as [fi|] eqn:Di.
  - destruct SI as (T & Kd & Hd & Dt). unfold input_write, file_write. rewrite Dt.
    destruct ((off <? 0) || (len (a_in s) <? off + len d)) eqn:Out.
    + replace (0 <=? -1) with false by reflexivity. cbn [andb fst snd]. exists s.
      split; [apply as_arrive_out; lia|].
      destruct SIM. constructor; auto.
      * destruct (d_out D) as [fo|]; [|auto]. unfold upd.
        destruct (Nat.eqb_spec fo fi) as [->|]; auto.
      * rewrite Di in *. unfold upd. rewrite Nat.eqb_refl. auto.
    + replace (0 <=? len d) with true by lia. cbn [andb].
      set (f' := with_data (F fi) (splice (a_in s) off (off + len d) d)).
      set (data' := firstn (Z.to_nat off) (a_in s) ++ d ++ skipn (Z.to_nat (off + len d)) (a_in s)).
      assert (Ed : f_data f' = data') by (unfold f', data'; cbn [with_data f_data]; apply splice_in; lia).
      assert (Ld : len data' = len (a_in s)).
      { unfold data'. rewrite !len_app, len_firstn, len_skipn. lia. }
      assert (Bd : bytes_ok data').
      { unfold data'. apply bytes_ok_app. split; [apply bytes_ok_firstn; auto|].
        apply bytes_ok_app. split; [auto|apply bytes_ok_skipn; auto]. }
      assert (Base : sim W ins outs live heard (upd F fi f') D (mk_astate (a_parts s) (a_vals s) data' (a_stuck s))).
      { constructor; cbn [a_parts a_vals a_in a_stuck]; eauto.
        - destruct (d_out D) as [fo|] eqn:Do; [|auto]. unfold upd.
          destruct (Nat.eqb_spec fo fi) as [->|]; auto. destruct SA as [A|[A|A]]; congruence.
        - rewrite Di. unfold upd. rewrite Nat.eqb_refl. split; [exact T|]. split; [exact Kd|]. split; [exact Hd|exact Ed].
        - lia.
        - rewrite Di. exact SA. }
      assert (Hf : f_handled f' = true) by exact Hd.
      destruct more; cbn [negb].
      * cbn [fst snd]. exists (mk_astate (a_parts s) (a_vals s) data' (a_stuck s || negb true)).
        split; [|rewrite orb_false_r; exact Base].
        eapply (as_arrive ins outs live heard s off d true data' [] [] true); try reflexivity; try lia.
        destruct (a_stuck s); reflexivity.
      * rewrite Hf. unfold in_port_notify. rewrite SC. destruct heard.
        -- destruct (byte_to_port_ok W D lin ins Lin SB off (len d) ltac:(lia) ltac:(lia) ltac:(lia)) as (ms & -> & Q).
           pose proof (notify_ok W (upd F fi f') D lin ins fi Lin SP Di) as NK.
           replace (upd F fi f' fi) with f' in NK by (unfold upd; rewrite Nat.eqb_refl; reflexivity).
           rewrite Ed in NK. specialize (NK Bd ltac:(lia) _ ms Q).
           destruct NK as (calls & out & E & O).
           { intros k I. apply filter_In in I as [I _]. apply in_seq in I. lia. }
           rewrite E. cbn [fst snd]. rewrite SL in *.
           destruct (deliver ins data' (affected ins off (len d))) as [c ok] eqn:Dv. cbn [fst snd] in *.
           exists (mk_astate (a_parts s) (a_vals s) data' (a_stuck s || negb ok)).
           split.
           ++ eapply (as_arrive ins outs live true s off d false data' (affected ins off (len d)) c ok); try reflexivity; try lia; auto.
              destruct (a_stuck s).
              ** destruct O as [-> ->]. destruct (affected ins off (len d)); reflexivity.
              ** destruct O as [<- O]. destruct ok; [subst out; reflexivity|destruct O as [e ->]; reflexivity].
           ++ destruct (a_stuck s); [exact Base|]. destruct ok; [exact Base|]. apply (sim_locked _ _ _ _ _ _ _ _ Base).
        -- cbn [fst snd reply_of numbered map]. exists (mk_astate (a_parts s) (a_vals s) data' (a_stuck s || negb true)).
           split; [|rewrite orb_false_r; exact Base].
           eapply (as_arrive ins outs live false s off d false data' [] [] true); try reflexivity; try lia.
           destruct (a_stuck s); reflexivity.
  - cbn [fst snd]. exists s.
    assert (Em : a_in s = []).
    { destruct (a_in s) as [|z l]; [reflexivity|]. rewrite len_cons in SIL. pose proof (len_nonneg l). lia. }
    split; [|exact SIM].
    destruct (Z.ltb_spec off 0); [apply as_arrive_out; lia|].
    destruct (Z.ltb_spec (len (a_in s)) (off + len d)); [apply as_arrive_out; lia|].
    rewrite Em in *. change (@len Z []) with 0 in *.
    assert (d = []) as ->.
    { destruct d as [|z l]; [reflexivity|]. rewrite len_cons in *. pose proof (len_nonneg l). lia. }
    change (@len Z []) with 0 in *. assert (off = 0) as -> by lia.
    assert (Aff : affected ins 0 0 = []).
    { apply filter_none. intros k _. destruct (nth_error ins k); [|reflexivity]. lia. }
    replace s with (mk_astate (a_parts s) (a_vals s) [] (a_stuck s || negb true)) at 2
      by (rewrite orb_false_r, <- Em; destruct s; reflexivity).
    eapply (as_arrive ins outs live heard s 0 [] more [] [] [] true); rewrite ?Em; try reflexivity; try (change (@len Z []) with 0; lia).
    + change (@len Z []) with 0. rewrite Aff. destruct more, heard; reflexivity.
    + destruct (a_stuck s); reflexivity.
Qed.

Definition op_ok (op : nop) : Prop := match op with NArrive _ d _ => bytes_ok d | _ => True end.

Lemma sim_step W ins outs live heard F D s op : sim W ins outs live heard F D s -> op_ok op ->
  matched W ins outs live heard s op (cstep W F D op).
Proof.
  intros S O. destruct op; auto using sim_write, sim_value, sim_read, sim_arrive.
Qed.

Lemma sim_run W ins outs live heard : forall ops F D s, sim W ins outs live heard F D s -> Forall op_ok ops ->
  exists s', arun ins outs live heard s ops s' (snd (crun W F D ops)) /\
    sim W ins outs live heard (fst (fst (crun W F D ops))) (snd (fst (crun W F D ops))) s'.
Proof.
  induction ops as [|op ops IH]; intros F D s S O.
  - cbn [crun fst snd]. exists s. split; [constructor|exact S].
  - inversion O; subst. cbn [crun]. destruct (sim_step _ _ _ _ _ _ _ _ _ S H1) as (s1 & A & S1).
    destruct (cstep W F D op) as [[F1 D1] x]. cbn [fst snd] in *.
    destruct (IH F1 D1 s1 S1 H2) as (s2 & A2 & S2).
    destruct (crun W F1 D1 ops) as [[F2 D2] xs]. cbn [fst snd] in *.
    exists s2. split; [econstructor; eauto|exact S2].
Qed.
