(** C50: concurrent writers. *)
From Coq Require Import ZifyBool ZifyNat Lia.
From Verif Require Import Py PyLemmas RmfModel FileModel FileProofs ManagerModel ManagerSpec ManagerProofs ConcModel.
Ltac Zify.zify_post_hook ::= Z.div_mod_to_equations.

(** All threads are between two writes. *)
Definition quiet (c : conc) : Prop := forall t, t_pc (c_threads c t) = PIdle.

(** Writer [t] only ever touches bytes that belong to it. *)
Definition owns (owner : Z -> nat) (t : nat) (w : Z * bytes) : Prop :=
  forall k, fst w <= k < fst w + len (snd w) -> owner k = t.

(** Two writers of the same byte: the older content can be queued last. *)
Definition race_file : file := mk_file KOutput (mk_finfo (lit "n.out") 1 0 (Some 0) 0 []) true true false [0].
Definition race : conc := mk_conc race_file [] (fun t =>
  match t with
  | 0%nat => mk_thread PIdle [(0, [1])]
  | 1%nat => mk_thread PIdle [(0, [2])]
  | _ => mk_thread PIdle []
  end).

Theorem concurrent_writers_converge_refuted :
  ~ (forall a c schedule, quiet c -> c_queue c = [] -> f_address (c_file c) = Some a ->
       quiet (crun a c schedule) ->
       replay a (f_data (c_file c)) (c_queue (crun a c schedule)) = f_data (c_file (crun a c schedule))).
Proof.
  intros C. specialize (C 0 race [0; 0; 1; 1; 1; 0]%nat).
  assert (X : [1] = [2]); [|discriminate].
  apply C; try reflexivity; intros [|[|t]]; reflexivity.
Qed.
Print Assumptions concurrent_writers_converge_refuted.

(** Bytes of a file as a function of the offset. *)
Definition at_ (l : bytes) (k : Z) : option Z := nth_error l (Z.to_nat k).

Section Disjoint.
Context (a : Z) (owner : Z -> nat) (rep0 : bytes).

(** The replica agrees with the file on every byte whose owner has nothing pending;
    what a thread has read back is current. *)
Record agree (c : conc) : Prop := {
  ag_len : len rep0 = len (f_data (c_file c));
  ag_own : forall t w, In w (t_todo (c_threads c t)) -> owns owner t w;
  ag_pc : forall t, match t_pc (c_threads c t) with
    | PIdle => True
    | PStored o n => 0 <= o /\ 0 <= n /\ o + n <= len (f_data (c_file c)) /\ (forall k, o <= k < o + n -> owner k = t)
    | PRead o d => 0 <= o /\ o + len d <= len (f_data (c_file c)) /\
        forall k, o <= k < o + len d -> owner k = t /\ at_ d (k - o) = at_ (f_data (c_file c)) k
    end;
  ag_bytes : forall k, 0 <= k ->
    at_ (replay a rep0 (c_queue c)) k = at_ (f_data (c_file c)) k \/
    match t_pc (c_threads c (owner k)) with
    | PIdle => False
    | PStored o n => o <= k < o + n
    | PRead o d => o <= k < o + len d
    end }.

Lemma set_same c t th : set_thread c t th t = th.
Proof. unfold set_thread. rewrite Nat.eqb_refl. auto. Qed.
Lemma set_other c t th u : u <> t -> set_thread c t th u = c_threads c u.
Proof. intros. unfold set_thread. destruct (Nat.eqb_spec u t); congruence. Qed.

Lemma agree_step c t : agree c -> agree (cstep a c t).
Proof.
  intros A. destruct A as [Al Ao Ap Ab]. unfold cstep.
  pose proof (Ap t) as Pt. destruct (t_pc (c_threads c t)) as [|o n|o d] eqn:Ep.
  - destruct (t_todo (c_threads c t)) as [|[off d] r] eqn:Et; [constructor; auto|].
    unfold file_write. pose proof (len_nonneg d). destruct ((off <? 0) || _) eqn:E.
    + change (0 <=? -1) with false. cbv iota. constructor; cbn [c_file c_queue c_threads]; auto.
      * intros u w. destruct (Nat.eq_dec u t) as [->|Hu]; [rewrite set_same|rewrite set_other by auto; auto].
        cbn. intros Hw. apply Ao. rewrite Et. right; auto.
      * intros u. destruct (Nat.eq_dec u t) as [->|Hu]; [rewrite set_same; cbn; auto|rewrite set_other by auto; apply Ap].
      * intros k Hk. destruct (Ab k Hk) as [B|B]; auto. right.
        destruct (Nat.eq_dec (owner k) t) as [Hu|Hu]; [|rewrite set_other; auto]. rewrite Hu, Ep in B. contradiction.
    + replace (0 <=? len d) with true by lia.
      assert (Ls : len (splice (f_data (c_file c)) off (off + len d) d) = len (f_data (c_file c))) by (apply len_splice; lia).
      assert (Hown : forall k, off <= k < off + len d -> owner k = t).
      { apply (Ao t (off, d)). rewrite Et. left; auto. }
      assert (Hat : forall k, 0 <= k -> ~ off <= k < off + len d ->
         at_ (splice (f_data (c_file c)) off (off + len d) d) k = at_ (f_data (c_file c)) k).
      { intros k Hk Hn. unfold at_. rewrite nth_splice by lia. replace ((off <=? k) && (k <? off + len d)) with false by lia. auto. }
      constructor; cbn [c_file c_queue c_threads f_data with_data]; rewrite ?Ls; auto.
      * intros u w. destruct (Nat.eq_dec u t) as [->|Hu]; [rewrite set_same|rewrite set_other by auto; auto].
        cbn. intros Hw. apply Ao. rewrite Et. right; auto.
      * intros u. destruct (Nat.eq_dec u t) as [->|Hu]; [rewrite set_same; cbn; repeat split; auto; lia|].
        rewrite set_other by auto. specialize (Ap u). destruct (t_pc (c_threads c u)) as [|o n|o d']; auto.
        destruct Ap as (P1 & P2 & P3). repeat split; auto; [apply P3; auto|].
        rewrite Hat; [apply P3; auto | lia |]. intros Hk. apply Hown in Hk. apply P3 in H0 as [H0 _]. congruence.
      * intros k Hk. destruct (Z_le_dec off k) as [H1|H1]; [destruct (Z_lt_dec k (off + len d)) as [H2|H2]|].
        { right. rewrite (Hown k) by lia. rewrite set_same. cbn. lia. }
        all: rewrite Hat by lia; destruct (Ab k Hk) as [B|B]; auto; right;
          (destruct (Nat.eq_dec (owner k) t) as [Hu|Hu]; [|rewrite set_other; auto]; rewrite Hu, Ep in B; contradiction).
  - destruct Pt as (P1 & P2 & P3 & P4). unfold file_read.
    replace ((o <? 0) || (len (f_data (c_file c)) <? o + n)) with false by lia.
    assert (Hat : forall k, o <= k < o + n -> at_ (slice (f_data (c_file c)) o (o + n)) (k - o) = at_ (f_data (c_file c)) k).
    { intros k Hk. unfold at_. rewrite nth_error_slice by lia. replace (k - o <? o + n - o) with true by lia. f_equal. lia. }
    assert (Ls : len (slice (f_data (c_file c)) o (o + n)) = n).
    { destruct (slice_in (f_data (c_file c)) o (o + n)) as (x & y & z & _ & _ & L & ->); lia. }
    constructor; cbn [c_file c_queue c_threads]; auto.
    + intros u w. destruct (Nat.eq_dec u t) as [->|Hu]; [rewrite set_same|rewrite set_other by auto; auto].
      cbn. apply Ao.
    + intros u. destruct (Nat.eq_dec u t) as [->|Hu]; [rewrite set_same; cbn; rewrite Ls|rewrite set_other by auto; apply Ap].
      repeat split; auto.
    + intros k Hk. destruct (Ab k Hk) as [B|B]; auto. right.
      destruct (Nat.eq_dec (owner k) t) as [Hu|Hu]; [|rewrite set_other; auto].
      rewrite Hu in *. rewrite set_same. cbn. rewrite Ep in B. rewrite Ls. auto.
  - destruct Pt as (P1 & P2 & P3).
    pose proof (len_replay a (c_queue c) rep0) as Lr. pose proof (len_nonneg d).
    assert (Er : replay a rep0 (c_queue c ++ [QWrite (a + o) d]) = splice (replay a rep0 (c_queue c)) o (o + len d) d).
    { rewrite replay1. unfold apply_write. rewrite Lr, Al.
      replace ((a <=? a + o) && (a + o + len d <=? a + len (f_data (c_file c)))) with true by lia. f_equal; lia. }
    constructor; cbn [c_file c_queue c_threads]; auto.
    + intros u w. destruct (Nat.eq_dec u t) as [->|Hu]; [rewrite set_same|rewrite set_other by auto; auto].
      cbn. apply Ao.
    + intros u. destruct (Nat.eq_dec u t) as [->|Hu]; [rewrite set_same; cbn; auto|rewrite set_other by auto; apply Ap].
    + intros k Hk. rewrite Er. unfold at_ at 1. rewrite nth_splice by lia.
      destruct ((o <=? k) && (k <? o + len d)) eqn:E.
      * left. destruct (P3 k) as [_ P]; [lia|]. exact P.
      * destruct (Ab k Hk) as [B|B]; [left; auto|]. right.
        destruct (Nat.eq_dec (owner k) t) as [Hu|Hu]; [|rewrite set_other; auto].
        rewrite Hu, Ep in B. lia.
Qed.

Lemma agree_run sched : forall c, agree c -> agree (crun a c sched).
Proof.
  induction sched as [|t r IH]; intros c A; auto. cbn [crun fold_left]. apply IH. apply agree_step; auto.
Qed.

End Disjoint.

(** C50, what does hold: if the writers write different parts of the file, every
    schedule ends with the replica equal to the file. *)
Theorem disjoint_writers_converge (a : Z) (owner : Z -> nat) (c : conc) (schedule : list nat) :
  quiet c -> c_queue c = [] ->
  (forall t w, In w (t_todo (c_threads c t)) -> owns owner t w) ->
  quiet (crun a c schedule) ->
  replay a (f_data (c_file c)) (c_queue (crun a c schedule)) = f_data (c_file (crun a c schedule)).
Proof.
  intros Q Eq Ow Q'.
  assert (A : agree a owner (f_data (c_file c)) c).
  { constructor; auto.
    - intros t. rewrite Q. auto.
    - intros k Hk. left. rewrite Eq. reflexivity. }
  apply (agree_run a owner _ schedule) in A. destruct A as [_ _ _ Ab].
  apply nth_error_ext. intros k. specialize (Ab (Z.of_nat k) ltac:(lia)). unfold at_ in Ab. rewrite Nat2Z.id in Ab.
  destruct Ab as [B|B]; auto. rewrite Q' in B. contradiction.
Qed.
Print Assumptions disjoint_writers_converge.

(** In particular a single writer converges whatever it writes, even out of
    bounds. *)
Corollary single_writer_converges (a : Z) (c : conc) (schedule : list nat) (t : nat) :
  quiet c -> c_queue c = [] -> (forall u, u <> t -> t_todo (c_threads c u) = []) -> quiet (crun a c schedule) ->
  replay a (f_data (c_file c)) (c_queue (crun a c schedule)) = f_data (c_file (crun a c schedule)).
Proof.
  intros Q Eq Ot Q'. apply (disjoint_writers_converge a (fun _ => t)); auto.
  intros u w Hw. destruct (Nat.eq_dec u t) as [->|Hu]; [intros k _; auto|]. rewrite Ot in Hw by auto. destruct Hw.
Qed.
Print Assumptions single_writer_converges.

(** The hypothesis is met by writers of different ports; here the two threads are
    interleaved and the first also makes an out-of-bounds write. *)
Definition ports : conc := mk_conc (with_data race_file [0; 0; 0; 0]) [] (fun t =>
  match t with
  | 0%nat => mk_thread PIdle [(0, [1; 2]); (9, [1]); (0, [3])]
  | 1%nat => mk_thread PIdle [(2, [7; 7]); (3, [8])]
  | _ => mk_thread PIdle []
  end).
Example ports_ex :
  let c := crun 0 ports [0; 1; 1; 0; 0; 0; 1; 0; 1; 1; 0; 0; 1]%nat in
  (forall t w, In w (t_todo (c_threads ports t)) -> owns (fun k => if (k <? 2) || (8 <? k) then 0%nat else 1%nat) t w) /\
  quiet c /\ f_data (c_file c) = [3; 2; 7; 8] /\ replay 0 [0; 0; 0; 0] (c_queue c) = [3; 2; 7; 8].
Proof.
  split; [|split; [intros [|[|t]]; reflexivity | vm_compute; auto]].
  intros [|[|t]] w; cbn [ports c_threads t_todo]; intros Hw;
    repeat (destruct Hw as [<-|Hw]; [intros k; unfold len; cbn [fst snd length]; intros Hk;
      match goal with |- (if ?b then _ else _) = _ => destruct b eqn:E end; auto; lia|]); destruct Hw.
Qed.
