(** Properties C15, C16, C17: file contents and notifications. *)
From Coq Require Import ZifyBool ZifyNat Lia.
From Verif Require Import Py PyLemmas RmfModel FileModel FileProofs.
Ltac Zify.zify_post_hook ::= Z.div_mod_to_equations.

(** ** Specification: a memory of fixed size *)

Record memory := mk_memory { mem_size : Z; mem_cell : Z -> Z }.

Definition mem_read (m : memory) (off n : Z) : option bytes :=
  if (0 <=? off) && (off + n <=? mem_size m) then
    Some (map (fun k => mem_cell m (off + Z.of_nat k)) (seq 0 (Z.to_nat n)))
  else None.

Definition mem_write (m : memory) (off : Z) (d : bytes) : memory * Z :=
  if (0 <=? off) && (off + len d <=? mem_size m) then
    (mk_memory (mem_size m)
       (fun k => if (off <=? k) && (k <? off + len d) then nth (Z.to_nat (k - off)) d 0
                 else mem_cell m k), len d)
  else (m, -1).

(** The file holds what the memory holds. *)
Definition holds (f : file) (m : memory) : Prop :=
  len (f_data f) = mem_size m /\
  forall k, 0 <= k < mem_size m -> nth_error (f_data f) (Z.to_nat k) = Some (mem_cell m k).

Inductive fop := FRead (off n : Z) | FWrite (off : Z) (d : bytes).
Inductive fres := RRead (r : option bytes) | RWrite (n : Z).

Definition fop_ok (o : fop) : Prop := match o with FRead _ n => 0 <= n | FWrite _ _ => True end.

Fixpoint run_file (f : file) (ops : list fop) : file * list fres :=
  match ops with
  | [] => (f, [])
  | FRead o n :: r => let '(f', t) := run_file f r in (f', RRead (file_read f o n) :: t)
  | FWrite o d :: r =>
    let '(f1, n) := file_write f o d in
    let '(f', t) := run_file f1 r in (f', RWrite n :: t)
  end.

Fixpoint run_mem (m : memory) (ops : list fop) : memory * list fres :=
  match ops with
  | [] => (m, [])
  | FRead o n :: r => let '(m', t) := run_mem m r in (m', RRead (mem_read m o n) :: t)
  | FWrite o d :: r =>
    let '(m1, n) := mem_write m o d in
    let '(m', t) := run_mem m1 r in (m', RWrite n :: t)
  end.

Lemma holds_read f m off n : holds f m -> 0 <= n -> file_read f off n = mem_read m off n.
Proof.
  intros [Hs Hc] Hn. unfold file_read, mem_read. rewrite Hs.
  replace ((off <? 0) || (mem_size m <? off + n)) with (negb ((0 <=? off) && (off + n <=? mem_size m))) by lia.
  destruct ((0 <=? off) && (off + n <=? mem_size m)) eqn:E; auto. cbn [negb]. f_equal.
  apply nth_error_ext. intros i.
  pose proof (nth_error_slice (f_data f) off (off + n) (Z.of_nat i) ltac:(lia) ltac:(lia) ltac:(lia)) as X.
  rewrite Nat2Z.id in X. rewrite X.
  destruct (Z.ltb_spec (Z.of_nat i) (off + n - off)).
  - rewrite Hc by lia. symmetry.
    rewrite (map_nth_error (fun k : nat => mem_cell m (off + Z.of_nat k)) i (seq 0 (Z.to_nat n)) (d := i)); auto.
    rewrite (nth_error_nth' _ 0%nat) by (rewrite seq_length; lia). rewrite seq_nth by lia. auto.
  - symmetry. apply nth_error_None. rewrite map_length, seq_length. lia.
Qed.

Lemma holds_write f m off d :
  holds f m ->
  holds (fst (file_write f off d)) (fst (mem_write m off d)) /\
  snd (file_write f off d) = snd (mem_write m off d).
Proof.
  intros [Hs Hc]. unfold file_write, mem_write. rewrite Hs. pose proof (len_nonneg d).
  replace ((off <? 0) || (mem_size m <? off + len d)) with (negb ((0 <=? off) && (off + len d <=? mem_size m))) by lia.
  destruct ((0 <=? off) && (off + len d <=? mem_size m)) eqn:E; cbn [negb fst snd]; [|split; auto; split; auto].
  split; auto. split; cbn [f_data with_data mem_size mem_cell].
  - rewrite splice_in by lia. rewrite !len_app, len_firstn, len_skipn. lia.
  - intros k Hk. rewrite nth_splice by lia.
    destruct ((off <=? k) && (k <? off + len d)) eqn:E2; auto.
    apply nth_error_nth'. unfold len in *. lia.
Qed.

(** ** C15 *)

(** Any sequence of reads and writes answers exactly as a fixed-size memory, and
    ends with the same contents and the same size. *)
Theorem file_is_memory (ops : list fop) (f : file) (m : memory) :
  holds f m -> Forall fop_ok ops ->
  snd (run_file f ops) = snd (run_mem m ops) /\
  holds (fst (run_file f ops)) (fst (run_mem m ops)) /\
  len (f_data (fst (run_file f ops))) = len (f_data f).
Proof.
  revert f m. induction ops as [|[off n|off d] ops IH]; intros f m Hh Hok; [cbn; auto| |]; invc Hok.
  - cbn [run_file run_mem]. destruct (IH f m Hh H2) as (A & B & C).
    destruct (run_file f ops), (run_mem m ops). cbn [fst snd] in *. subst.
    rewrite (holds_read f m) by auto. auto.
  - cbn [run_file run_mem]. destruct (holds_write f m off d Hh) as [Hw1 Hw2].
    assert (L : len (f_data (fst (file_write f off d))) = len (f_data f)).
    { destruct Hw1 as [L _]. destruct Hh as [L0 _]. rewrite L, L0. unfold mem_write. ite; auto. }
    destruct (file_write f off d) as [f1 n1]. destruct (mem_write m off d) as [m1 n1'].
    cbn [fst snd] in *. subst n1'. destruct (IH f1 m1 Hw1 H2) as (A & B & C).
    destruct (run_file f1 ops), (run_mem m1 ops). cbn [fst snd] in *. subst. rewrite C. auto.
Qed.
Print Assumptions file_is_memory.

(** A new file holds zeros, or its initial data, and is closed; bad sizes are refused. *)
Theorem file_initial (k : fkind) (name : str) (n : Z) (d : option bytes) :
  match d with
  | None => 0 <= n -> exists f, new_file k name n None = Ok f /\ holds f (mk_memory n (fun _ => 0)) /\
              f_name f = name /\ f_length f = n /\ f_address f = None /\ f_isOpen f = false
  | Some b => n = len b -> exists f, new_file k name n (Some b) = Ok f /\ f_data f = b /\
              f_name f = name /\ f_length f = n /\ f_address f = None /\ f_isOpen f = false
  end.
Proof.
  destruct d as [b|]; intros Hn; unfold new_file, mk_zeros.
  - subst. pose proof (len_nonneg b). replace (len b <? 0) with false by lia. cbn [bind].
    rewrite Z.eqb_refl. cbn [negb]. eexists. split; [reflexivity|]. repeat split; auto.
    cbn [f_data]. rewrite splice_in by (rewrite ?len_zeros; lia).
    rewrite skipn_all2 by (unfold zeros; rewrite repeat_length; lia).
    cbn. apply app_nil_r.
  - replace (n <? 0) with false by lia. cbn [bind]. eexists. split; [reflexivity|].
    repeat split; auto; cbn [f_data mem_size mem_cell].
    + apply len_zeros; auto.
    + intros k0 Hk. unfold zeros. rewrite (nth_error_nth' _ 0) by (rewrite repeat_length; lia).
      rewrite nth_repeat. auto.
Qed.
Print Assumptions file_initial.

Theorem file_initial_rejects (k : fkind) (name : str) (n : Z) (d : option bytes) :
  n < 0 \/ (exists b, d = Some b /\ len b <> n) -> new_file k name n d = Err ValueError.
Proof.
  intros H. unfold new_file, mk_zeros. destruct (Z.ltb_spec n 0); auto. cbn [bind].
  destruct H as [H|(b & -> & H)]; [lia|]. destruct (Z.eqb_spec (len b) n); [lia|]. auto.
Qed.
Print Assumptions file_initial_rejects.

(** "read returns exactly [length] bytes" is false for negative lengths: the slice
    then counts from the end of the file. *)
Theorem file_read_length_refuted :
  ~ (forall f off n b, file_read f off n = Some b -> len b = Z.max 0 n).
Proof.
  intros H. specialize (H (mk_file KFile (mk_finfo [] 3 0 None 0 []) false false false [1; 2; 3]) 0 (-1) [1; 2] eq_refl).
  vm_compute in H. discriminate.
Qed.
Print Assumptions file_read_length_refuted.

(** ** C16 *)

(** One write: in bounds and final fragment: exactly its range is reported (if
    somebody listens); otherwise nothing is. *)
Theorem input_write_notifies (f : file) (off : Z) (d : bytes) (more : bool) :
  f_kind f = KInput ->
  exists f' n ev, write3 f off d more = Ok (f', n, ev) /\
  (f', n) = file_write f off d /\
  (0 <= off /\ off + len d <= len (f_data f) /\ more = false /\ f_handled f = true ->
     ev = [InNotify off (len d)]) /\
  (~ (0 <= off /\ off + len d <= len (f_data f) /\ more = false /\ f_handled f = true) -> ev = []).
Proof.
  intros Hk. unfold write3, input_write. rewrite Hk. unfold file_write. pose proof (len_nonneg d).
  destruct ((off <? 0) || (len (f_data f) <? off + len d)) eqn:E.
  - exists f, (-1), []. repeat split; auto. lia.
  - cbn [f_handled with_data]. replace (0 <=? len d) with true by lia.
    destruct more; cbn [andb negb].
    + do 3 eexists. repeat split; auto. intros (_ & _ & ? & _). discriminate.
    + destruct (f_handled f) eqn:Eh; do 3 eexists; repeat split; auto.
      * intros X. exfalso. apply X. lia.
      * intros (_ & _ & _ & ?). discriminate.
Qed.
Print Assumptions input_write_notifies.

(** A fragmented write to consecutive offsets: more-bit on all but the last. *)
Fixpoint write_fragments (f : file) (off : Z) (frags : list bytes) : res (file * list fevent) :=
  match frags with
  | [] => Ok (f, [])
  | [d] => do ' (f', _, ev) <- write3 f off d false; Ok (f', ev)
  | d :: r =>
    do ' (f1, _, ev1) <- write3 f off d true;
    do ' (f2, ev2) <- write_fragments f1 (off + len d) r;
    Ok (f2, ev1 ++ ev2)
  end.

(** Is offset [k] inside a reported range? *)
Definition reported (ev : list fevent) (k : Z) : Prop :=
  exists o n, In (InNotify o n) ev /\ o <= k < o + n.

(** What is reported for a fragmented write is the last fragment alone. *)
Theorem input_fragments_report_last (frags : list bytes) (last : bytes) (f : file) (off : Z) :
  f_kind f = KInput -> f_handled f = true -> 0 <= off ->
  off + len (concat frags) + len last <= len (f_data f) ->
  exists f', write_fragments f off (frags ++ [last]) =
    Ok (f', [InNotify (off + len (concat frags)) (len last)]) /\
    f_data f' = splice (f_data f) off (off + len (concat (frags ++ [last]))) (concat (frags ++ [last])).
Proof.
  intros Hk Hh. revert f off Hk Hh. induction frags as [|d r IH]; intros f off Hk Hh Ho Hl.
  - cbn [app concat write_fragments] in *. rewrite len_nil in *. rewrite app_nil_r.
    unfold write3, input_write, file_write. rewrite Hk. pose proof (len_nonneg last).
    replace ((off <? 0) || (len (f_data f) <? off + len last)) with false by lia.
    cbn [f_handled with_data]. replace (0 <=? len last) with true by lia. rewrite Hh. cbn.
    eexists. split; [repeat f_equal; lia|]. auto.
  - cbn [concat app] in *. rewrite len_app in *.
    assert (X : write_fragments f off (d :: r ++ [last]) =
      (do ' (f1, _, ev1) <- write3 f off d true;
       do ' (f2, ev2) <- write_fragments f1 (off + len d) (r ++ [last]);
       Ok (f2, ev1 ++ ev2))) by (destruct r; reflexivity).
    rewrite X. unfold write3, input_write, file_write. rewrite Hk.
    pose proof (len_nonneg d). pose proof (len_nonneg (concat r)). pose proof (len_nonneg last).
    replace ((off <? 0) || (len (f_data f) <? off + len d)) with false by lia.
    cbn [andb negb]. rewrite andb_false_r. cbn [bind].
    edestruct (IH (with_data f (splice (f_data f) off (off + len d) d)) (off + len d)) as (f' & E & D); auto; try lia.
    { cbn [f_data with_data]. rewrite splice_in by lia. rewrite !len_app, len_firstn, len_skipn. lia. }
    rewrite E. cbn [bind app]. eexists. split; [do 2 f_equal; f_equal; f_equal; lia|].
    rewrite D. cbn [f_data with_data].
    set (t := concat (r ++ [last])).
    assert (Lt : len t = len (concat r) + len last).
    { unfold t. rewrite concat_app, len_app. cbn. rewrite app_nil_r. auto. }
    rewrite len_app. rewrite !splice_in; try lia.
    2: { rewrite splice_in by lia. rewrite !len_app, len_firstn, len_skipn. lia. }
    assert (Lf : length (firstn (Z.to_nat off) (f_data f)) = Z.to_nat off).
    { rewrite firstn_length. unfold len in *. lia. }
    rewrite (app_assoc (firstn (Z.to_nat off) (f_data f)) d).
    rewrite firstn_app. replace (Z.to_nat (off + len d) - length (firstn (Z.to_nat off) (f_data f) ++ d))%nat with 0%nat
      by (rewrite app_length, Lf; unfold len in *; lia).
    cbn [firstn]. rewrite app_nil_r.
    rewrite firstn_all2 by (rewrite app_length, Lf; unfold len in *; lia).
    rewrite <- !app_assoc. do 3 f_equal.
    rewrite (app_assoc (firstn _ _) d), skipn_app.
    rewrite skipn_all2 by (rewrite app_length, Lf; unfold len in *; lia). cbn [app].
    apply nth_error_ext. intros i. rewrite !nth_error_skipn. f_equal.
    rewrite app_length, Lf. unfold len in *. lia.
Qed.
Print Assumptions input_fragments_report_last.

(** So "every byte that was changed is reported" is false of fragmented writes. *)
Definition demo_input : file :=
  mk_file KInput (mk_finfo (lit "a.in") 4 0 (Some 0) 0 []) true false true [0; 0; 0; 0].

Theorem input_fragments_reported_refuted :
  ~ (forall f off frags f' ev, f_kind f = KInput -> f_handled f = true ->
       write_fragments f off frags = Ok (f', ev) ->
       forall k, nth_error (f_data f') (Z.to_nat k) <> nth_error (f_data f) (Z.to_nat k) -> 0 <= k -> reported ev k).
Proof.
  intros H.
  specialize (H demo_input 0 [[1; 2]; [3; 4]] (with_data demo_input [1; 2; 3; 4]) [InNotify 2 2] eq_refl eq_refl eq_refl 0).
  destruct H as (o & n & [E|[]] & Hr); [vm_compute; discriminate | lia |]. invc E. lia.
Qed.
Print Assumptions input_fragments_reported_refuted.

(** ** C17 *)

Theorem output_write_notifies (f : file) (off : Z) (d : bytes) :
  f_kind f = KOutput ->
  exists f' n ev, write2 f off d = Ok (f', n, ev) /\
  (f', n) = file_write f off d /\
  (forall e, In e ev <->
    e = OutNotify off (len d) /\ 0 <= off /\ off + len d <= len (f_data f) /\
    f_managed f = true /\ f_isOpen f = true) /\ (length ev <= 1)%nat.
Proof.
  intros Hk. unfold write2, output_write, file_write. rewrite Hk. pose proof (len_nonneg d).
  destruct ((off <? 0) || (len (f_data f) <? off + len d)) eqn:E.
  - exists f, (-1), []. do 2 (split; [reflexivity|]). split; [|cbn; lia]. intros e. split; [intros []|]. intros; lia.
  - cbn [f_managed f_isOpen with_data]. replace (0 <=? len d) with true by lia. cbn [andb].
    destruct (f_managed f && f_isOpen f) eqn:Em; do 3 eexists; (split; [reflexivity|]); (split; [reflexivity|]).
    + split; [|cbn; lia]. intros e. split.
      * intros [<-|[]]. apply andb_true_iff in Em as [Em1 Em2]. repeat split; auto; lia.
      * intros (-> & _). left. auto.
    + split; [|cbn; lia]. intros e. split; [intros []|]. intros (_ & _ & _ & X & Y). rewrite X, Y in Em. discriminate.
Qed.
Print Assumptions output_write_notifies.

(** A plain file never notifies; a three-argument write to anything but an input
    file fails (TypeError, or AttributeError for bare remotefile.File objects). *)
Theorem plain_file_silent (f : file) (off : Z) (d : bytes) (more : bool) :
  (f_kind f = KFile -> write2 f off d = Ok (file_write f off d, [])) /\
  (f_kind f = KFile \/ f_kind f = KOutput -> write3 f off d more = Err TypeError).
Proof.
  unfold write2, write3. split.
  - intros ->. destruct (file_write f off d). auto.
  - intros [-> | ->]; auto.
Qed.
Print Assumptions plain_file_silent.

(** An input file written with two arguments, as NodeData does: the more bit is
    off, so the handler is told of the whole write, once, exactly when it is in
    bounds. *)
Theorem input_local_write_notifies (f : file) (off : Z) (d : bytes) :
  f_kind f = KInput ->
  exists f' n ev, write2 f off d = Ok (f', n, ev) /\
  (f', n) = file_write f off d /\
  (forall e, In e ev <->
    e = InNotify off (len d) /\ 0 <= off /\ off + len d <= len (f_data f) /\ f_handled f = true) /\
  (length ev <= 1)%nat.
Proof.
  intros Hk. unfold write2, input_write, file_write. rewrite Hk. pose proof (len_nonneg d).
  destruct ((off <? 0) || (len (f_data f) <? off + len d)) eqn:E.
  - exists f, (-1), []. do 2 (split; [reflexivity|]). split; [|cbn; lia]. intros e. split; [intros []|]. intros; lia.
  - cbn [f_handled with_data]. replace (0 <=? len d) with true by lia. cbn [andb negb].
    destruct (f_handled f) eqn:Em; do 3 eexists; (split; [reflexivity|]); (split; [reflexivity|]).
    + split; [|cbn; lia]. intros e. split.
      * intros [<-|[]]. repeat split; auto; lia.
      * intros (-> & _). left. auto.
    + split; [|cbn; lia]. intros e. split; [intros []|]. intros (_ & _ & _ & X). discriminate.
Qed.
Print Assumptions input_local_write_notifies.

(** ** Examples (from tests/apx_file_test.py style data) *)

Definition demo_out : file :=
  mk_file KOutput (mk_finfo (lit "a.out") 3 0 (Some 0) 0 []) true true false [5; 6; 7].

Example ex_file_memory :
  holds demo_out (mk_memory 3 (fun k => 5 + k)) /\
  snd (run_file demo_out [FWrite 1 [9]; FRead 0 3; FWrite 2 [1; 1]; FRead 2 1; FRead (-1) 1]) =
  [RWrite 1; RRead (Some [5; 9; 7]); RWrite (-1); RRead (Some [7]); RRead None].
Proof.
  split; [|reflexivity]. split; [reflexivity|]. cbn [mem_size mem_cell]. intros k Hk.
  assert (k = 0 \/ k = 1 \/ k = 2) as [-> | [-> | ->]] by lia; reflexivity.
Qed.

Example ex_new_file : exists f, new_file KFile (lit "a.apx") 2 (Some [8; 9]) = Ok f /\ f_data f = [8; 9].
Proof. eexists. split; reflexivity. Qed.

Example ex_output_notify :
  write2 demo_out 1 [9; 9] = Ok (with_data demo_out [5; 9; 9], 2, [OutNotify 1 2]) /\
  write2 (with_open demo_out false) 1 [9; 9] = Ok (with_open (with_data demo_out [5; 9; 9]) false, 2, []).
Proof. split; reflexivity. Qed.

Example ex_input_local_notify :
  write2 demo_input 1 [9; 8] = Ok (with_data demo_input [0; 9; 8; 0], 2, [InNotify 1 2]) /\
  write2 demo_input 3 [9; 8] = Ok (demo_input, -1, []).
Proof. split; reflexivity. Qed.

Example ex_input_notify :
  write3 demo_input 1 [9] false = Ok (with_data demo_input [0; 9; 0; 0], 1, [InNotify 1 1]) /\
  write3 demo_input 1 [9] true = Ok (with_data demo_input [0; 9; 0; 0], 1, []) /\
  write3 demo_input 4 [9] false = Ok (demo_input, -1, []).
Proof. repeat split; reflexivity. Qed.
