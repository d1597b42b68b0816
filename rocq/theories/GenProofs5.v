(** Lemmas about the C generator: the callbacks. *)
From Coq Require Import ZifyBool ZifyNat Lia Permutation.
From Verif Require Import Py PyLemmas TypesModel CompilerModel VmModel TypesSpec TypesProofs
  VmProofs VmPackProofs VmUnpackProofs TextModel SigModel AttrModel NodeModel RmfModel FileModel NodeDataModel NodeDataSpec NodeDataProofs
  NodeInitProofs VmProps NodeDataProps GenModel GenSpec GenProofs GenProofs2 GenProofs3 GenProofs4.
Ltac Zify.zify_post_hook ::= Z.div_mod_to_equations.

Fixpoint chained (a : Z) (l : list siginfo) : Prop :=
  match l with [] => True | s :: r => si_offset s = a /\ chained (a + si_len s) r end.

Lemma signals_chained fuel op name W : forall ports off sigs, signals fuel op name W off ports sigs -> chained off sigs.
Proof.
  induction ports as [|o r IH]; intros off [|s l] G; cbn [signals chained] in *; try contradiction; [exact I|].
  destruct G as [G1 G2]. split; [exact (sg_offset _ _ _ _ _ _ _ G1)|exact (IH _ _ G2)].
Qed.
Lemma chained_app a l r : chained a (l ++ r) <-> chained a l /\ chained (a + sum_lens l) r.
Proof.
  revert a. induction l as [|s l IH]; intros a; cbn [app chained sum_lens].
  - rewrite Z.add_0_r. tauto.
  - rewrite IH, Z.add_assoc. tauto.
Qed.
Lemma sum_lens_app l r : sum_lens (l ++ r) = sum_lens l + sum_lens r.
Proof. induction l as [|s l IH]; cbn [app sum_lens]; lia. Qed.
Definition long (s : siginfo) : Prop := 0 < si_len s.
Lemma sum_lens_nonneg l : Forall long l -> 0 <= sum_lens l.
Proof. induction 1 as [|s l A B IH]; cbn [sum_lens]; unfold long in *; lia. Qed.
Lemma chained_bounds a l : Forall long l -> chained a l -> Forall (fun s => a <= si_offset s /\ si_offset s + si_len s <= a + sum_lens l) l.
Proof.
  intros F. revert a. induction F as [|s l A B IH]; intros a C; [constructor|]. cbn [chained sum_lens] in *. destruct C as [E C].
  pose proof (sum_lens_nonneg l B). unfold long in A. constructor; [lia|].
  eapply Forall_impl; [|exact (IH _ C)]. cbn beta. intros x X. lia.
Qed.
Lemma chained_nodup a l : Forall long l -> chained a l -> NoDup (map si_offset l).
Proof.
  intros F. revert a. induction F as [|s l A B IH]; intros a C; [constructor|]. cbn [chained map] in *. destruct C as [E C].
  constructor; [|exact (IH _ C)]. intros I. apply in_map_iff in I as (x & E' & I).
  pose proof (chained_bounds _ _ B C) as X. rewrite Forall_forall in X. specialize (X _ I). unfold long in A. lia.
Qed.

Lemma flat_map_nil {A B} (f : A -> list B) l : Forall (fun x => f x = []) l -> flat_map f l = [].
Proof. induction 1 as [|x l E F IH]; [reflexivity|]. cbn [flat_map]. rewrite E, IH. reflexivity. Qed.
Lemma filter_none {A} (f : A -> bool) l : (forall x, In x l -> f x = false) -> filter f l = [].
Proof.
  induction l as [|x l IH]; intros F; [reflexivity|]. cbn [filter]. rewrite (F x (or_introl eq_refl)). apply IH. intros y I. apply F. right. exact I.
Qed.

(** ** The loop *)

Section Loop.
Context (reads : list cfun) (buf : bytes) (old : str -> cval) (cs : list (Z * Z * option cbcall)).
Context (called : siginfo -> list (str * cval)) (last stop : Z).
Definition fits (s : siginfo) (k : option cbcall) : Prop :=
  match k with
  | None => called s = []
  | Some c => exists v, read_call reads (cl_read c) buf (old (cl_port c)) = Some v /\ called s = [(cl_func c, v)]
  end.

Lemma loop_suffix : forall l a turns, Forall long l -> chained a l ->
  Forall (fun s => if si_offset s <=? last then exists k, find (fun c => fst (fst c) =? si_offset s) cs = Some (si_offset s, si_len s, k) /\ fits s k
                   else find (fun c => fst (fst c) =? si_offset s) cs = None /\ called s = []) l ->
  0 <= a -> stop <= a + sum_lens l < 2 ^ 32 -> (Z.to_nat (stop - a) < turns)%nat ->
  notify_loop turns reads buf old cs a stop = Some (flat_map (fun s => if si_offset s <? stop then called s else []) l).
Proof.
  induction l as [|s l IH]; intros a turns F C Fi A Z T; (destruct turns as [|k]; [lia|]); cbn [notify_loop].
  - cbn [sum_lens] in Z. replace (a <? stop) with false by lia. reflexivity.
  - cbn [chained sum_lens] in *. destruct C as [E C]. inversion F as [|? ? F1 F2]; subst. inversion Fi as [|? ? Fs Fl]; subst.
    pose proof (chained_bounds _ _ F2 C) as Bd. pose proof (sum_lens_nonneg _ F2) as Nn. unfold long in F1.
    cbn [flat_map]. destruct (Z.ltb_spec (si_offset s) stop) as [L|L].
    + destruct (Z.leb_spec (si_offset s) last) as [M|M].
      * destruct Fs as (e & -> & K). rewrite Z.mod_small by lia.
        rewrite (IH (si_offset s + si_len s) k F2 C Fl ltac:(lia) ltac:(lia) ltac:(lia)).
        destruct e as [c|]; cbn [fits] in K.
        -- destruct K as (v & R & ->). rewrite R. reflexivity.
        -- rewrite K. reflexivity.
      * destruct Fs as [-> ->]. cbn [app]. rewrite flat_map_nil; [reflexivity|].
        apply Forall_forall. intros x I. rewrite Forall_forall in Fl, Bd. specialize (Fl x I). specialize (Bd x I).
        replace (si_offset x <=? last) with false in Fl by lia. destruct Fl as [_ ->]. destruct (_ <? _); reflexivity.
    + rewrite flat_map_nil; [reflexivity|]. apply Forall_forall. intros x I. rewrite Forall_forall in Bd. specialize (Bd x I).
      replace (si_offset x <? stop) with false by lia. reflexivity.
Qed.
End Loop.

(** ** Macros and cases *)

Lemma filter_key {A} (key : A -> str) l x : NoDup (map key l) -> In x l -> filter (fun y => str_eqb (key y) (key x)) l = [x].
Proof.
  induction l as [|y l IH]; intros ND I; [destruct I|]. cbn [map filter] in *. inversion ND as [|? ? N1 N2]; subst.
  destruct I as [->|I].
  - rewrite str_eqb_refl. f_equal. rewrite filter_none; [reflexivity|]. intros z Iz. apply str_eqb_neq. intros E. apply N1. rewrite <- E.
    apply in_map. exact Iz.
  - rewrite (proj2 (str_eqb_neq _ _)); [exact (IH N2 I)|]. intros E. apply N1. rewrite E. apply in_map. exact I.
Qed.
Lemma macro_found table k v : NoDup (map fst table) -> In (k, v) table -> macro table k = Some v.
Proof. 
  intros ND I. unfold macro. pose proof (filter_key fst table (k, v) ND I) as X. cbn [fst] in X. unfold str in *. rewrite X. reflexivity.
Qed.
Lemma Forall2_in_r {A B} (R : A -> B -> Prop) l r y : Forall2 R l r -> In y r -> exists x, In x l /\ R x y.
Proof. induction 1 as [|a b l r X F IH]; intros I; [destruct I|]. destruct I as [->|I]; [exists a; split; [left|]; auto|]. destruct (IH I) as (x & J & K). exists x. split; [right|]; auto. Qed.

Definition call_of (H : theap) (c : callback) (e : option cbcall) : Prop :=
  match cb_func c with
  | None => e = None
  | Some f => exists arr ref, e = Some (mk_cbcall (opt_text (si_name (cb_sig c))) (si_func (cb_sig c)) f arr ref)
  end.
Definition in_range (lo hi : Z) (c : callback) : bool := (lo <=? si_offset (cb_sig c)) && (si_offset (cb_sig c) <=? hi).

Lemma cases_comments table l r : (forall x, In x l -> exists s, x = PComment s) -> cases table (l ++ r) = cases table r.
Proof.
  induction l as [|x l IH]; intros F; [reflexivity|]. destruct (F x (or_introl eq_refl)) as [s ->]. cbn [app cases].
  apply IH. intros y I. apply F. right. exact I.
Qed.

Lemma switch_cases H table f last : forall l w parts, switch_parts H (Some f) last w l = Ok parts ->
  NoDup (map (fun c => si_offset (cb_sig c)) l) ->
  Forall (fun c => macro table (cb_offset_define c) = Some (si_offset (cb_sig c)) /\ macro table (cb_len_define c) = Some (si_len (cb_sig c))) l ->
  exists cs, cases table parts = Some cs /\
    Forall2 (fun c e => exists k, e = (si_offset (cb_sig c), si_len (cb_sig c), k) /\ call_of H c k)
      (filter (in_range (si_offset (cb_sig f)) last) l) cs.
Proof.
  induction l as [|c l IH]; intros w parts E ND M; cbn [switch_parts] in E.
  - injection E as <-. exists []. split; [reflexivity|constructor].
  - inversion ND as [|? ? N1 N2]; subst. inversion M as [|? ? [M1 M1'] M2]; subst. cbn [filter]. unfold in_range at 1.
    assert (K : forall xs, cases table ((if w then [PComment (cb_offset_define c)] else []) ++ xs) = cases table xs).
    { intros xs. apply cases_comments. intros x I. destruct w; [|destruct I]. destruct I as [<-|[]]. eauto. }
    destruct (Z.leb_spec (si_offset (cb_sig c)) last) as [L|L].
    + destruct (Z.leb_spec (si_offset (cb_sig f)) (si_offset (cb_sig c))) as [L'|L'].
      * apply bind_ok in E as (x & Ex & E). apply bind_ok in E as (xs & Exs & E). injection E as <-. rewrite K.
        destruct (IH _ _ Exs N2 M2) as (cs & Ec & F2).
        assert (Cx : exists k, x = PCase (cb_offset_define c) (cb_len_define c) k /\ call_of H c k).
        { unfold code_fragment in Ex. unfold call_of. destruct (cb_func c) as [g|].
          - apply bind_ok in Ex as (ref & _ & Ex). injection Ex as <-. eexists. split; [reflexivity|]. eauto.
          - injection Ex as <-. eexists. split; reflexivity. }
        destruct Cx as (k & -> & Ck). cbn [cases]. rewrite M1, M1', Ec. cbn [obind].
        assert (Nx : existsb (fun e => fst (fst e) =? si_offset (cb_sig c)) cs = false).
        { destruct (existsb _ cs) eqn:Q; [|reflexivity]. exfalso. apply existsb_exists in Q as (e & I & Q). apply N1.
          destruct (Forall2_in_r _ _ _ _ F2 I) as (a & J & k' & -> & _). cbn [fst] in Q. apply filter_In in J as [J _].
          apply in_map_iff. exists a. split; [lia|exact J]. }
        rewrite Nx. eexists. split; [reflexivity|]. cbn [andb]. constructor; [exists k; auto|exact F2].
      * apply bind_ok in E as (xs & Exs & E). injection E as <-. rewrite K. cbn [andb]. exact (IH _ _ Exs N2 M2).
    + apply bind_ok in E as (xs & Exs & E). injection E as <-. rewrite K, andb_false_r. exact (IH _ _ Exs N2 M2).
Qed.

Lemma find_case H l cs lo last c : NoDup (map (fun c => si_offset (cb_sig c)) l) -> In c l ->
  Forall2 (fun c e => exists k, e = (si_offset (cb_sig c), si_len (cb_sig c), k) /\ call_of H c k) (filter (in_range lo last) l) cs ->
  if in_range lo last c then exists k, find (fun e => fst (fst e) =? si_offset (cb_sig c)) cs = Some (si_offset (cb_sig c), si_len (cb_sig c), k) /\ call_of H c k
  else find (fun e => fst (fst e) =? si_offset (cb_sig c)) cs = None.
Proof.
  revert cs. induction l as [|x l IH]; intros cs ND I F2; [destruct I|]. cbn [map filter] in *. inversion ND as [|? ? N1 N2]; subst.
  assert (Other : In c l -> si_offset (cb_sig x) <> si_offset (cb_sig c)).
  { intros J E. apply N1. rewrite E. apply (in_map (fun c => si_offset (cb_sig c))). exact J. }
  assert (Absent : forall cs', Forall2 (fun c e => exists k, e = (si_offset (cb_sig c), si_len (cb_sig c), k) /\ call_of H c k) (filter (in_range lo last) l) cs' ->
    find (fun e => fst (fst e) =? si_offset (cb_sig x)) cs' = None).
  { intros cs' F. destruct (find _ cs') as [e|] eqn:Q; [|reflexivity]. exfalso. apply find_some in Q as [J Q].
    destruct (Forall2_in_r _ _ _ _ F J) as (a & K & k & -> & _). apply filter_In in K as [K _]. cbn [fst] in Q. apply N1.
    apply in_map_iff. exists a. split; [lia|exact K]. }
  destruct (in_range lo last x) eqn:Rx.
  - inversion F2 as [|? e ? cs' (k & -> & Ck) F2']; subst. cbn [find fst]. destruct I as [->|I].
    + rewrite Rx, Z.eqb_refl. eauto.
    + replace (_ =? _) with false by (specialize (Other I); lia). exact (IH _ N2 I F2').
  - destruct I as [->|I]; [|exact (IH _ N2 I F2)]. rewrite Rx. exact (Absent _ F2).
Qed.

(** ** First and last *)

Lemma find_split {A} (f : A -> bool) l x : find f l = Some x -> exists a b, l = a ++ x :: b /\ f x = true /\ Forall (fun y => f y = false) a.
Proof.
  induction l as [|y l IH]; intros E; [discriminate|]. cbn [find] in E. destruct (f y) eqn:Q.
  - injection E as ->. exists [], l. auto.
  - destruct (IH E) as (a & b & -> & X & F). exists (y :: a), b. auto.
Qed.

(** ** From signals to port numbers *)

Lemma flat_map_ext_in' {A B} (f g : A -> list B) l : (forall x, In x l -> f x = g x) -> flat_map f l = flat_map g l.
Proof.
  induction l as [|x l IH]; intros E; [reflexivity|]. cbn [flat_map]. rewrite (E x (or_introl eq_refl)), IH; [reflexivity|].
  intros y I. apply E. right. exact I.
Qed.


Lemma flat_map_filter_seq {A B} (P : nat -> bool) (G : nat -> list B) (F : A -> list B) : forall l k,
  (forall j s, nth_error l j = Some s -> (if P (k + j)%nat then G (k + j)%nat else []) = F s) ->
  flat_map G (filter P (seq k (length l))) = flat_map F l.
Proof.
  induction l as [|s l IH]; intros k H; [reflexivity|]. cbn [length seq filter flat_map].
  pose proof (H 0%nat s eq_refl) as H0. rewrite Nat.add_0_r in H0.
  assert (IH' : flat_map G (filter P (seq (S k) (length l))) = flat_map F l).
  { apply IH. intros j x N. rewrite Nat.add_succ_l, <- Nat.add_succ_r. exact (H (S j) x N). }
  rewrite <- H0, <- IH'. destruct (P k); reflexivity.
Qed.


(** ** The whole notification *)

Definition hit (off n : Z) (s : siginfo) : bool := Z.max (si_offset s) off <? Z.min (si_offset s + si_len s) (off + n).

Lemma notified_calls H (c : cfile) m ins buf old (value : siginfo -> cval) off n :
  gen_notifier H (sum_lens ins) (Some (map (cb_of m) ins)) = Ok (c_notifier c) ->
  chained 0 ins -> Forall long ins -> sum_lens ins < 2 ^ 32 ->
  Forall (fun s => macro (c_lens c ++ c_offsets c) (cb_offset_define (cb_of m s)) = Some (si_offset s) /\
                   macro (c_lens c ++ c_offsets c) (cb_len_define (cb_of m s)) = Some (si_len s)) ins ->
  (forall s, In s ins -> lookup (si_name s) m <> None -> read_call (c_reads c) (si_func s) buf (old (opt_text (si_name s))) = Some (value s)) ->
  0 <= off -> 0 <= n -> off + n <= sum_lens ins ->
  (exists pre suf, ins = pre ++ suf /\ off = sum_lens pre) \/ (forall s, In s ins -> lookup (si_name s) m <> None -> off < si_offset s) ->
  callbacks_called c buf old off n =
  Some (flat_map (fun s => if hit off n s then match lookup (si_name s) m with Some f => [(f, value s)] | None => [] end else []) ins).
Proof.
  intros N Ch Lo Sz Ma Re O1 O2 O3 St. set (called := fun s => match lookup (si_name s) m with Some f => [(f, value s)] | None => [] end).
  change (callbacks_called c buf old off n = Some (flat_map (fun s => if hit off n s then called s else []) ins)).
  unfold gen_notifier in N. destruct (Z.eqb_spec (sum_lens ins) 0) as [Zs|Zs].
  { injection N as N. unfold callbacks_called. rewrite <- N. destruct ins as [|s l]; [reflexivity|]. exfalso.
    inversion Lo; subst. pose proof (sum_lens_nonneg _ H3). cbn [sum_lens] in Zs. unfold long in *. lia. }
  apply bind_ok in N as (parts & Sw & N). injection N as N.
  set (l := map (cb_of m) ins) in *.
  assert (HF : forall s, has_func (cb_of m s) = match lookup (si_name s) m with Some _ => true | None => false end) by reflexivity.
  destruct (first_callback l) as [fc|] eqn:Fi.
  2: { exfalso. destruct ins as [|s r]; [cbn [sum_lens] in Zs; lia|]. cbn [chained] in Ch. destruct Ch as [E _].
       assert (La : last_offset l = 0).
       { unfold last_offset. destruct (find has_func (rev l)) as [y|] eqn:Q; [|reflexivity]. apply find_some in Q as [J Q].
         apply in_rev in J. unfold first_callback in Fi. rewrite (find_none _ _ Fi _ J) in Q. discriminate. }
       unfold l in Sw, La. cbn [map switch_parts cb_of cb_sig] in Sw, La. rewrite La, E in Sw. discriminate. }
  unfold first_callback in Fi. apply find_split in Fi as (la & lb & El & Hf & Fa).
  unfold l in El. apply map_eq_app in El as (pre & suf & E1 & E2 & E3). destruct suf as [|fs suf]; [discriminate|]. cbn [map] in E3.
  injection E3 as E3 E4. subst fc. subst la.
  assert (Fpre : Forall (fun s => lookup (si_name s) m = None) pre).
  { apply Forall_forall. intros s I. rewrite Forall_forall in Fa. specialize (Fa (cb_of m s) (in_map _ _ _ I)). rewrite HF in Fa.
    destruct (lookup _ _); [discriminate|reflexivity]. }
  rewrite HF in Hf.
  pose proof (chained_bounds _ _ Lo Ch) as Bd. rewrite Forall_forall in Bd.
  assert (ND : NoDup (map (fun c => si_offset (cb_sig c)) l)) by (unfold l; rewrite map_map; exact (chained_nodup _ _ Lo Ch)).
  assert (Last : forall s, In s ins -> lookup (si_name s) m <> None -> si_offset s <= last_offset l).
  { intros s I Ls. unfold last_offset. destruct (find has_func (rev l)) as [y|] eqn:Q.
    - apply find_split in Q as (ra & rb & Er & _ & Fr). apply (f_equal (@rev _)) in Er. rewrite rev_involutive, rev_app_distr in Er. cbn [rev] in Er.
      rewrite <- app_assoc in Er. unfold l in Er. apply map_eq_app in Er as (p1 & p2 & Ep & Ep1 & Ep2).
      cbn [app] in Ep2. destruct p2 as [|ys p2]; [discriminate|]. cbn [map] in Ep2. injection Ep2 as Ey Ep2. subst y. cbn [cb_of cb_sig].
      rewrite Ep in I, Ch, Lo. apply chained_app in Ch as [C1 C2]. cbn [chained] in C2. destruct C2 as [C2 C3]. apply Forall_app in Lo as [L1 L2].
      apply in_app_or in I as [I|[->|I]].
      + pose proof (chained_bounds _ _ L1 C1) as B. rewrite Forall_forall in B. specialize (B _ I). rewrite Forall_forall in L1. specialize (L1 _ I). unfold long in L1. lia.
      + lia.
      + exfalso. rewrite Forall_forall in Fr. specialize (Fr (cb_of m s)). rewrite HF in Fr. destruct (lookup (si_name s) m); [|congruence].
        discriminate Fr. apply in_rev. rewrite <- Ep2. apply in_map. exact I.
    - exfalso. pose proof (find_none _ _ Q (cb_of m s)) as X. rewrite HF in X. destruct (lookup (si_name s) m); [|congruence].
      discriminate X. apply -> in_rev. apply in_map. exact I. }
  destruct (switch_cases H (c_lens c ++ c_offsets c) (cb_of m fs) (last_offset l) l _ _ Sw ND) as (cs & Ec & F2).
  { unfold l. apply Forall_forall. intros x I. apply in_map_iff in I as (s & <- & I). rewrite Forall_forall in Ma. exact (Ma _ I). }
  cbn [cb_of cb_sig] in F2. set (lo := si_offset fs) in *.
  assert (Find : forall s, In s ins -> lo <= si_offset s ->
    if si_offset s <=? last_offset l then exists k, find (fun e => fst (fst e) =? si_offset s) cs = Some (si_offset s, si_len s, k) /\ fits (c_reads c) buf old called s k
    else find (fun e => fst (fst e) =? si_offset s) cs = None /\ called s = []).
  { intros s I L. pose proof (find_case H l cs lo (last_offset l) (cb_of m s) ND (in_map _ _ _ I) F2) as X.
    unfold in_range in X. cbn [cb_of cb_sig] in X. replace (lo <=? si_offset s) with true in X by lia. cbn [andb] in X.
    destruct (si_offset s <=? last_offset l) eqn:Q.
    - destruct X as (k & Fk & Ck). exists k. split; [exact Fk|]. unfold call_of in Ck. cbn [cb_of cb_func cb_sig] in Ck. unfold fits, called.
      pose proof (Re s I) as Rs. destruct (lookup (si_name s) m) as [f|].
      + destruct Ck as (arr & ref & ->). cbn [cl_read cl_port cl_func]. exists (value s). split; [apply Rs; discriminate|reflexivity].
      + subst k. reflexivity.
    - split; [exact X|]. unfold called. destruct (lookup (si_name s) m) eqn:Q'; [|reflexivity].
      specialize (Last s I). rewrite Q' in Last. specialize (Last ltac:(discriminate)). lia. }
  assert (Go : forall p q start, ins = p ++ q -> start = sum_lens p -> lo <= start -> off <= start ->
    Forall (fun s => called s = [] \/ si_offset s + si_len s <= off) p -> (off + n <= start \/ start <= off + n) ->
    notify_loop (S (Z.to_nat (off + n))) (c_reads c) buf old cs start (off + n) =
    Some (flat_map (fun s => if hit off n s then called s else []) ins)).
  { intros p q start Ei Es Ls Os Fp _. rewrite Ei in Ch, Lo, Sz, O3. apply chained_app in Ch as [C1 C2]. apply Forall_app in Lo as [L1 L2].
    rewrite sum_lens_app in Sz, O3. rewrite <- Es in *. cbn [Z.add] in C2.
    rewrite Z.add_0_l in C2. pose proof (chained_bounds _ _ L2 C2) as Bq. rewrite Forall_forall in Bq.
    rewrite (loop_suffix (c_reads c) buf old cs called (last_offset l) (off + n) q start); [|exact L2|exact C2| |lia|lia|lia].
    - f_equal. rewrite Ei, flat_map_app. rewrite (flat_map_nil _ p); [cbn [app]|].
      + apply flat_map_ext_in'. intros s I. specialize (Bq _ I). rewrite Forall_forall in L2. specialize (L2 _ I). unfold long in L2.
        replace (hit off n s) with (si_offset s <? off + n); [reflexivity|]. unfold hit. lia.
      + eapply Forall_impl; [|exact Fp]. cbn beta. intros s [X|X]; [rewrite X; destruct (hit _ _ _); reflexivity|].
        replace (hit off n s) with false by (unfold hit; lia). reflexivity.
    - apply Forall_forall. intros s I. apply Find; [rewrite Ei; apply in_or_app; auto|]. specialize (Bq _ I). lia. }
  unfold callbacks_called. rewrite <- N. rewrite Ec. rewrite Z.mod_small by lia. cbn [cb_of cb_sig cb_offset_define].
  assert (If : In fs ins) by (rewrite E1; apply in_or_app; right; left; reflexivity).
  assert (Clo : lo = sum_lens pre).
  { rewrite E1 in Ch. apply chained_app in Ch as [_ C2]. cbn [chained] in C2. unfold lo. lia. }
  assert (Cpre : Forall (fun s => called s = [] \/ si_offset s + si_len s <= off) pre).
  { eapply Forall_impl; [|exact Fpre]. cbn beta. intros s X. left. unfold called. rewrite X. reflexivity. }
  assert (Here : lo <= off -> notify_loop (S (Z.to_nat (off + n))) (c_reads c) buf old cs off (off + n) =
    Some (flat_map (fun s => if hit off n s then called s else []) ins)).
  { intros L. destruct St as [(p & q & Ei & Eo)|St].
    - apply (Go p q off Ei Eo L ltac:(lia)); [|lia]. apply Forall_forall. intros s I. right.
      rewrite Ei in Ch, Lo. apply chained_app in Ch as [C1 _]. apply Forall_app in Lo as [L1 _].
      pose proof (chained_bounds _ _ L1 C1) as B. rewrite Forall_forall in B. specialize (B _ I). lia.
    - specialize (St fs If). destruct (lookup (si_name fs) m); [|discriminate]. specialize (St ltac:(discriminate)). fold lo in St. lia. }
  destruct (Z.eqb_spec (si_offset fs) 0) as [Q|Q].
  - cbn [obind]. apply Here. unfold lo. lia.
  - rewrite Forall_forall in Ma. destruct (Ma fs If) as [Mf _]. cbn [cb_of cb_offset_define] in Mf. rewrite Mf. cbn [obind]. fold lo.
    destruct (Z.ltb_spec off lo) as [L|L].
    + apply (Go pre (fs :: suf) lo E1 Clo ltac:(lia) ltac:(lia) Cpre). lia.
    + apply Here. lia.
Qed.
