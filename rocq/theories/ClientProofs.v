(** Lemmas about the client. *)
From Coq Require Import ZifyBool ZifyNat Lia.
From Verif Require Import Py PyLemmas TypesModel CompilerModel VmModel TypesSpec TypesProofs VmProps
  TextModel SigModel AttrModel NodeModel NodeProofs ParserModel RmfModel RmfSpec RmfProofs FileModel FileProofs
  FileMapSpec FileMapProofs ManagerModel ManagerSpec ManagerProofs
  NodeDataModel NodeDataSpec NodeDataProofs NodeInitProofs ClientModel ClientSpec.
Ltac Zify.zify_post_hook ::= Z.div_mod_to_equations.

(** ** Identifiers *)

Lemma find_first {A} (f : A -> bool) : forall l x, find f l = Some x <->
  exists i, nth_error l i = Some x /\ f x = true /\ forall j y, (j < i)%nat -> nth_error l j = Some y -> f y = false.
Proof.
  induction l as [|a l IH]; intros x; cbn [find].
  - split; [discriminate|]. intros ([|i] & E & _); discriminate.
  - destruct (f a) eqn:Fa.
    + split.
      * intros E. injection E as <-. exists 0%nat. split; [reflexivity|]. split; [exact Fa|]. intros; lia.
      * intros ([|i] & E & Fx & Bef); [injection E as <-; reflexivity|].
        specialize (Bef 0%nat a ltac:(lia) eq_refl). congruence.
    + rewrite IH. split.
      * intros (i & E & Fx & Bef). exists (S i). split; [exact E|]. split; [exact Fx|].
        intros [|j] y L N; [injection N as <-; exact Fa|]. eapply Bef; [|exact N]. lia.
      * intros ([|i] & E & Fx & Bef); [injection E as ->; congruence|].
        exists i. split; [exact E|]. split; [exact Fx|]. intros j y L N. apply (Bef (S j) y); [lia|exact N].
Qed.

Lemma find_all_none {A} (f : A -> bool) l : find f l = None <-> forall x, In x l -> f x = false.
Proof.
  split; [intros E x; exact (find_none f l E x)|]. induction l as [|a l IH]; intros H; [reflexivity|].
  cbn [find]. rewrite H by (left; reflexivity). apply IH. intros x I. apply H. right. exact I.
Qed.

Lemma opt_eqb_neq (a b : option str) : opt_eqb a b = false <-> a <> b.
Proof.
  split.
  - intros E X. apply opt_eqb_eq in X. congruence.
  - intros N. destruct (opt_eqb a b) eqn:E; [|reflexivity]. apply opt_eqb_eq in E. contradiction.
Qed.

Lemma find_app {A} (f : A -> bool) l l' :
  find f (l ++ l') = match find f l with Some x => Some x | None => find f l' end.
Proof. induction l as [|a l IH]; cbn [app find]; [reflexivity|]. destruct (f a); [reflexivity|exact IH]. Qed.

Lemma named_type_find W nd s t : named_type W nd s t <-> node_find W nd (Some s) = Some (FType t).
Proof.
  unfold node_find. split.
  - intros (i & N & Q & Bef).
    rewrite (proj2 (find_first (fun o => opt_eqb (dt_name (w_types W o)) (Some s)) (n_types nd) t)); [reflexivity|].
    exists i. split; [exact N|]. split; [apply opt_eqb_eq; exact Q|].
    intros j y L Y. apply opt_eqb_neq. eapply Bef; eauto.
  - intros E. destruct (find _ (n_types nd)) as [x|] eqn:F.
    + injection E as ->. apply find_first in F as (i & N & Q & Bef). exists i. split; [exact N|].
      split; [apply opt_eqb_eq; exact Q|]. intros j y L Y. apply opt_eqb_neq. eapply Bef; eauto.
    + match type of E with option_map _ ?x = _ => destruct x end; discriminate.
Qed.

Lemma named_find W nd s p i o : named W nd s p i -> nth_error (ports_of nd p) i = Some o ->
  node_find W nd (Some s) = Some (FPort o).
Proof.
  intros (o' & N & Q & Ty & Bef & Req) N'. assert (o' = o) as -> by congruence.
  unfold node_find.
  rewrite (proj2 (find_all_none (fun o => opt_eqb (dt_name (w_types W o)) (Some s)) (n_types nd)))
    by (intros x I; apply opt_eqb_neq; auto).
  rewrite find_app. set (f := fun o0 => opt_eqb (pt_name (w_ports W o0)) (Some s)).
  assert (X : find f (ports_of nd p) = Some o).
  { apply find_first. exists i. split; [exact N|]. split; [apply opt_eqb_eq; exact Q|].
    intros j y L Y. apply opt_eqb_neq. eapply Bef; eauto. }
  destruct p; cbn [ports_of] in X; [|rewrite X; reflexivity].
  rewrite (proj2 (find_all_none f (n_require nd))) by (intros x I; apply opt_eqb_neq; auto).
  rewrite X. reflexivity.
Qed.

Lemma find_named W nd s o : node_find W nd (Some s) = Some (FPort o) ->
  exists p i, named W nd s p i /\ nth_error (ports_of nd p) i = Some o.
Proof.
  unfold node_find. destruct (find _ (n_types nd)) as [x|] eqn:F; [discriminate|].
  assert (Ty : forall t, In t (n_types nd) -> dt_name (w_types W t) <> Some s).
  { intros t I. apply opt_eqb_neq. exact (find_none _ _ F t I). }
  rewrite find_app. set (f := fun o0 => opt_eqb (pt_name (w_ports W o0)) (Some s)).
  destruct (find f (n_require nd)) as [x|] eqn:G; cbn [option_map].
  - intros E. injection E as ->. apply find_first in G as (i & N & Q & Bef).
    exists false, i. split; [|exact N]. exists o. split; [exact N|]. split; [apply opt_eqb_eq; exact Q|].
    split; [exact Ty|]. split; [|discriminate]. intros j y L Y. apply opt_eqb_neq. eapply Bef; eauto.
  - destruct (find f (n_provide nd)) as [x|] eqn:G'; [|discriminate].
    intros E. injection E as ->. apply find_first in G' as (i & N & Q & Bef).
    exists true, i. split; [|exact N]. exists o. split; [exact N|]. split; [apply opt_eqb_eq; exact Q|].
    split; [exact Ty|]. split; [intros j y L Y; apply opt_eqb_neq; eapply Bef; eauto|].
    intros _ y I. apply opt_eqb_neq. exact (find_none f _ G y I).
Qed.

(** Ports have their positions as ids. *)
Definition ids_ok (W : world) (nd : node) : Prop :=
  forall p i o, nth_error (ports_of nd p) i = Some o -> pt_id (w_ports W o) = Some (Z.of_nat i).

Lemma tlaid_ids_ok d W : forall l i a ts maps progs, tlaid d W i a l ts maps progs ->
  forall k o, nth_error l k = Some o -> pt_id (w_ports W o) = Some (i + Z.of_nat k).
Proof.
  induction l as [|o l IH]; intros i a ts maps progs L k o' N; [destruct k; discriminate|].
  destruct ts as [|t ts], maps as [|m maps], progs as [|p progs]; try contradiction.
  cbn [tlaid] in L. destruct L as (_ & _ & _ & C & _ & _ & L). destruct k as [|k].
  - injection N as <-. rewrite C. f_equal. lia.
  - rewrite (IH _ _ _ _ _ L _ _ N). f_equal. lia.
Qed.

Lemma index_in {A} (l : list A) k x : index l k = Ok x <->
  exists i, nth_error l i = Some x /\ (k = Z.of_nat i \/ k = Z.of_nat i - len l).
Proof.
  unfold index. split.
  - intros E. destruct (Z.ltb_spec k 0) as [L|L].
    + destruct (Z.ltb_spec (k + len l) 0) as [M|M]; [discriminate|].
      destruct (nth_error l (Z.to_nat (k + len l))) eqn:N; [|discriminate]. injection E as ->.
      exists (Z.to_nat (k + len l)). split; [exact N|]. right. lia.
    + destruct (Z.ltb_spec k 0); [lia|]. destruct (nth_error l (Z.to_nat k)) eqn:N; [|discriminate].
      injection E as ->. exists (Z.to_nat k). split; [exact N|]. left. lia.
  - intros (i & N & K). assert (I : (i < length l)%nat) by (apply nth_error_Some; congruence).
    destruct K as [-> | ->]; unfold len.
    + destruct (Z.ltb_spec (Z.of_nat i) 0); [lia|]. destruct (Z.ltb_spec (Z.of_nat i) 0); [lia|].
      rewrite Nat2Z.id, N. reflexivity.
    + destruct (Z.ltb_spec (Z.of_nat i - Z.of_nat (length l)) 0); [|lia].
      replace (Z.of_nat i - Z.of_nat (length l) + Z.of_nat (length l)) with (Z.of_nat i) by lia.
      destruct (Z.ltb_spec (Z.of_nat i) 0); [lia|]. rewrite Nat2Z.id, N. reflexivity.
Qed.

Section Targets.
Context (W : world) (nd : node) (Ids : ids_ok W nd) (Kinds : kinds_ok W nd).

Lemma kind_at p i o : nth_error (ports_of nd p) i = Some o -> pt_provide (w_ports W o) = p.
Proof. intros N. apply nth_error_In in N. destruct Kinds as [A B]. destruct p; [apply B|apply A]; exact N. Qed.

Lemma own_at p i o : nth_error (ports_of nd p) i = Some o -> is_own W (ports_of nd p) o = Ok true.
Proof.
  intros N. unfold is_own. rewrite (Ids p i o N).
  rewrite (proj2 (index_in (ports_of nd p) (Z.of_nat i) o)) by eauto. cbn [bind]. rewrite Nat.eqb_refl. reflexivity.
Qed.

Lemma own_inv p o : is_own W (ports_of nd p) o = Ok true ->
  exists i, nth_error (ports_of nd p) i = Some o /\ pt_id (w_ports W o) = Some (Z.of_nat i).
Proof.
  unfold is_own. destruct (pt_id (w_ports W o)) as [k|] eqn:P; [|discriminate]. intros E.
  apply bind_ok in E as (t & T & E). injection E as E. apply Nat.eqb_eq in E. subst t.
  apply index_in in T as (i & N & _). exists i. split; [exact N|]. rewrite <- P. apply (Ids p i o N).
Qed.

Lemma read_target_picks id p i : picks W nd id false p i -> read_target W nd id = Ok (negb p, Z.of_nat i).
Proof.
  unfold read_target. intros P. inversion P; subst; cbn [bind].
  - rewrite (kind_at _ _ _ H).
    assert (O : is_own W (if p then n_provide nd else n_require nd) o = Ok true) by (destruct p; apply (own_at _ _ _ H)).
    rewrite O. cbn [bind]. rewrite (Ids _ _ _ H). reflexivity.
  - pose proof H as (o & N & _). rewrite (named_find _ _ _ _ _ _ H N). cbn [bind].
    rewrite (kind_at _ _ _ N), (Ids _ _ _ N). reflexivity.
  - destruct H as [L K]. cbn [ports_of] in *. destruct (nth_error (n_require nd) i) as [o|] eqn:N; [|apply nth_error_None in N; lia].
    rewrite (proj2 (index_in (n_require nd) k o)) by eauto. cbn [bind].
    rewrite (kind_at false i o N), (Ids false i o N). reflexivity.
Qed.

Lemma read_target_inv id r j : read_target W nd id = Ok (r, j) ->
  (exists i, j = Z.of_nat i /\ picks W nd id false (negb r) i) \/
  (r = false /\ exists s t, id = IdName s /\ named_type W nd s t /\ dt_id (w_types W t) = Some j).
Proof.
  unfold read_target. intros E. apply bind_ok in E as ([r' j'] & E & X). apply bind_ok in X as (j'' & J & X).
  injection X as <- <-. destruct j' as [j'|]; [|discriminate]. injection J as ->.
  destruct id as [o|s|k].
  - apply bind_ok in E as (own & O & E). destruct own; [|discriminate]. injection E as <- P.
    assert (O' : is_own W (ports_of nd (pt_provide (w_ports W o))) o = Ok true)
      by (destruct (pt_provide (w_ports W o)); exact O).
    apply own_inv in O' as (i & N & Q). left. exists i. split; [congruence|].
    rewrite negb_involutive. constructor; auto.
  - destruct (node_find W nd (Some s)) as [[t|o]|] eqn:F; [| |discriminate].
    + injection E as <- P. right. split; [reflexivity|]. exists s, t. split; [reflexivity|].
      split; [apply named_type_find; exact F|exact P].
    + injection E as <- P. apply find_named in F as (p & i & Na & N). left. exists i.
      rewrite (Ids _ _ _ N) in P. split; [congruence|]. rewrite negb_involutive, (kind_at _ _ _ N). constructor; auto.
  - apply bind_ok in E as (o & O & E). injection E as <- P. apply index_in in O as (i & N & K).
    rewrite (kind_at false i o N). rewrite (Ids false i o N) in P. left. exists i. split; [congruence|].
    cbn [negb]. apply pk_number. split; [apply nth_error_Some; cbn [ports_of]; congruence|exact K].
Qed.

Lemma write_target_picks id p i : picks W nd id true p i -> p = true /\ write_target W nd id = Ok (Z.of_nat i).
Proof.
  unfold write_target. intros P. inversion P; subst.
  - destruct H0 as [| ->]; [discriminate|]. split; [reflexivity|].
    change (n_provide nd) with (ports_of nd true). rewrite (own_at _ _ _ H). cbn [bind]. rewrite (Ids _ _ _ H). reflexivity.
  - destruct H0 as [| ->]; [discriminate|]. split; [reflexivity|].
    pose proof H as (o & N & _). rewrite (named_find _ _ _ _ _ _ H N), (kind_at _ _ _ N). cbn [bind].
    rewrite (Ids _ _ _ N). reflexivity.
  - destruct H as [L K]. split; [reflexivity|]. destruct (nth_error (ports_of nd true) i) as [o|] eqn:N; [|apply nth_error_None in N; lia].
    rewrite (proj2 (index_in (n_provide nd) k o)) by eauto. cbn [bind]. rewrite (Ids true i o N). reflexivity.
Qed.

Lemma write_target_inv id j : write_target W nd id = Ok j ->
  exists i, j = Z.of_nat i /\ picks W nd id true true i.
Proof.
  unfold write_target. intros E. apply bind_ok in E as (x & E & X). destruct x as [x|]; [|discriminate].
  injection X as ->. destruct id as [o|s|k].
  - apply bind_ok in E as (own & O & E). destruct own; [|destruct (pt_provide _); discriminate]. injection E as P.
    apply (own_inv true) in O as (i & N & Q). exists i. split; [congruence|]. constructor; auto.
  - destruct (node_find W nd (Some s)) as [[t|o]|] eqn:F; try discriminate.
    destruct (pt_provide (w_ports W o)) eqn:V; [|discriminate]. injection E as P.
    apply find_named in F as (p & i & Na & N). rewrite (Ids _ _ _ N) in P. exists i. split; [congruence|].
    rewrite (kind_at _ _ _ N) in V. subst p. constructor; auto.
  - apply bind_ok in E as (o & O & E). injection E as P. apply index_in in O as (i & N & K).
    rewrite (Ids true i o N) in P. exists i. split; [congruence|].
    apply pk_number. split; [apply nth_error_Some; cbn [ports_of]; congruence|exact K].
Qed.

End Targets.

(** ** What the operations of the node data leave alone *)

Definition frame (D D' : ndata) : Prop :=
  d_in D' = d_in D /\ d_out D' = d_out D /\ d_def D' = d_def D /\
  s_map (d_inside D') = s_map (d_inside D) /\ s_map (d_outside D') = s_map (d_outside D).

Lemma frame_refl D : frame D D.
Proof. repeat split. Qed.
Lemma frame_lock D b : frame D (with_lock D b).
Proof. repeat split. Qed.
Lemma frame_trans D D1 D2 : frame D D1 -> frame D1 D2 -> frame D D2.
Proof. intros (A & B & C & X & Y) (A' & B' & C' & X' & Y'). repeat split; congruence. Qed.

Lemma unpack_frame F D i off n D' r : unpack_require F D i off n = (D', r) -> frame D D'.
Proof.
  unfold unpack_require. destruct (index _ _); [|intros E; injection E as <- _; apply frame_refl].
  destruct (d_in D); [|intros E; injection E as <- _; apply frame_refl].
  destruct (file_read _ _ _); [|intros E; injection E as <- _; apply frame_refl].
  destruct (d_locked D); [intros E; injection E as <- _; apply frame_refl|].
  destruct (exec_unpack_prog _ _ _); intros E; injection E as <- _; [apply frame_refl|apply frame_lock].
Qed.

Lemma read_frame W F D i D' r : read_require_port W F D i = (D', r) -> frame D D'.
Proof.
  unfold read_require_port. destruct (port_entry _ _ _); [apply unpack_frame|].
  intros E; injection E as <- _; apply frame_refl.
Qed.

Lemma notify_frame W F : forall l D D' calls r, notify_loop W F D l = (D', calls, r) ->
  frame D D' /\ Forall (fun c => In (fst c) (map pm_port l)) calls.
Proof.
  induction l as [|m l IH]; intros D D' calls r E; cbn [notify_loop] in E.
  - injection E as <- <- _. split; [apply frame_refl|constructor].
  - destruct (pt_id _) as [i|]; [|injection E as <- <- _; split; [apply frame_refl|constructor]].
    destruct (unpack_require F D i (pm_offset m) (pm_len m)) as [D1 [v|e|]] eqn:U;
      apply unpack_frame in U; try (injection E as <- <- _; split; [exact U|constructor]).
    destruct (notify_loop W F D1 l) as [[D2 c2] r2] eqn:N. injection E as <- <- _.
    apply IH in N as [A B]. split; [eapply frame_trans; eauto|]. cbn [map]. constructor; [left; reflexivity|].
    eapply Forall_impl; [|exact B]. intros c I. right. exact I.
Qed.

Lemma byte_loop_in W s e : forall fuel x l, byte_loop fuel W s x e = Ok l -> forall m, In m l -> In m (s_map s).
Proof.
  induction fuel as [|fuel IH]; intros x l E m I; cbn [byte_loop] in E; [discriminate|].
  destruct (x <? e); [|injection E as <-; destruct I].
  apply bind_ok in E as (o & _ & E). apply bind_ok in E as (m0 & M & E).
  destruct (negb _); [discriminate|]. apply bind_ok in E as (l' & L & E). injection E as <-.
  destruct I as [<-|I]; [|eapply IH; eauto].
  destruct (pt_id _); [|discriminate]. eapply index_ok_inv; eauto.
Qed.

Lemma in_port_frame W F D off n D' calls r : in_port_notify W F D off n = (D', calls, r) ->
  frame D D' /\ Forall (fun c => In (fst c) (map pm_port (s_map (d_inside D)))) calls.
Proof.
  unfold in_port_notify. destruct (d_client D); [|intros E; injection E as <- <- _; split; [apply frame_refl|constructor]].
  destruct (byte_to_port W D off n) as [l|e] eqn:B; [|intros E; injection E as <- <- _; split; [apply frame_refl|constructor]].
  intros E. apply notify_frame in E as [A C]. split; [exact A|].
  unfold byte_to_port in B. destruct (_ <? _); [discriminate|]. destruct (_ <? _); [discriminate|].
  eapply Forall_impl; [|exact C]. intros c I. cbn in I. apply in_map_iff in I as (m & <- & I).
  apply in_map. eapply byte_loop_in; eauto.
Qed.

Lemma write_frame W F D i v F' D' ev r : write_provide_port W F D i v = (F', D', ev, r) ->
  frame D D' /\ (forall j, d_out D <> Some j -> F' j = F j) /\
  (forall j, f_info (F' j) = f_info (F j) /\ f_managed (F' j) = f_managed (F j) /\ f_isOpen (F' j) = f_isOpen (F j)) /\
  ((forall k, d_out D = Some k -> f_kind (F k) = KOutput) ->
   ev = [] \/ exists k off n, d_out D = Some k /\ ev = [(k, OutNotify off n)] /\ r = Done tt).
Proof.
  unfold write_provide_port. intros E.
  assert (Same : F' = F -> frame D D' -> ev = [] -> frame D D' /\ (forall j, d_out D <> Some j -> F' j = F j) /\
    (forall j, f_info (F' j) = f_info (F j) /\ f_managed (F' j) = f_managed (F j) /\ f_isOpen (F' j) = f_isOpen (F j)) /\
    ((forall k, d_out D = Some k -> f_kind (F k) = KOutput) ->
     ev = [] \/ exists k off n, d_out D = Some k /\ ev = [(k, OutNotify off n)] /\ r = Done tt)).
  { intros -> A ->. split; [exact A|]. auto 6. }
  destruct (port_entry _ _ _) as [m|]; [|injection E as <- <- <- _; apply Same; auto using frame_refl].
  destruct (index _ _) as [prog|]; [|injection E as <- <- <- _; apply Same; auto using frame_refl].
  destruct (mk_zeros _) as [data|]; [|injection E as <- <- <- _; apply Same; auto using frame_refl].
  destruct (d_locked D); [injection E as <- <- <- _; apply Same; auto using frame_refl|].
  destruct (exec_pack_prog _ _ _ _) as [data'|]; [|injection E as <- <- <- _; apply Same; auto using frame_lock].
  cbn [with_values d_out] in E.
  assert (Fr : frame D (with_values D (set_nth (s_values (d_outside D)) i (OVal v)))) by (repeat split).
  destruct (d_out D) as [k|] eqn:Do; [|injection E as <- <- <- _; apply Same; auto; exact Fr].
  destruct (write2 (F k) (pm_offset m) data') as [[[f x] e]|] eqn:Wr; [|injection E as <- <- <- _; apply Same; auto; exact Fr].
  injection E as <- <- <- <-. split; [exact Fr|].
  assert (Info : f_info f = f_info (F k) /\ f_managed f = f_managed (F k) /\ f_isOpen f = f_isOpen (F k)).
  { unfold write2 in Wr. destruct (f_kind (F k)); try discriminate.
    - destruct (file_write _ _ _) as [f' r'] eqn:Fw. injection Wr as <- _ _. unfold file_write in Fw.
      destruct (_ || _); injection Fw as <- _; auto.
    - injection Wr as Wr. unfold input_write, file_write in Wr. destruct (_ || _); cbv beta iota in Wr;
        repeat match type of Wr with (if ?b then _ else _) = _ => destruct b end; injection Wr as <- _ _; auto.
    - injection Wr as Wr. unfold output_write, file_write in Wr. destruct (_ || _); cbv beta iota in Wr;
        repeat match type of Wr with (if ?b then _ else _) = _ => destruct b end; injection Wr as <- _ _; auto. }
  split; [|split].
  - intros j J. unfold upd. destruct (Nat.eqb_spec j k); [congruence|reflexivity].
  - intros j. unfold upd. destruct (Nat.eqb_spec j k) as [->|]; auto.
  - intros K. specialize (K k eq_refl). unfold write2 in Wr. rewrite K in Wr. injection Wr as Wr.
    unfold output_write, file_write in Wr. destruct (_ || _); cbv beta iota in Wr;
      repeat match type of Wr with (if ?b then _ else _) = _ => destruct b end; injection Wr as <- _ <-;
      solve [left; reflexivity|right; do 3 eexists; split; [reflexivity|split; reflexivity]].
Qed.

(** ** The invariant *)

Definition liveness (F : heap) (D : ndata) : bool :=
  match d_out D with Some k => f_managed (F k) && f_isOpen (F k) | None => true end.

Definition boxed (ins : list ty) (inname : str) (s : fm) (din : option nat) (box : option Z) : Prop :=
  match din with
  | None => box = None /\ fm_requested s = [] /\ fm_remote s = empty_map
  | Some i =>
    f_name (fm_heap s i) = inname /\ f_length (fm_heap s i) = total ins /\
    match box with
    | None => fm_requested s = [(inname, i)] /\ fm_remote s = empty_map /\ f_isOpen (fm_heap s i) = false
    | Some b => fm_requested s = [] /\ fm_remote s = mk_fmap [b] [i] /\
                f_address (fm_heap s i) = Some b /\ f_isOpen (fm_heap s i) = true
    end
  end.

Record cinv (W : world) (nd : node) (ins outs : list ty) (inname : str) (c : client) (D : ndata) (k : cstate) : Prop :=
  mk_cinv {
  ci_world : c_world c = W;
  ci_node : c_node c = Some (nd, D);
  ci_hung : c_hung c = k_hung k;
  ci_sim : sim W ins outs (liveness (fm_heap (c_fm c)) D) true (fm_heap (c_fm c)) D (k_node k);
  ci_imap : map pm_port (s_map (d_inside D)) = n_require nd;
  ci_omap : map pm_port (s_map (d_outside D)) = n_provide nd;
  ci_addr : forall o, d_out D = Some o -> f_address (fm_heap (c_fm c) o) <> None;
  ci_local : forall j, In j (m_items (fm_local (c_fm c))) -> d_in D <> Some j;
  ci_box : boxed ins inname (c_fm c) (d_in D) (k_box k)
}.

Lemma tlaid_ports d W : forall l i a ts maps progs, tlaid d W i a l ts maps progs -> map pm_port maps = l.
Proof.
  induction l as [|o l IH]; intros i a ts maps progs L;
    destruct ts as [|t ts], maps as [|m maps], progs as [|p progs]; try contradiction; [reflexivity|].
  cbn [tlaid] in L. destruct L as (A & _ & _ & _ & _ & _ & L). cbn [map]. rewrite A, (IH _ _ _ _ _ L). reflexivity.
Qed.

Lemma cinv_ids W nd ins outs inname c D k : cinv W nd ins outs inname c D k -> ids_ok W nd.
Proof.
  intros I p i o N. destruct (sim_lin _ _ _ _ _ _ _ _ (ci_sim _ _ _ _ _ _ _ _ I)) as [l L].
  destruct (sim_lout _ _ _ _ _ _ _ _ (ci_sim _ _ _ _ _ _ _ _ I)) as [l' L'].
  pose proof (tlaid_ports _ _ _ _ _ _ _ _ L) as P. rewrite (ci_imap _ _ _ _ _ _ _ _ I) in P.
  pose proof (tlaid_ports _ _ _ _ _ _ _ _ L') as P'. rewrite (ci_omap _ _ _ _ _ _ _ _ I) in P'. subst l l'.
  destruct p; cbn [ports_of] in N.
  - exact (tlaid_ids_ok _ _ _ _ _ _ _ _ L' _ _ N).
  - exact (tlaid_ids_ok _ _ _ _ _ _ _ _ L _ _ N).
Qed.

Lemma sim_live W ins outs live heard F D s : sim W ins outs live heard F D s ->
  sim W ins outs (liveness F D) heard F D s.
Proof.
  intros [Lin SB Lout SP SV SN SZ SL SC SO SI SIL SIO SA]. constructor; auto.
  unfold liveness. destruct (d_out D); [|exact SO]. tauto.
Qed.

Lemma sim_moved W ins outs live heard F F' D s : sim W ins outs live heard F D s ->
  attached F F' D (liveness F' D) -> sim W ins outs (liveness F' D) heard F' D s.
Proof.
  intros [Lin SB Lout SP SV SN SZ SL SC SO SI SIL SIO SA] [A1 A2]. constructor; auto.
  - destruct (d_out D); [|exact SO]. destruct A2 as (X & Y & Z). rewrite X, Y. tauto.
  - destruct (d_in D); [|exact SI]. destruct A1 as (X & Y & Z). rewrite X, Y, Z. exact SI.
Qed.

Lemma cinv_quiet W nd ins outs inname c D k c' : cinv W nd ins outs inname c D k ->
  c_world c' = c_world c -> c_node c' = c_node c -> c_hung c' = c_hung c ->
  fm_local (c_fm c') = fm_local (c_fm c) -> fm_remote (c_fm c') = fm_remote (c_fm c) ->
  fm_requested (c_fm c') = fm_requested (c_fm c) ->
  (forall j, fm_heap (c_fm c') j = fm_heap (c_fm c) j \/
     In j (m_items (fm_local (c_fm c))) /\ exists b, fm_heap (c_fm c') j = with_open (fm_heap (c_fm c) j) b) ->
  cinv W nd ins outs inname c' D k.
Proof.
  intros [Wd Nd Hg Sm Im Om Ad Lo Bx] E1 E2 E3 E4 E5 E6 Hp.
  assert (In_same : forall i, d_in D = Some i -> fm_heap (c_fm c') i = fm_heap (c_fm c) i).
  { intros i Di. destruct (Hp i) as [->|(L & b & _)]; [reflexivity|]. exfalso. exact (Lo i L Di). }
  constructor; try congruence; auto.
  - apply sim_moved with (live := liveness (fm_heap (c_fm c)) D) (F := fm_heap (c_fm c)); [exact Sm|]. split.
    + destruct (d_in D) as [i|] eqn:Di; [|exact I]. rewrite (In_same i eq_refl). auto.
    + unfold liveness. destruct (d_out D) as [o|]; [|exact I].
      destruct (Hp o) as [->|(_ & b & ->)]; cbn [with_open f_kind f_data]; auto.
  - intros o Do. destruct (Hp o) as [->|(_ & b & ->)]; [auto|]. exact (Ad o Do).
  - rewrite E4. exact Lo.
  - unfold boxed in *. rewrite E5, E6. destruct (d_in D) as [i|] eqn:Di; [|exact Bx]. rewrite (In_same i eq_refl). exact Bx.
Qed.

Definition cok (e : cev) : Prop := match e with CMsg m => bytes_ok m | _ => True end.

(** One step of the client is one move of the abstract client. *)
Definition stepped (W : world) (nd : node) (ins outs : list ty) (inname : str) (c : client) (k : cstate) (e : cev)
    (x : client * pres (option oval)) : Prop :=
  exists D' k' objs calls, cmove W nd ins outs inname k e k' calls (snd x) /\
    cinv W nd ins outs inname (fst x) D' k' /\ heard_as nd objs calls /\
    c_calls (fst x) = c_calls c ++ (if c_listener c then objs else []) /\
    c_listener (fst x) = match e with CListen b => b | _ => c_listener c end.

Lemma no_calls c : c_calls c = c_calls c ++ (if c_listener c then [] else []).
Proof. destruct (c_listener c); rewrite app_nil_r; reflexivity. Qed.
Lemma heard_nil nd : heard_as nd [] [].
Proof. constructor. Qed.

Ltac quiet_end := split; [apply heard_nil|split; [first [apply no_calls|exact (no_calls _)|match goal with |- _ = c_calls ?c ++ _ => exact (no_calls c) end]|reflexivity]].

Lemma out_apart W ins outs live heard F D s i o : sim W ins outs live heard F D s ->
  d_in D = Some i -> d_out D = Some o -> i <> o.
Proof. intros S A B. destruct (sim_apart _ _ _ _ _ _ _ _ S) as [X|[X|X]]; congruence. Qed.

Section Steps.
Context (W : world) (nd : node) (ins outs : list ty) (inname : str) (Kinds : kinds_ok W nd).

Lemma step_write c D k id v : cinv W nd ins outs inname c D k ->
  stepped W nd ins outs inname c k (CWrite id v) (client_write c id v).
Proof.
  intros Iv. pose proof (cinv_ids _ _ _ _ _ _ _ _ Iv) as Ids. pose proof Iv as [Wd Nd Hg Sm Im Om Ad Lo Bx].
  unfold stepped, client_write. rewrite Nd, Wd.
  destruct (write_target W nd id) as [j|e] eqn:T.
  2:{ cbn [fst snd]. exists D, k, [], []. split.
      - apply cm_write_none. intros i P. apply write_target_picks in P as [_ P]; auto. congruence.
      - split; [exact Iv|]. quiet_end. }
  apply write_target_inv in T as (i & -> & P); auto.
  pose proof (sim_write _ _ _ _ _ _ _ _ (Z.of_nat i) v Sm) as (s' & St & Sm').
  cbn [cstep] in St, Sm'.
  destruct (write_provide_port W (fm_heap (c_fm c)) D (Z.of_nat i) v) as [[[H D'] evs] r] eqn:Wp.
  cbn [fst snd] in St, Sm'. apply write_frame in Wp as ((F1 & F2 & F3 & F4 & F5) & Oth & Inf & Evs).
  specialize (Evs ltac:(intros o Do; pose proof (sim_out _ _ _ _ _ _ _ _ Sm) as X; rewrite Do in X; apply X)).
  assert (Inv : forall s, fm_heap s = H -> fm_local s = fm_local (c_fm c) -> fm_remote s = fm_remote (c_fm c) ->
    fm_requested s = fm_requested (c_fm c) ->
    cinv W nd ins outs inname (with_fm (with_ndata c nd D') s) D' (mk_cstate s' (k_box k) (k_hung k))).
  { intros s S1 S2 S3 S4.
    assert (Same : forall x, d_in D = Some x -> H x = fm_heap (c_fm c) x).
    { intros x Dx. apply Oth. intros X. exact (out_apart _ _ _ _ _ _ _ _ _ _ Sm Dx X eq_refl). }
    constructor; cbn [with_fm with_ndata c_world c_node c_hung k_hung k_node k_box]; auto.
    - change (c_fm (with_fm (with_ndata c nd D') s)) with s. rewrite S1. eapply sim_live. exact Sm'.
    - congruence.
    - congruence.
    - intros o Do. change (c_fm (with_fm (with_ndata c nd D') s)) with s. rewrite S1. unfold f_address.
      rewrite (proj1 (Inf o)). apply Ad. congruence.
    - change (c_fm (with_fm (with_ndata c nd D') s)) with s. rewrite S2, F1. exact Lo.
    - change (c_fm (with_fm (with_ndata c nd D') s)) with s. unfold boxed in *. rewrite F1, S1, S3, S4.
      destruct (d_in D) as [x|] eqn:Dx; [|exact Bx]. rewrite (Same x eq_refl). exact Bx. }
  assert (Move : forall a, answers (reply_of (fun _ : unit => AStored (out_ranges evs)) [] r) a ->
    cmove W nd ins outs inname k (CWrite id v) (mk_cstate s' (k_box k) (k_hung k)) [] a).
  { intros a A. destruct k as [ks kb kh]. cbn [k_node k_box k_hung] in *. eapply cm_write; eauto. }
  destruct Evs as [->|(o & off & n & Do & -> & ->)].
  - destruct r as [[]|e|]; cbn [fst snd]; eexists D', _, [], [];
      (split; [apply Move; exact I|]; split; [apply Inv; reflexivity|]; quiet_end).
  - unfold outPortDataWriteNotify. cbn [with_heap fm_heap].
    assert (Ha : f_address (H o) <> None) by (unfold f_address; rewrite (proj1 (Inf o)); apply Ad; exact Do).
    destruct (f_address (H o)) as [a|]; [|contradiction].
    destruct (file_read (H o) off n) as [d|]; unfold fine; cbn [fst snd]; eexists D', _, [], [];
      (split; [apply Move; exact I|]; split; [apply Inv; reflexivity|]; quiet_end).
Qed.

Lemma step_read c D k id : cinv W nd ins outs inname c D k ->
  stepped W nd ins outs inname c k (CRead id) (client_read c id).
Proof.
  intros Iv. pose proof (cinv_ids _ _ _ _ _ _ _ _ Iv) as Ids. pose proof Iv as [Wd Nd Hg Sm Im Om Ad Lo Bx].
  unfold stepped, client_read. rewrite Nd, Wd. destruct k as [ks kb kh]. cbn [k_node k_box k_hung] in *.
  assert (Type_of : forall s t j, named_type W nd s t -> dt_id (w_types W t) = Some j ->
    forall e, read_provide_port W D j = Raised e -> forall nm t' i v, IdName s = IdName nm -> named_type W nd nm t' ->
    dt_id (w_types W t') = Some (Z.of_nat i) -> nth_error (a_vals ks) i <> Some v).
  { intros s t j Nt Dt e R nm t' i v X Nt' Dt' V. injection X as <-. apply named_type_find in Nt, Nt'.
    assert (t' = t) as -> by congruence. assert (j = Z.of_nat i) as -> by congruence.
    pose proof (sim_value _ _ _ _ _ _ _ _ (Z.of_nat i) Sm) as (s' & St & _). cbn [cstep fst snd] in St.
    rewrite R in St. cbn [reply_of] in St. inversion St; subst.
    assert (i < length outs)%nat by (rewrite <- (sim_nvals _ _ _ _ _ _ _ _ Sm); apply nth_error_Some; congruence).
    unfold len in *. lia. }
  destruct (read_target W nd id) as [[r j]|e] eqn:T.
  2:{ cbn [fst snd]. exists D, (mk_cstate ks kb kh), [], []. split.
      - apply cm_read_none.
        + intros i p P. apply read_target_picks in P; auto. congruence.
        + intros nm t i v -> Nt Dt V. unfold read_target in T. apply named_type_find in Nt. rewrite Nt in T.
          cbn [bind] in T. rewrite Dt in T. discriminate.
      - split; [exact Iv|]. quiet_end. }
  apply read_target_inv in T as [(i & -> & P)|(-> & s & t & -> & Nt & Dt)]; auto.
  - destruct r; cbn [negb] in P.
    + pose proof (sim_read _ _ _ _ _ _ _ _ (Z.of_nat i) Sm) as (s' & St & Sm'). cbn [cstep] in St, Sm'.
      destruct (read_require_port W (fm_heap (c_fm c)) D (Z.of_nat i)) as [D' r] eqn:R.
      cbn [fst snd] in St, Sm'. apply read_frame in R as (F1 & F2 & F3 & F4 & F5).
      assert (Iv' : cinv W nd ins outs inname (with_ndata c nd D') D' (mk_cstate s' kb kh)).
      { constructor; cbn [with_ndata c_world c_node c_hung k_hung k_node k_box]; auto.
        - eapply sim_live. exact Sm'.
        - congruence.
        - congruence.
        - rewrite F2. exact Ad.
        - rewrite F1. exact Lo.
        - rewrite F1. exact Bx. }
      destruct r as [v|e|]; cbn [fst snd]; exists D', (mk_cstate s' kb kh), [], [];
        (split; [eapply cm_read; [exact P|exact St|reflexivity || exact I]|]; split; [exact Iv'|]; quiet_end).
    + pose proof (sim_value _ _ _ _ _ _ _ _ (Z.of_nat i) Sm) as (s' & St & _). cbn [cstep fst snd] in St.
      assert (L : (i < length outs)%nat).
      { pose proof (sim_lout _ _ _ _ _ _ _ _ Sm) as [l L]. pose proof (tlaid_length _ _ _ _ _ _ _ _ L) as (Ll & _).
        pose proof (tlaid_ports _ _ _ _ _ _ _ _ L) as Lp. rewrite Om in Lp. subst l. rewrite <- Ll.
        inversion P; subst; [apply nth_error_Some; cbn [ports_of] in *; congruence|].
        destruct H as (o & N & _). apply nth_error_Some. cbn [ports_of] in N. congruence. }
      destruct (read_provide_port W D (Z.of_nat i)) as [v|e|] eqn:R; cbn [reply_of] in St; inversion St; subst.
      * assert (i0 = i) as -> by lia.
        cbn [fst snd]. eexists D, (mk_cstate _ _ _), [], []. split; [eapply cm_value; eauto|].
        split; [exact Iv|]. quiet_end.
      * unfold len in *. lia.
  - pose proof (sim_value _ _ _ _ _ _ _ _ j Sm) as (s' & St & _). cbn [cstep fst snd] in St.
    destruct (read_provide_port W D j) as [v|e|] eqn:R; cbn [reply_of] in St; [| |inversion St].
    + inversion St; subst. cbn [fst snd]. eexists D, (mk_cstate _ _ _), [], [].
      split; [eapply cm_read_type; eauto|]. split; [exact Iv|]. quiet_end.
    + cbn [fst snd]. exists D, (mk_cstate ks kb kh), [], []. split.
      * apply cm_read_none; [|eapply Type_of; eauto].
        intros i p P. inversion P as [|s0 w0 p0 i0 Na Or|]; subst. pose proof Na as (o & N & _).
        apply named_type_find in Nt. match goal with X : named _ _ _ _ _ |- _ => rewrite (named_find _ _ _ _ _ _ X N) in Nt end. discriminate.
      * split; [exact Iv|]. quiet_end.
Qed.

Lemma slice_from_pos {A} (l : list A) i : 0 <= i -> slice_from l i = skipn (Z.to_nat i) l.
Proof.
  intros. unfold slice_from, slice_bound. replace (i <? 0) with false by lia.
  destruct (Z.min_spec i (len l)) as [[_ ->]|[L ->]]; [reflexivity|].
  unfold len in *. rewrite !skipn_all2; auto; lia.
Qed.

Lemma unpackFileInfo_len d info : unpackFileInfo d Little = Ok (Some info) -> 48 <= len d /\ exists a, fi_address info = Some a.
Proof.
  unfold unpackFileInfo, RMF_FILEINFO_BASE_LEN. destruct (Z.leb_spec 48 (len d)); [|discriminate].
  intros E. apply bind_ok in E as (nm & _ & E). injection E as <-. split; [assumption|]. eexists. reflexivity.
Qed.

Lemma find_single H b i a : f_address (H i) = Some b ->
  findByAddress H (mk_fmap [b] [i]) a = if (b <=? a) && (a <? b + f_length (H i)) then Some i else None.
Proof.
  intros A. unfold findByAddress, bisect_left. cbn [m_keys m_items length]. change (len [b] =? 0) with false. cbv iota.
  cbn [bisect_left_loop Nat.ltb Nat.leb Nat.div2 Nat.add nth].
  destruct (Z.ltb_spec b a).
  - cbn [bisect_left_loop Nat.ltb Nat.leb nth_error Nat.sub]. unfold hit. rewrite A. reflexivity.
  - cbn [bisect_left_loop Nat.ltb Nat.leb nth_error]. unfold hit. rewrite A.
    destruct ((b <=? a) && (a <? b + f_length (H i))); reflexivity.
Qed.

Lemma find_empty H a : findByAddress H empty_map a = None.
Proof. reflexivity. Qed.

Lemma with_fm_same c : with_fm c (c_fm c) = c.
Proof. destruct c as [W0 [s w y] n l cs h]. reflexivity. Qed.

(** A message that changes nothing of importance. *)
Lemma stepped_other c D k msg s' e :
  cinv W nd ins outs inname c D k -> c_hung c = false ->
  (forall x d more b, carries msg x d more -> k_box k = Some b -> ~ lands b (total ins) x d) ->
  (forall b, k_box k = None -> 0 < total ins -> ~ announces msg inname (total ins) b) ->
  onMsgReceived (c_fm c) msg = (s', [], e) ->
  fm_local s' = fm_local (c_fm c) -> fm_remote s' = fm_remote (c_fm c) -> fm_requested s' = fm_requested (c_fm c) ->
  (forall j, fm_heap s' j = fm_heap (c_fm c) j \/
     In j (m_items (fm_local (c_fm c))) /\ exists b, fm_heap s' j = with_open (fm_heap (c_fm c) j) b) ->
  stepped W nd ins outs inname c k (CMsg msg) (client_msg c msg).
Proof.
  intros Iv Hg N1 N2 E E1 E2 E3 Hp. unfold client_msg. rewrite Hg, E.
  destruct k as [ks kb kh]. pose proof (ci_hung _ _ _ _ _ _ _ _ Iv) as Hk. cbn [k_hung k_box] in *. rewrite Hg in Hk. subst kh.
  assert (Iv' : cinv W nd ins outs inname (with_fm c s') D (mk_cstate ks kb false)) by (eapply cinv_quiet; eauto).
  destruct e as [e|]; unfold stepped; cbn [fst snd].
  - exists D, (mk_cstate ks kb false), [], []. split; [apply cm_other; auto; discriminate|]. split; [exact Iv'|]. quiet_end.
  - exists D, (mk_cstate ks kb false), [], []. split; [apply cm_other; auto; discriminate|]. split; [exact Iv'|]. quiet_end.
Qed.

Lemma carries_cmd msg kk more : unpackHeader msg = (kk, Some RMF_CMD_START_ADDR, more) ->
  forall x d more', ~ carries msg x d more'.
Proof. intros H x d more' (k & E & _ & L & _). rewrite H in E. injection E as _ <- _. unfold RMF_CMD_START_ADDR in L. lia. Qed.

Lemma announces_cmd msg kk a more nm n b : unpackHeader msg = (kk, Some a, more) -> a <> RMF_CMD_START_ADDR ->
  ~ announces msg nm n b.
Proof. intros H N (k & m & info & E & _). rewrite H in E. injection E as _ E _. apply N. rewrite E. reflexivity. Qed.

Lemma step_cmd c D k msg kk more : cinv W nd ins outs inname c D k -> c_hung c = false ->
  unpackHeader msg = (kk, Some RMF_CMD_START_ADDR, more) -> 0 < kk ->
  stepped W nd ins outs inname c k (CMsg msg) (client_msg c msg).
Proof.
  intros Iv Hg Hd K. pose proof Iv as [Wd Nd Hh Sm Im Om Ad Lo Bx].
  set (data := slice_from msg kk).
  assert (Dt : data = skipn (Z.to_nat kk) msg) by (apply slice_from_pos; lia).
  assert (Msg : onMsgReceived (c_fm c) msg = processCmd (c_fm c) data).
  { unfold onMsgReceived. rewrite Hd. replace (0 <? kk) with true by lia. rewrite Z.eqb_refl. reflexivity. }
  assert (Ann : forall nm n b, announces msg nm n b -> exists info, unpackFileInfo data Little = Ok (Some info) /\
    unpack_uint Little (slice data 0 4) = 3 /\ fi_name info = nm /\ fi_length info = n /\ fi_address info = Some b).
  { intros nm n b (k0 & m0 & info & E & _ & U & C & X). rewrite Hd in E. injection E as <- _. rewrite <- Dt in U, C. eauto. }
  pose proof (carries_cmd _ _ _ Hd) as Nc.
  assert (Same : forall e, processCmd (c_fm c) data = (c_fm c, [], e) ->
    (forall b, k_box k = None -> 0 < total ins -> ~ announces msg inname (total ins) b) ->
    stepped W nd ins outs inname c k (CMsg msg) (client_msg c msg)).
  { intros e E Na. eapply stepped_other with (s' := c_fm c) (e := e); [exact Iv|exact Hg| |exact Na|congruence|..]; auto.
    intros x d m b C. exfalso. exact (Nc x d m C). }
  unfold processCmd in *.
  destruct (Z.leb_spec 4 (len data)) as [L|L].
  2:{ apply Same with (e := None); [reflexivity|]. intros b _ _ A. apply Ann in A as (info & U & _).
      apply unpackFileInfo_len in U. lia. }
  change byteOrder with Little in *.
  destruct (Z.eqb_spec (unpack_uint Little (slice data 0 4)) RMF_CMD_FILE_INFO) as [C|C].
  { unfold processFileInfo in *. change byteOrder with Little in *.
    destruct (unpackFileInfo data Little) as [[info|]|e] eqn:U.
    2:{ apply Same with (e := Some AttributeError); [reflexivity|]. intros b _ _ A. apply Ann in A as (i & X & _). discriminate. }
    2:{ apply Same with (e := Some e); [reflexivity|]. intros b _ _ A. apply Ann in A as (i & X & _). discriminate. }
    assert (Na : (fi_name info <> inname \/ fi_length info <> total ins) -> forall b, ~ announces msg inname (total ins) b).
    { intros N b A. apply Ann in A as (i & X & _ & X1 & X2 & _). injection X as <-. destruct N; congruence. }
    destruct (lookup (fi_name info) (fm_requested (c_fm c))) as [i|] eqn:Lk.
    - unfold boxed in Bx. destruct (d_in D) as [fi|] eqn:Di; [|destruct Bx as (_ & R & _); rewrite R in Lk; discriminate].
      destruct Bx as (B1 & B2 & B3). destruct (k_box k) as [b|] eqn:Kb; [destruct B3 as (R & _); rewrite R in Lk; discriminate|].
      destruct B3 as (R & Em & _). rewrite R in Lk. cbn [lookup] in Lk. destruct (str_eqb inname (fi_name info)) eqn:Q; [|discriminate].
      apply str_eqb_eq in Q. injection Lk as <-.
      destruct (Z.eqb_spec (f_length (fm_heap (c_fm c) fi)) (fi_length info)) as [Ln|Ln].
      2:{ apply Same with (e := Some NameError); [reflexivity|]. intros b _ _. apply Na. right. congruence. }
      (* opened *)
      destruct (unpackFileInfo_len _ _ U) as [_ [a Ha]].
      pose proof (sim_in _ _ _ _ _ _ _ _ Sm) as SI. rewrite Di in SI. destruct SI as (T & Kd & Hn & Dd).
      unfold insert in Msg. cbn [with_heap with_requested fm_heap fm_remote] in Msg.
      assert (Upd : forall (F : heap) f, upd F fi f fi = f) by (intros; unfold upd; rewrite Nat.eqb_refl; reflexivity).
      rewrite !Upd in Msg. unfold is_apx_file in Msg. cbn [with_open with_info f_kind f_info f_address fi_address] in Msg.
      rewrite Kd, Ha in Msg. cbn [negb] in Msg. unfold f_address in Msg. cbn [with_open with_info f_info fi_address bind] in Msg.
      rewrite Em in Msg. cbn [empty_map m_keys m_items] in Msg. change (bisect_left [] a) with 0%nat in Msg.
      unfold insert_at in Msg. cbn [firstn skipn app] in Msg. rewrite R in Msg. cbn [ddel] in Msg.
      change (f_name (fm_heap (c_fm c) fi)) with (f_name (fm_heap (c_fm c) fi)) in Msg. rewrite B1 in Msg.
      rewrite str_eqb_refl in Msg.
      unfold stepped, client_msg. rewrite Hg, Msg. unfold fine. cbn [fst snd].
      destruct k as [ks kb kh]. cbn [k_hung k_box k_node] in *. subst kb. rewrite Hg in Hh. subst kh.
      exists D, (mk_cstate ks (Some a) false), [], [].
      split; [apply cm_opened; [|exact T]|].
      { exists kk, more, info. split; [exact Hd|]. split; [exact K|]. rewrite <- Dt. repeat split; try congruence. exact C. }
      split; [|quiet_end].
      match goal with |- cinv _ _ _ _ _ (with_fm c ?s) _ _ => set (s3 := s) end.
      assert (Ho : forall j, j <> fi -> fm_heap s3 j = fm_heap (c_fm c) j).
      { intros j J. cbn. unfold upd. destruct (Nat.eqb_spec j fi); [contradiction|reflexivity]. }
      assert (Hi : fm_heap s3 fi = with_open (with_info (fm_heap (c_fm c) fi)
         (mk_finfo inname (f_length (fm_heap (c_fm c) fi)) (fi_fileType info) (Some a) (fi_digestType info) (fi_digestData info))) true).
      { cbn. rewrite !Upd. reflexivity. }
      assert (Hr : fm_local s3 = fm_local (c_fm c) /\ fm_remote s3 = mk_fmap [a] [fi] /\ fm_requested s3 = []) by auto.
      clearbody s3. destruct Hr as (Hr1 & Hr2 & Hr3).
      constructor; cbn [with_fm c_world c_node c_hung k_hung k_node k_box]; auto.
      + change (c_fm (with_fm c s3)) with s3.
        apply sim_moved with (live := liveness (fm_heap (c_fm c)) D) (F := fm_heap (c_fm c)); [exact Sm|]. split.
        * rewrite Di, Hi. auto.
        * unfold liveness. destruct (d_out D) as [o|] eqn:Do; [|exact I].
          rewrite (Ho o); auto. intros ->. exact (out_apart _ _ _ _ _ _ _ _ _ _ Sm Di Do eq_refl).
      + intros o Do. change (c_fm (with_fm c s3)) with s3. rewrite (Ho o); auto.
        intros ->. exact (out_apart _ _ _ _ _ _ _ _ _ _ Sm Di Do eq_refl).
      + change (c_fm (with_fm c s3)) with s3. rewrite Hr1, Di. exact Lo.
      + change (c_fm (with_fm c s3)) with s3. unfold boxed. rewrite Di, Hi. repeat split; auto.
    - (* not requested *)
      assert (E : (match insert (upd (fm_heap (c_fm c)) (fm_next (c_fm c)) (mk_file KRemote info false false false []))
            (fm_remote (c_fm c)) (fm_next (c_fm c)) with
          | Ok (H, m) => fine (mk_fm H (S (fm_next (c_fm c))) (fm_local (c_fm c)) m (fm_requested (c_fm c)) (fm_queue (c_fm c)))
          | Err e => fail (c_fm c) e end) = fail (c_fm c) AssertionError).
      { unfold insert, upd. rewrite Nat.eqb_refl. reflexivity. }
      apply Same with (e := Some AssertionError); [exact E|].
      intros b Kb T A. apply (fun X => Na X b A).
      unfold boxed in Bx. pose proof (sim_in _ _ _ _ _ _ _ _ Sm) as SI. destruct (d_in D) as [fi|]; [|lia].
      rewrite Kb in Bx. destruct Bx as (_ & _ & R & _). rewrite R in Lk. cbn [lookup] in Lk.
      left. intros X. rewrite X, str_eqb_refl in Lk. discriminate. }
  assert (Na : forall b, k_box k = None -> 0 < total ins -> ~ announces msg inname (total ins) b).
  { intros b _ _ A. apply Ann in A as (i & _ & X & _). apply C. exact X. }
  destruct (Z.eqb_spec (unpack_uint Little (slice data 0 4)) RMF_CMD_FILE_OPEN) as [C2|C2].
  { unfold processFileOpen in *. change byteOrder with Little in *.
    destruct (unpackFileOpen data Little) as [x|e]; [|apply Same with (e := Some e); [reflexivity|exact Na]].
    destruct (findByAddress (fm_heap (c_fm c)) (fm_local (c_fm c)) x) as [j|] eqn:Fd; [|apply Same with (e := None); [reflexivity|exact Na]].
    apply find_in in Fd.
    assert (Hp : forall h, h = upd (fm_heap (c_fm c)) j (with_open (fm_heap (c_fm c) j) true) ->
      forall j0, h j0 = fm_heap (c_fm c) j0 \/
      In j0 (m_items (fm_local (c_fm c))) /\ exists b, h j0 = with_open (fm_heap (c_fm c) j0) b).
    { intros h -> j0. unfold upd. destruct (Nat.eqb_spec j0 j) as [->|]; [right; eauto|left; reflexivity]. }
    destruct (file_read _ _ _) as [content|]; [destruct (f_address _) as [ad|]|];
      (eapply stepped_other; [exact Iv|exact Hg| |exact Na|rewrite Msg; unfold fine; reflexivity|reflexivity|reflexivity|reflexivity|apply Hp; reflexivity];
       intros x0 d m b Cc; exfalso; exact (Nc x0 d m Cc)). }
  destruct (Z.eqb_spec (unpack_uint Little (slice data 0 4)) RMF_CMD_FILE_CLOSE) as [C3|C3].
  { unfold processFileClose in *. change byteOrder with Little in *.
    destruct (unpackFileClose data Little) as [x|e]; [|apply Same with (e := Some e); [reflexivity|exact Na]].
    destruct (findByAddress (fm_heap (c_fm c)) (fm_local (c_fm c)) x) as [j|] eqn:Fd; [|apply Same with (e := None); [reflexivity|exact Na]].
    apply find_in in Fd.
    eapply stepped_other; [exact Iv|exact Hg| |exact Na|rewrite Msg; unfold fine; reflexivity|reflexivity|reflexivity|reflexivity|].
    - intros x0 d m b Cc; exfalso; exact (Nc x0 d m Cc).
    - intros j0. cbn. unfold upd. destruct (Nat.eqb_spec j0 j) as [->|]; [right; eauto|left; reflexivity]. }
  apply Same with (e := None); [reflexivity|exact Na].
Qed.

Lemma numbered_heard (calls : list (nat * pyval)) : ids_ok W nd ->
  Forall (fun c => In (fst c) (n_require nd)) calls -> heard_as nd calls (numbered W calls).
Proof.
  intros Ids. unfold heard_as, numbered. induction 1 as [|c l Hc _ IH]; cbn [map]; constructor; [|exact IH].
  cbn [fst snd]. split; [|reflexivity]. apply In_nth_error in Hc as [i N].
  pose proof (Ids false i (fst c) N) as E. unfold port_number. rewrite E, Nat2Z.id. exact N.
Qed.

Lemma step_data c D k msg kk a more : cinv W nd ins outs inname c D k -> c_hung c = false -> bytes_ok msg ->
  unpackHeader msg = (kk, Some a, more) -> 0 < kk -> a <> RMF_CMD_START_ADDR ->
  stepped W nd ins outs inname c k (CMsg msg) (client_msg c msg).
Proof.
  intros Iv Hg Ok Hd K Na. pose proof (cinv_ids _ _ _ _ _ _ _ _ Iv) as Ids. pose proof Iv as [Wd Nd Hh Sm Im Om Ad Lo Bx].
  pose proof (slice_from_pos msg kk ltac:(lia)) as Dt. set (data := slice_from msg kk) in *.
  pose proof (fun nm n b => announces_cmd msg kk a more nm n b Hd Na) as Nann.
  assert (Cr : forall x d m, carries msg x d m -> x = a /\ d = data /\ m = more /\ a < RMF_CMD_START_ADDR).
  { intros x d m (k0 & E & _ & L & ->). rewrite Hd in E. injection E as <- <- <-. rewrite Dt. auto. }
  assert (Msg : onMsgReceived (c_fm c) msg =
     if a <? RMF_CMD_START_ADDR then processFileWrite (c_fm c) a more data else fail (c_fm c) ValueError).
  { unfold onMsgReceived. rewrite Hd. replace (0 <? kk) with true by lia.
    destruct (Z.eqb_spec a RMF_CMD_START_ADDR); [contradiction|reflexivity]. }
  assert (Same : forall e, onMsgReceived (c_fm c) msg = (c_fm c, [], e) ->
    (forall x d more b, carries msg x d more -> k_box k = Some b -> ~ lands b (total ins) x d) ->
    stepped W nd ins outs inname c k (CMsg msg) (client_msg c msg)).
  { intros e E Nl. eapply stepped_other with (s' := c_fm c) (e := e); [exact Iv|exact Hg|exact Nl| |exact E|..]; auto. }
  destruct (Z.ltb_spec a RMF_CMD_START_ADDR) as [La|La].
  2:{ apply Same with (e := Some ValueError); [exact Msg|]. intros x d m b C. apply Cr in C. lia. }
  unfold processFileWrite in Msg.
  unfold boxed in Bx. pose proof (sim_in _ _ _ _ _ _ _ _ Sm) as SI.
  destruct (d_in D) as [fi|] eqn:Di.
  2:{ destruct Bx as (Kb & _ & R). rewrite R, find_empty in Msg. apply Same with (e := None); [exact Msg|]. congruence. }
  destruct Bx as (B1 & B2 & B3). destruct (k_box k) as [b|] eqn:Kb.
  2:{ destruct B3 as (_ & R & _). rewrite R, find_empty in Msg. apply Same with (e := None); [exact Msg|]. congruence. }
  destruct B3 as (Rq & R & Fa & Fo). rewrite R, (find_single _ _ _ _ Fa), B2 in Msg.
  destruct ((b <=? a) && (a <? b + total ins)) eqn:In1.
  2:{ apply Same with (e := None); [exact Msg|]. intros x d m b0 C E. injection E as <-. apply Cr in C as (-> & -> & _).
      unfold lands. lia. }
  cbv zeta in Msg. rewrite Fo, Fa, B2 in Msg.
  destruct ((0 <=? a - b) && (a - b + len data <=? total ins)) eqn:In2.
  2:{ apply Same with (e := None); [exact Msg|]. intros x d m b0 C E. injection E as <-. apply Cr in C as (-> & -> & _).
      unfold lands. lia. }
  destruct SI as (T & Kd & Hn & Dd). unfold write3 in Msg. rewrite Kd in Msg.
  assert (OkD : bytes_ok data).
  { rewrite Dt. unfold bytes_ok in *. rewrite <- (firstn_skipn (Z.to_nat kk) msg) in Ok. apply Forall_app in Ok. apply Ok. }
  pose proof (sim_arrive _ _ _ _ _ _ _ _ (a - b) data more Sm OkD) as (s' & St & Sm').
  cbn [cstep] in St, Sm'. rewrite Di in St, Sm'.
  destruct (input_write (fm_heap (c_fm c) fi) (a - b) data more) as [[f' n'] ev] eqn:Iw.
  assert (Ff : f_name f' = inname /\ f_length f' = total ins /\ f_address f' = Some b /\ f_isOpen f' = true /\
     (ev = [] \/ exists o n, ev = [InNotify o n])).
  { unfold input_write in Iw. destruct (file_write (fm_heap (c_fm c) fi) (a - b) data) as [f0 n0] eqn:Fw.
    assert (f_info f0 = f_info (fm_heap (c_fm c) fi) /\ f_isOpen f0 = f_isOpen (fm_heap (c_fm c) fi)) as (X & Y).
    { unfold file_write in Fw. destruct (_ || _); injection Fw as <- _; split; reflexivity. }
    unfold f_name, f_length, f_address in *. 
    destruct (_ && _) in Iw; [destruct (f_handled f0)|]; injection Iw as <- <- <-; rewrite X, Y; eauto 9. }
  destruct Ff as (Ff1 & Ff2 & Ff3 & Ff4 & Ev).
  set (s1 := with_heap (c_fm c) (upd (fm_heap (c_fm c)) fi f')) in *.
  assert (Inv : forall D' c', c_world c' = W -> c_node c' = Some (nd, D') -> c_fm c' = s1 -> frame D D' ->
     sim W ins outs (liveness (fm_heap (c_fm c)) D) true (fm_heap s1) D' s' ->
     cinv W nd ins outs inname c' D' (mk_cstate s' (Some b) (c_hung c'))).
  { intros D' c' W1 N1 Fm (F1 & F2 & F3 & F4 & F5) Sm1.
    assert (Up : fm_heap s1 fi = f') by (cbn; unfold upd; rewrite Nat.eqb_refl; reflexivity).
    constructor; cbn [k_hung k_node k_box]; auto; try congruence; rewrite Fm.
    - eapply sim_live. exact Sm1.
    - intros o Do. rewrite F2 in Do. cbn. unfold upd. destruct (Nat.eqb_spec o fi) as [->|]; [|auto].
      exfalso. exact (out_apart _ _ _ _ _ _ _ _ _ _ Sm Di Do eq_refl).
    - rewrite F1, Di. exact Lo.
    - unfold boxed. rewrite F1, Di, Up. repeat split; auto. }
  destruct k as [ks kb kh]. cbn [k_hung k_node k_box] in *. subst kb. rewrite Hg in Hh. subst kh.
  assert (Ca : carries msg a data more) by (exists kk; rewrite Dt; auto).
  assert (La' : lands b (total ins) a data) by (unfold lands; lia).
  unfold stepped, client_msg. rewrite Hg, Msg.
  change (c_node (with_fm c s1)) with (c_node c). rewrite Nd.
  destruct Ev as [->|(o & n & ->)]; cbn [map].
  - cbn [fst snd] in St, Sm' |- *. exists D, (mk_cstate s' (Some b) false), [], []. split.
    + exact (cm_data W nd ins outs inname ks b msg a data more _ s' (ACalls []) (Done None) Ca La' St I).
    + split; [|quiet_end]. rewrite <- Hg. apply (Inv D (with_fm c s1)); auto. apply frame_refl.
  - change (c_world (with_fm c s1)) with (c_world c). rewrite Wd.
    change (fm_heap s1) with (upd (fm_heap (c_fm c)) fi f').
    destruct (in_port_notify W (upd (fm_heap (c_fm c)) fi f') D o n) as [[D' calls] r] eqn:Np.
    cbn [fst snd] in St, Sm'. apply in_port_frame in Np as [Fr Ic]. rewrite Im in Ic.
    pose proof (numbered_heard calls Ids Ic) as Hc. cbn [fst snd].
    destruct r as [[]|e|]; cbn [reply_of] in St;
      eexists D', (mk_cstate s' (Some b) _), calls, (numbered W calls);
      (split; [eapply (cm_data W nd ins outs inname ks b msg a data more _ s' _ _ Ca La' St); exact I|]);
      (split; [apply Inv; auto|split; [exact Hc|split; reflexivity]]).
Qed.

Lemma step_msg c D k msg : cinv W nd ins outs inname c D k -> bytes_ok msg ->
  stepped W nd ins outs inname c k (CMsg msg) (client_msg c msg).
Proof.
  intros Iv Ok. destruct (c_hung c) eqn:Hg.
  { unfold stepped, client_msg. rewrite Hg. cbn [fst snd]. exists D, k, [], []. split.
    - pose proof (ci_hung _ _ _ _ _ _ _ _ Iv) as H. rewrite Hg in H. destruct k as [ks kb kh]. cbn [k_hung] in H. subst kh. constructor.
    - split; [exact Iv|]. quiet_end. }
  destruct (unpackHeader msg) as [[kk oa] more] eqn:Hd.
  assert (Same : (0 < kk -> oa = None) -> forall e, onMsgReceived (c_fm c) msg = (c_fm c, [], e) ->
    stepped W nd ins outs inname c k (CMsg msg) (client_msg c msg)).
  { intros N e E. eapply stepped_other with (s' := c_fm c) (e := e); [exact Iv|exact Hg| | |exact E|..]; auto.
    - intros x d m b (k0 & X & P & _). rewrite Hd in X. injection X as <- X _. rewrite N in X; [discriminate|exact P].
    - intros b _ _ (k0 & m & i & X & P & _). rewrite Hd in X. injection X as <- X _. rewrite N in X; [discriminate|exact P]. }
  destruct (Z.ltb_spec 0 kk) as [K|K].
  - destruct oa as [a|].
    + destruct (Z.eq_dec a RMF_CMD_START_ADDR) as [->|Na].
      * eapply step_cmd; eauto.
      * eapply step_data; eauto.
    + apply Same with (e := Some TypeError); [auto|]. unfold onMsgReceived. rewrite Hd.
      replace (0 <? kk) with true by lia. reflexivity.
  - apply Same with (e := None); [lia|]. unfold onMsgReceived. rewrite Hd. replace (0 <? kk) with false by lia. reflexivity.
Qed.

Lemma step_rest c D k e : cinv W nd ins outs inname c D k ->
  (match e with CListen _ | CStart | CConnect _ | CWork => True | _ => False end) ->
  stepped W nd ins outs inname c k e (client_step c e).
Proof.
  intros Iv He. unfold stepped. destruct e as [id v|id|b| |h|m|]; try contradiction; cbn [client_step].
  - cbn [fst snd]. exists D, k, [], []. split; [constructor|]. split.
    + eapply cinv_quiet; eauto.
    + split; [apply heard_nil|split; [exact (no_calls c)|reflexivity]].
  - unfold start. destruct (y_wrk (c_sys c)) eqn:Yw; cbn [fst snd]; exists D, k, [], [];
      (split; [constructor; discriminate|]; split; [eapply cinv_quiet; eauto|]; quiet_end).
  - unfold onConnected. pose proof (announce_facts (m_items (fm_local (c_fm c))) (put (c_fm c) (QConnect h))) as X.
    cbv zeta in X. destruct (announce _ _) as [[s l] e]. cbn [st_of fst] in X. destruct X as (A & B & C & R & _ & _).
    cbn [fst snd]. exists D, k, [], []. split; [constructor; destruct e; discriminate|]. split.
    + eapply cinv_quiet; eauto. intros j. left. change (c_fm (with_fm c s)) with s. rewrite A. reflexivity.
    + quiet_end.
  - destruct (work_keeps (c_sys c)) as (A & B & C & E & F). cbn [fst snd]. exists D, k, [], []. split; [constructor|]. split.
    + eapply cinv_quiet; eauto. intros j. left.
      match goal with |- fm_heap (c_fm ?x) j = _ => change (c_fm x) with (y_fm (work (c_sys c))) end. rewrite A. reflexivity.
    + quiet_end.
Qed.

Lemma step_any c D k e : cinv W nd ins outs inname c D k -> cok e ->
  stepped W nd ins outs inname c k e (client_step c e).
Proof.
  intros Iv Ok. destruct e as [id v|id|b| |h|m|]; try (apply step_rest with (D := D); [exact Iv|exact I]); cbn [client_step].
  - eapply step_write; eauto.
  - eapply step_read; eauto.
  - eapply step_msg; eauto.
Qed.

Lemma run_any evs : forall c D k c' l, cinv W nd ins outs inname c D k -> Forall cok evs -> client_run c evs = (c', l) ->
  exists D' k' objs calls, cmoves W nd ins outs inname k (c_listener c) evs k' calls l /\
    cinv W nd ins outs inname c' D' k' /\ heard_as nd objs calls /\ c_calls c' = c_calls c ++ objs.
Proof.
  induction evs as [|e evs IH]; intros c D k c' l Iv Ok E; cbn [client_run] in E.
  - injection E as <- <-. exists D, k, [], []. split; [constructor|]. split; [exact Iv|]. split; [constructor|].
    rewrite app_nil_r. reflexivity.
  - inversion Ok as [|? ? O1 O2]; subst. pose proof (step_any c D k e Iv O1) as (D1 & k1 & o1 & c1 & Mv & Iv1 & H1 & Cs & Ls).
    destruct (client_step c e) as [c2 a]. cbn [fst snd] in *. destruct (client_run c2 evs) as [c3 l3] eqn:R. injection E as <- <-.
    destruct (IH _ _ _ _ _ Iv1 O2 R) as (D' & k' & o2 & cc2 & Ms & Iv2 & H2 & Cs2).
    exists D', k', ((if c_listener c then o1 else []) ++ o2), ((if c_listener c then c1 else []) ++ cc2).
    split; [econstructor; [exact Mv|rewrite <- Ls; exact Ms]|]. split; [exact Iv2|]. split.
    + apply Forall2_app; [|exact H2]. destruct (c_listener c); [exact H1|constructor].
    + rewrite Cs2, Cs, app_assoc. reflexivity.
Qed.

End Steps.

(** ** The first state *)

Lemma node_data_files fuel W nd F k W' F' k' D : node_data fuel W nd F k = Ok (W', F', k', D) ->
  d_in D <> Some (d_def D) /\ d_out D <> Some (d_def D) /\
  f_managed (F' (d_def D)) = false /\ f_isOpen (F' (d_def D)) = false /\ f_address (F' (d_def D)) = None /\
  f_kind (F' (d_def D)) = KOutput /\
  f_length (F' (d_def D)) = len (f_data (F' (d_def D))) /\ 0 < f_length (F' (d_def D)) /\
  (forall j, d_in D <> Some j -> d_out D <> Some j -> d_def D <> j -> F' j = F j).
Proof.
  intros E. unfold node_data in E.
  apply bind_ok in E as (text & Et & E).
  apply bind_ok in E as ([[W1 ins] fin] & E1 & E).
  apply bind_ok in E as ([[W2 outs] fout] & E2 & E).
  apply bind_ok in E as (fdef & Ed & E).
  assert (Tp : 0 < len text).
  { unfold context_dumps in Et. apply bind_ok in Et as (ls & _ & Et). injection Et as <-.
    rewrite len_app. change (len [NEWLINE]) with 1. match goal with |- 0 < len ?x + 1 => pose proof (len_nonneg x) end. lia. }
  assert (Def : f_managed fdef = false /\ f_isOpen fdef = false /\ f_address fdef = None /\ f_kind fdef = KOutput /\
    f_length fdef = len (f_data fdef) /\ 0 < f_length fdef).
  { unfold create_definition in Ed. destruct (n_name nd) as [name|]; [|discriminate].
    apply bind_ok in Ed as (f & Ef & Ed). apply bind_ok in Ed as (b & Eb & Ed).
    apply bind_ok in Ed as ([[f2 r] ev] & Ew & Ed). invc Ed.
    unfold new_file, mk_zeros in Ef.
    replace (len text <? 0) with false in Ef by lia. cbn [bind] in Ef. invc Ef.
    assert (Lb : len b = len text) by (unfold encode_ascii in Eb; destruct (forallb _ _); invc Eb; reflexivity).
    unfold write2 in Ew. cbn [f_kind] in Ew. unfold output_write, file_write in Ew. cbn [f_data] in Ew.
    assert (Lz : len (zeros (len text)) = len text) by (unfold zeros, len; rewrite repeat_length; lia).
    rewrite Lz, Lb in Ew. replace ((0 <? 0) || (len text <? 0 + len text)) with false in Ew by lia.
    cbn [with_data f_managed f_isOpen andb] in Ew. rewrite !andb_false_r in Ew. cbn [andb] in Ew. invc Ew.
    repeat split; [|exact Tp].
    cbn [with_data f_data]. rewrite splice_in by lia. cbn [Z.to_nat firstn app Z.add].
    rewrite skipn_all2; [rewrite app_nil_r; symmetry; exact Lb|]. unfold len in *. lia. }
  destruct Def as (A1 & A2 & A3 & A4 & A5 & A6).
  destruct fin as [fin|], fout as [fout|]; cbn [option_map new_file_id] in E; injection E as <- <- <- <-;
    cbn [d_in d_out d_def]; rewrite !FileMapProofs.upd_same;
    (split; [first [discriminate|intros X; injection X; lia]|]; split; [first [discriminate|intros X; injection X; lia]|]);
    repeat (split; [assumption|]);
    intros j J1 J2 J3; unfold upd;
    repeat match goal with |- context [Nat.eqb ?a ?b] => destruct (Nat.eqb_spec a b); [exfalso; congruence|] end; reflexivity.
Qed.

(** What attaching a local file changes. *)
Definition attach_change (i : nat) (H H' : heap) : Prop :=
  (forall j, j <> i -> H' j = H j) /\
  exists a, H' i = with_managed (with_address (H i) (Some a)) true.

Lemma attach_shape s i s' l : attachLocalFile s i = (s', l, None) ->
  l = [] /\ fm_remote s' = fm_remote s /\ fm_requested s' = fm_requested s /\ fm_queue s' = fm_queue s /\
  fm_next s' = fm_next s /\ attach_change i (fm_heap s) (fm_heap s') /\
  (forall j, In j (m_items (fm_local s')) <-> j = i \/ In j (m_items (fm_local s))).
Proof.
  unfold attachLocalFile. destruct (insert (fm_heap s) (fm_local s) i) as [[H m]|e] eqn:E; [|discriminate].
  intros X. injection X as <- <-. unfold insert in E. destruct (negb _); [discriminate|].
  apply bind_ok in E as (a & _ & E). injection E as <- <-.
  cbn [with_local fm_remote fm_requested fm_queue fm_next fm_heap fm_local m_items].
  split; [reflexivity|]. do 4 (split; [reflexivity|]). split.
  - split.
    + intros j J. rewrite !FileMapProofs.upd_other by auto. reflexivity.
    + exists a. rewrite !FileMapProofs.upd_same. reflexivity.
  - intros j. unfold insert_at. set (p := bisect_left (m_keys (fm_local s)) a).
    rewrite <- (firstn_skipn p (m_items (fm_local s))) at 3. rewrite !in_app_iff. cbn [In]. intuition auto.
Qed.

Definition first_events (D : ndata) : list ev :=
  match d_in D with Some i => [ERequest i] | None => [] end ++
  match d_out D with Some o => [EAttach o] | None => [] end ++ [EAttach (d_def D)].

Lemma attach_inv fuel W nd c0 : attach_node fuel (new_client W) nd = Ok c0 ->
  exists W' F' k' D, node_data fuel W nd no_files 0 = Ok (W', F', k', D) /\
    c_world c0 = W' /\ c_node c0 = Some (nd, with_client D true) /\ c_listener c0 = false /\ c_calls c0 = [] /\
    c_hung c0 = false /\ y_wrk (c_sys c0) = WNew /\ y_sent (c_sys c0) = [] /\
    yrun (fresh F' k') (first_events D) = (mk_sys (c_fm c0) (WRun None) [], []) /\
    fm_queue (c_fm c0) = [] /\ fm_remote (c_fm c0) = empty_map /\
    fm_requested (c_fm c0) = match d_in D with Some i => [(f_name (F' i), i)] | None => [] end /\
    (forall j, In j (m_items (fm_local (c_fm c0))) <-> j = d_def D \/ d_out D = Some j) /\
    exists F1, match d_out D with Some o => attach_change o F' F1 | None => F1 = F' end /\
      attach_change (d_def D) F1 (fm_heap (c_fm c0)).
Proof.
  unfold attach_node. intros E. apply bind_ok in E as ([[[W' F'] k'] D] & Nd & E).
  change (fm_heap (c_fm (new_client W))) with no_files in Nd. change (fm_next (c_fm (new_client W))) with 0%nat in Nd.
  change (c_world (new_client W)) with W in Nd. exists W', F', k', D. split; [exact Nd|].
  change (fm_local (c_fm (new_client W))) with empty_map in E. change (fm_remote (c_fm (new_client W))) with empty_map in E.
  change (fm_requested (c_fm (new_client W))) with (@nil (str * nat)) in E.
  change (fm_queue (c_fm (new_client W))) with (@nil qmsg) in E.
  set (s0 := mk_fm F' k' empty_map empty_map [] []) in E.
  set (s1 := st_of (match d_in D with Some i => requestRemoteFile s0 i | None => fine s0 end)).
  assert (S1 : (match d_in D with Some i => requestRemoteFile s0 i | None => fine s0 end) = fine s1).
  { unfold s1. destruct (d_in D); reflexivity. }
  cbv zeta in E. rewrite S1 in E. unfold fine at 1 in E. cbn [then_] in E.
  set (o2 := match d_out D with Some i => attachLocalFile s1 i | None => fine s1 end) in E.
  destruct o2 as [[s2 l2] [e2|]] eqn:O2; unfold o2 in O2; clear o2; [discriminate|]. cbn [then_ app] in E.
  destruct (attachLocalFile s2 (d_def D)) as [[s3 l3] [e3|]] eqn:O3; [discriminate|].
  injection E as <-. cbn [c_world c_node c_listener c_calls c_hung c_sys y_wrk y_sent].
  change (c_fm (mk_client W' (mk_sys s3 WNew []) (Some (nd, with_client D true)) false [] false)) with s3.
  do 7 (split; [reflexivity|]).
  assert (X2 : l2 = [] /\ fm_remote s2 = fm_remote s1 /\ fm_requested s2 = fm_requested s1 /\ fm_queue s2 = fm_queue s1 /\
    match d_out D with Some o => attach_change o (fm_heap s1) (fm_heap s2) | None => fm_heap s2 = fm_heap s1 end /\
    (forall j, In j (m_items (fm_local s2)) <-> d_out D = Some j)).
  { destruct (d_out D) as [o|].
    - apply attach_shape in O2 as (A & B & C & Q & _ & Ch & L). repeat (split; [assumption|]). intros j. rewrite L.
      assert (fm_local s1 = empty_map) as -> by (unfold s1; destruct (d_in D); reflexivity). cbn [empty_map m_items In].
      intuition congruence.
    - unfold fine in O2. injection O2 as <- <-. repeat (split; [reflexivity|]). intros j.
      assert (fm_local s1 = empty_map) as -> by (unfold s1; destruct (d_in D); reflexivity). cbn [empty_map m_items In].
      intuition discriminate. }
  destruct X2 as (-> & R2 & Q2 & K2 & Ch2 & L2).
  pose proof (attach_shape _ _ _ _ O3) as (-> & R3 & Q3 & K3 & _ & Ch3 & L3).
  assert (H1 : fm_heap s1 = F' /\ fm_remote s1 = empty_map /\ fm_queue s1 = [] /\
    fm_requested s1 = match d_in D with Some i => [(f_name (F' i), i)] | None => [] end).
  { unfold s1. destruct (d_in D) as [i|]; cbn; auto. }
  destruct H1 as (H1 & Rm1 & Qu1 & Rq1).
  split; [|split; [congruence|]]; [|split; [congruence|]; split; [congruence|]; split].
  - unfold first_events, fresh, init_fm. fold s0.
    rewrite yrun_app. 
    assert (yrun (mk_sys s0 (WRun None) []) (match d_in D with Some i => [ERequest i] | None => [] end) = (mk_sys s1 (WRun None) [], [])) as ->.
    { unfold s1. destruct (d_in D); reflexivity. }
    rewrite yrun_app.
    assert (yrun (mk_sys s1 (WRun None) []) (match d_out D with Some o => [EAttach o] | None => [] end) = (mk_sys s2 (WRun None) [], [])) as ->.
    { destruct (d_out D) as [o|].
      - cbn [yrun ystep apistep y_fm y_wrk y_sent]. rewrite O2. cbn [st_of fst]. rewrite added_none by auto. reflexivity.
      - unfold fine in O2. injection O2 as <-. reflexivity. }
    cbn [yrun ystep apistep y_fm y_wrk y_sent]. rewrite O3. cbn [st_of fst]. rewrite added_none by auto. reflexivity.
  - intros j. rewrite L3, L2. reflexivity.
  - exists (fm_heap s2). split; [|exact Ch3]. rewrite H1 in Ch2. exact Ch2.
Qed.

Lemma attach_change_keeps i H H' j : attach_change i H H' ->
  f_kind (H' j) = f_kind (H j) /\ f_data (H' j) = f_data (H j) /\ f_handled (H' j) = f_handled (H j) /\
  f_isOpen (H' j) = f_isOpen (H j) /\ f_name (H' j) = f_name (H j) /\ f_length (H' j) = f_length (H j) /\
  (f_address (H j) <> None -> f_address (H' j) <> None).
Proof.
  intros [A (a & B)]. destruct (Nat.eq_dec j i) as [->|J].
  - rewrite B. repeat split. discriminate.
  - rewrite (A j J). repeat split. auto.
Qed.

Lemma same_kinds l W W' nd : same_but_elems l W W' -> kinds_ok W nd -> kinds_ok W' nd.
Proof.
  intros (_ & _ & _ & E & _) [A B]. assert (X : forall o, pt_provide (w_ports W' o) = pt_provide (w_ports W o)).
  { intros o. rewrite <- (E o). reflexivity. }
  split; intros o O; rewrite X; auto.
Qed.

Lemma first_cinv fuel W nd c0 W' F' k' D ins outs :
  attach_node fuel (new_client W) nd = Ok c0 -> node_data fuel W nd no_files 0 = Ok (W', F', k', D) ->
  separate nd -> kinds_ok W nd ->
  Forall2 (port_means W') (n_require nd) ins -> Forall2 (port_means W') (n_provide nd) outs ->
  Forall regular ins -> Forall regular outs -> Forall pleasant ins ->
  kinds_ok W' nd /\
  exists name, n_name nd = Some name /\
  cinv W' nd ins outs (name ++ lit ".in") c0 (with_client D true) (mk_cstate (first_state outs D) None false).
Proof.
  intros At Nd Sep Kinds Mi Mo Ri Ro Pl.
  apply attach_inv in At as (W1 & F1 & k1 & D1 & Nd1 & Wd & Cn & _ & _ & Hg & _ & _ & _ & _ & Rm & Rq & Lc & F2 & Ch1 & Ch2).
  rewrite Nd in Nd1. injection Nd1 as <- <- <- <-.
  pose proof (node_data_files _ _ _ _ _ _ _ _ _ Nd) as (Nin & Nout & _ & _ & _ & _ & _ & _ & _).
  pose proof Nd as Nd'. apply node_data_inv in Nd' as (S & (m1 & p1 & i1 & L1 & E1 & Q1 & Fi) & (m2 & p2 & i2 & L2 & E2 & Q2 & Fo) & Lk & _ & Ap & _ & _ & text & b & _ & _ & _ & _ & name & Nm & _); auto.
  split; [eapply same_kinds; eauto|]. exists name. split; [exact Nm|].
  set (H := fm_heap (c_fm c0)) in *.
  assert (Kp : forall j, f_kind (H j) = f_kind (F' j) /\ f_data (H j) = f_data (F' j) /\ f_handled (H j) = f_handled (F' j) /\
    f_isOpen (H j) = f_isOpen (F' j) /\ f_name (H j) = f_name (F' j) /\ f_length (H j) = f_length (F' j)).
  { intros j. pose proof (attach_change_keeps _ _ _ j Ch2) as (A1 & A2 & A3 & A4 & A5 & A6 & _).
    rewrite A1, A2, A3, A4, A5, A6. destruct (d_out D) as [o|]; [|rewrite Ch1; auto 6].
    pose proof (attach_change_keeps _ _ _ j Ch1) as (B1 & B2 & B3 & B4 & B5 & B6 & _). auto 6. }
  assert (Sm : sim W' ins outs (liveness H D) true H (with_client D true) (first_state outs D)).
  { eapply first_sim; eauto. split.
    - destruct (d_in D) as [i|]; [|exact I]. destruct (Kp i) as (A & B & C & _). auto.
    - unfold liveness. destruct (d_out D) as [o|]; [|exact I]. destruct (Kp o) as (A & B & C & _). auto. }
  pose proof (laid_tlaid _ _ _ _ _ _ _ _ _ _ L1 Mi Ri) as [T1 _].
  pose proof (laid_tlaid _ _ _ _ _ _ _ _ _ _ L2 Mo Ro) as [T2 _].
  constructor; cbn [k_hung k_node k_box with_client d_inside d_outside d_in d_out]; auto.
  - rewrite E1. cbn [s_map]. eapply tlaid_ports; eauto.
  - rewrite E2. cbn [s_map]. eapply tlaid_ports; eauto.
  - intros o Do. apply (attach_change_keeps _ _ _ o Ch2). rewrite Do in Ch1. destruct Ch1 as [_ (a & ->)]. discriminate.
  - intros j J X. apply Lc in J as [->|J]; [apply Nin; exact X|]. destruct Ap as [A|[A|A]]; congruence.
  - unfold boxed. destruct (d_in D) as [i|] eqn:Di; [|auto].
    destruct Fi as (_ & (_ & _ & Ln & _ & Op & _) & _ & nm & Nm' & Nm2). destruct (Kp i) as (_ & _ & _ & K4 & K5 & K6).
    rewrite Rq. fold H. rewrite K5, K6, Ln, Nm2. rewrite Nm in Nm'. injection Nm' as <-.
    split; [reflexivity|]. split; [|split; [reflexivity|split; [exact Rm|congruence]]].
    pose proof (sim_in _ _ _ _ _ _ _ _ Sm) as X. cbn [with_client d_in] in X. rewrite Di in X. destruct X as (_ & _ & _ & X).
    pose proof (sim_inlen _ _ _ _ _ _ _ _ Sm) as Y. rewrite <- Y. cbn [first_state a_in]. rewrite E1. cbn [s_init]. lia.
Qed.

(** ** The file manager of a client does what the client tells it *)

Definition out_of (c : client) : option nat := match c_node c with Some (_, D) => d_out D | None => None end.

Definition mrel (y z : sys) : Prop :=
  y_fm y = y_fm z /\ y_sent y = y_sent z /\ y_wrk z = match y_wrk y with WNew => WRun None | w => w end.

Definition part_event (out : option nat) (e : cev) (x : ev) : Prop :=
  match x with
  | EWrite j _ _ => out = Some j
  | EConnect h => e = CConnect h
  | EMsg m => e = CMsg m
  | EWork => e = CWork
  | _ => False
  end.

Definition projects (c c' : client) (e : cev) : Prop :=
  out_of c' = out_of c /\
  forall z, mrel (c_sys c) z -> exists pe z' q, yrun z pe = (z', q) /\ mrel (c_sys c') z' /\
    Forall (part_event (out_of c) e) pe /\ match e with CConnect h => pe = [EConnect h] | _ => True end.

Lemma projects_none c c' e : out_of c' = out_of c -> c_sys c' = c_sys c ->
  match e with CConnect _ => False | _ => True end -> projects c c' e.
Proof.
  intros O S Ne. split; [exact O|]. intros z M. exists [], z, []. rewrite S. split; [reflexivity|]. split; [exact M|].
  split; [constructor|]. destruct e; auto. contradiction.
Qed.

Lemma write_as_event W F D i v F' D' ev r : write_provide_port W F D i v = (F', D', ev, r) ->
  (F' = F /\ ev = [] /\ (forall u, r <> Done u)) \/
  exists o off d f n evs, d_out D = Some o /\ write2 (F o) off d = Ok (f, n, evs) /\ F' = upd F o f /\
    ev = map (fun e => (o, e)) evs /\ r = Done tt.
Proof.
  unfold write_provide_port. intros E.
  destruct (port_entry _ _ _) as [m|]; [|injection E as <- <- <- <-; left; repeat split; discriminate].
  destruct (index _ _) as [prog|]; [|injection E as <- <- <- <-; left; repeat split; discriminate].
  destruct (mk_zeros _) as [data|]; [|injection E as <- <- <- <-; left; repeat split; discriminate].
  destruct (d_locked D); [injection E as <- <- <- <-; left; repeat split; discriminate|].
  destruct (exec_pack_prog _ _ _ _) as [data'|]; [|injection E as <- <- <- <-; left; repeat split; discriminate].
  cbn [with_values d_out] in E.
  destruct (d_out D) as [k|] eqn:Do; [|injection E as <- <- <- <-; left; repeat split; discriminate].
  destruct (write2 (F k) (pm_offset m) data') as [[[f x] e]|] eqn:Wr; [|injection E as <- <- <- <-; left; repeat split; discriminate].
  injection E as <- <- <- <-. right. exists k, (pm_offset m), data', f, x, e. auto.
Qed.

Lemma one_event c s' e x : match e with CConnect h => x = EConnect h | _ => True end -> x <> EWork -> part_event (out_of c) e x ->
  s' = st_of (apistep (c_fm c) x) ->
  forall c', out_of c' = out_of c -> c_sys c' = mk_sys s' (y_wrk (c_sys c)) (y_sent (c_sys c)) ->
  projects c c' e.
Proof.
  intros Nc Nw P S c' O Sy. split; [exact O|]. intros z (A & B & C).
  exists [x], (mk_sys s' (y_wrk z) (y_sent z)), (added (y_fm z) s' ++ []). split; [|split; [|split]].
  - cbn [yrun]. assert (ystep z x = (mk_sys s' (y_wrk z) (y_sent z), added (y_fm z) s')) as ->; [|reflexivity].
    unfold c_fm in S. rewrite A in S. destruct x; try contradiction; cbn [ystep]; rewrite <- S; reflexivity.
  - rewrite Sy. repeat split; auto.
  - constructor; [exact P|constructor].
  - destruct e; auto. rewrite Nc. reflexivity.
Qed.

Lemma project_step W nd ins outs inname c D k e : cinv W nd ins outs inname c D k ->
  projects c (fst (client_step c e)) e.
Proof.
  intros Iv. pose proof Iv as [Wd Nd Hg Sm Im Om Ad Lo Bx].
  destruct e as [id v|id|b| |h|m|]; cbn [client_step].
  - unfold client_write. rewrite Nd. destruct (write_target _ _ _) as [j|]; [|apply projects_none; auto].
    destruct (write_provide_port (c_world c) (fm_heap (c_fm c)) D j v) as [[[H D'] evs] r] eqn:Wp.
    pose proof (write_frame _ _ _ _ _ _ _ _ _ Wp) as ((_ & Fo & _) & _).
    assert (Oo : forall s, out_of (with_fm (with_ndata c nd D') s) = out_of c).
    { intros s. unfold out_of. cbn. rewrite Nd. exact Fo. }
    apply write_as_event in Wp as [(-> & -> & Nd')|(o & off & d & f & n & ev & Do & W2 & -> & -> & ->)].
    + assert (Hs : c_sys (with_fm (with_ndata c nd D') (with_heap (c_fm c) (fm_heap (c_fm c)))) = c_sys c).
      { unfold with_fm, with_heap, c_fm, with_ndata. cbn. destruct (c_sys c) as [[? ? ? ? ? ?] ? ?]. reflexivity. }
      destruct r as [u|e|]; [exfalso; eapply Nd'; reflexivity| |]; cbn [fst]; apply projects_none; auto.
    + assert (Ko : f_kind (fm_heap (c_fm c) o) = KOutput).
      { pose proof (sim_out _ _ _ _ _ _ _ _ Sm) as X. rewrite Do in X. apply X. }
      assert (Ev : ev = [] \/ exists a b, ev = [OutNotify a b]).
      { unfold write2 in W2. rewrite Ko in W2. injection W2 as W2. unfold output_write in W2.
        destruct (file_write _ _ _). destruct (_ && _) in W2; injection W2 as _ _ <-; eauto. }
      assert (Pe : part_event (out_of c) (CWrite id v) (EWrite o off d)).
      { cbn. unfold out_of. rewrite Nd. exact Do. }
      destruct Ev as [->|(a & b & ->)]; cbn [map].
      * cbn [fst]. eapply one_event with (x := EWrite o off d); [exact I|discriminate|exact Pe|reflexivity|apply Oo|].
        cbn [apistep]. unfold writeLocal. rewrite W2. reflexivity.
      * destruct (outPortDataWriteNotify _ _ _ _) as [[s' l'] e'] eqn:On. cbn [fst].
        eapply one_event with (x := EWrite o off d); [exact I|discriminate|exact Pe|reflexivity|apply Oo|].
        cbn [apistep]. unfold writeLocal. rewrite W2, On. reflexivity.
  - unfold client_read. rewrite Nd. destruct (read_target _ _ _) as [[[|] j]|]; try (apply projects_none; auto; fail).
    destruct (read_require_port _ _ _ _) as [D' r] eqn:R. apply read_frame in R as (_ & Fo & _).
    cbn [fst]. apply projects_none; auto. unfold out_of. cbn. rewrite Nd. exact Fo.
  - apply projects_none; auto.
  - unfold start. destruct (y_wrk (c_sys c)) as [| | |] eqn:Yw.
    { cbn [fst]. split; [reflexivity|]. intros z (A & B & C). exists [], z, []. split; [reflexivity|].
      split; [|split; [constructor|exact I]]. split; [exact A|]. split; [exact B|]. cbn. rewrite Yw in C. exact C. }
    all: cbn [fst]; apply projects_none; auto.
  - destruct (onConnected (c_fm c) h) as [[s l] e] eqn:Oc. cbn [fst].
    eapply one_event with (x := EConnect h); [reflexivity|discriminate|reflexivity|reflexivity|reflexivity|].
    cbn [apistep]. rewrite Oc. reflexivity.
  - unfold client_msg. destruct (c_hung c); [apply projects_none; auto|].
    destruct (onMsgReceived (c_fm c) m) as [[s l] e] eqn:Om'.
    assert (One : forall c', out_of c' = out_of c -> c_sys c' = mk_sys s (y_wrk (c_sys c)) (y_sent (c_sys c)) -> projects c c' (CMsg m)).
    { intros c' O S. eapply one_event with (x := EMsg m); [exact I|discriminate|reflexivity|reflexivity|exact O|].
      cbn [apistep]. rewrite Om'. exact S. }
    destruct e as [e|]; [apply One; reflexivity|].
    change (c_node (with_fm c s)) with (c_node c). rewrite Nd.
    destruct l as [|[k0 [off n|off n]] [|? ?]]; try (apply One; reflexivity).
    destruct (in_port_notify _ _ _ _ _) as [[D' calls] r] eqn:Np. apply in_port_frame in Np as [(_ & Fo & _) _].
    apply One; [|reflexivity]. unfold out_of. cbn. rewrite Nd. exact Fo.
  - cbn [fst]. split; [reflexivity|]. intros z (A & B & C). cbn [c_sys].
    destruct (y_wrk (c_sys c)) eqn:Yw.
    + exists [], z, []. split; [reflexivity|]. split; [|split; [constructor|exact I]].
      unfold work. rewrite Yw. repeat split; auto. rewrite Yw. exact C.
    + exists [EWork], (work z), []. split; [reflexivity|].
      assert (c_sys c = z) as -> by (destruct (c_sys c), z; cbn in *; congruence).
      split; [|split; [repeat constructor|exact I]]. split; [reflexivity|]. split; [reflexivity|].
      unfold work. rewrite C. destruct (fm_queue (y_fm z)); [rewrite C; reflexivity|].
      destruct (work1 _ _) as [w o] eqn:W1. cbn [y_wrk]. destruct w; auto.
      exfalso. unfold work1 in W1. destruct q; try (destruct (wire_of _) as [[?|]|]); try destruct transmit; discriminate.
    + exists [EWork], (work z), []. split; [reflexivity|].
      assert (c_sys c = z) as -> by (destruct (c_sys c), z; cbn in *; congruence).
      split; [|split; [repeat constructor|exact I]]. repeat split. unfold work. rewrite C, C. reflexivity.
    + exists [EWork], (work z), []. split; [reflexivity|].
      assert (c_sys c = z) as -> by (destruct (c_sys c), z; cbn in *; congruence).
      split; [|split; [repeat constructor|exact I]]. repeat split. unfold work. rewrite C, C. reflexivity.
Qed.

Lemma project_run W nd ins outs inname (Kinds : kinds_ok W nd) evs : forall c D k c' l, cinv W nd ins outs inname c D k ->
  Forall cok evs -> client_run c evs = (c', l) ->
  out_of c' = out_of c /\
  forall z, mrel (c_sys c) z -> exists pe z' q, yrun z pe = (z', q) /\ mrel (c_sys c') z' /\
    Forall (fun x => exists e, In e evs /\ part_event (out_of c) e x) pe.
Proof.
  induction evs as [|e evs IH]; intros c D k c' l Iv Ok E; cbn [client_run] in E.
  - injection E as <- <-. split; [reflexivity|]. intros z M. exists [], z, []. auto.
  - inversion Ok as [|? ? O1 O2]; subst. pose proof (step_any W nd ins outs inname Kinds c D k e Iv O1) as (D1 & k1 & o1 & c1 & Mv & Iv1 & _).
    pose proof (project_step _ _ _ _ _ _ _ _ e Iv) as [Oo Pr].
    destruct (client_step c e) as [c2 a]. cbn [fst snd] in *. destruct (client_run c2 evs) as [c3 l3] eqn:R. injection E as <- <-.
    destruct (IH _ _ _ _ _ Iv1 O2 R) as (O3 & P3). split; [congruence|]. intros z M.
    destruct (Pr z M) as (p1 & z1 & q1 & Y1 & M1 & F1 & _). destruct (P3 z1 M1) as (p2 & z2 & q2 & Y2 & M2 & F2).
    exists (p1 ++ p2), z2, (q1 ++ q2). rewrite yrun_app, Y1, Y2. split; [reflexivity|]. split; [exact M2|].
    apply Forall_app. split.
    + eapply Forall_impl; [|exact F1]. intros x X. exists e. split; [left; reflexivity|exact X].
    + eapply Forall_impl; [|exact F2]. intros x (e' & I' & X). exists e'. split; [right; exact I'|]. rewrite Oo in X. exact X.
Qed.
