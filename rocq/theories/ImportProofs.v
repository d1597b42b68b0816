(** Importing software components: proofs. *)
From Coq Require Import ZifyBool ZifyNat Lia.
From Verif Require Import Py PyLemmas TypesModel TextModel SigModel AttrModel NodeModel AutosarModel.
From Verif Require Import TypesSpec SigSpec AttrSpec AutosarSpec TextProofs SigProofs AttrProofs AutosarProofs AutosarProps NodeProofs ImportSpec.
Ltac Zify.zify_post_hook ::= Z.div_mod_to_equations.

Lemma entrywise_nil {A B} (R : nat -> A -> B -> Prop) : entrywise R [] [].
Proof. split; [reflexivity|]. intros [|i] x y; discriminate. Qed.
Lemma entrywise_snoc {A B} (R : nat -> A -> B -> Prop) l l' x y : entrywise R l l' -> R (length l) x y -> entrywise R (l ++ [x]) (l' ++ [y]).
Proof.
  intros [L F] Rx. split; [rewrite !app_length; cbn [length]; lia|]. intros i a b Na Nb.
  destruct (Nat.lt_ge_cases i (length l)) as [I|I].
  - rewrite nth_error_app1 in Na, Nb by lia. eapply F; eauto.
  - rewrite nth_error_app2 in Na, Nb by lia. replace (i - length l')%nat with (i - length l)%nat in Nb by lia.
    destruct (i - length l)%nat as [|k] eqn:E; [|destruct k; discriminate]. cbn [nth_error] in Na, Nb.
    injection Na as <-. injection Nb as <-. replace i with (length l) by lia. exact Rx.
Qed.
Lemma entrywise_impl {A B} (R R' : nat -> A -> B -> Prop) l l' :
  (forall i x y, In x l -> In y l' -> R i x y -> R' i x y) -> entrywise R l l' -> entrywise R' l l'.
Proof. intros I [L F]. split; [exact L|]. intros i x y Nx Ny. eapply I; eauto using nth_error_In. Qed.

Lemma first_use_app l p x : first_use l p -> first_use (l ++ [x]) p.
Proof. intros (b & a & -> & F). exists b, (a ++ [x]). rewrite <- app_assoc. auto. Qed.

(** What the loop over the ports maintains. *)
Record iinv (W0 W : world) (nd : node) (done added : list aport) : Prop := {
  ii_types : exists firsts, entrywise (fun i p t => type_imported i p (w_types W t)) firsts (n_types nd) /\ Forall (first_use done) firsts;
  ii_map : n_map nd = map (fun t => (dt_name (w_types W t), t)) (n_types nd);
  ii_covers : forall p, In p done -> In (Some (ap_tname p)) (map (fun t => dt_name (w_types W t)) (n_types nd));
  ii_unique : NoDup (map (fun t => dt_name (w_types W t)) (n_types nd));
  ii_news : Forall (fun t => (w_ntypes W0 <= t < w_ntypes W)%nat) (n_types nd);
  ii_newp : Forall (fun o => (w_nports W0 <= o < w_nports W)%nat) (n_provide nd ++ n_require nd);
  ii_ports : forall b, entrywise (fun i p o => port_imported W (n_types nd) i p (w_ports W o))
               (filter (fun p => Bool.eqb (ap_provide p) b) added) (if b then n_provide nd else n_require nd);
  ii_oldt : forall o, (o < w_ntypes W0)%nat -> w_types W o = w_types W0 o;
  ii_oldp : forall o, (o < w_nports W0)%nat -> w_ports W o = w_ports W0 o;
  ii_grow : (w_ntypes W0 <= w_ntypes W)%nat /\ (w_nports W0 <= w_nports W)%nat
}.

Lemma map_find_map W (l : list nat) nm t : map_find nm (map (fun t => (dt_name (w_types W t), t)) l) = Some t ->
  In t l /\ dt_name (w_types W t) = nm.
Proof.
  unfold map_find. induction l as [|x l IH]; cbn [map find fst]; [discriminate|].
  destruct (opt_eqb (dt_name (w_types W x)) nm) eqn:E.
  - cbn [option_map snd]. intros H. injection H as <-. split; [left; reflexivity|]. apply opt_eqb_eq. exact E.
  - intros H. destruct (IH H). split; [right; assumption|assumption].
Qed.
Lemma map_find_map_none W (l : list nat) nm : map_find nm (map (fun t => (dt_name (w_types W t), t)) l) = None ->
  ~ In nm (map (fun t => dt_name (w_types W t)) l).
Proof.
  unfold map_find. induction l as [|x l IH]; cbn [map find fst]; [intros _ []|].
  destruct (opt_eqb (dt_name (w_types W x)) nm) eqn:E; [discriminate|]. intros H [K|K]; [|exact (IH H K)].
  apply opt_eqb_eq in K. congruence.
Qed.

Lemma ref_signature i : parse_signature (lit "T[" ++ dec_str i ++ lit "]") = Ok (DRef None (RInt i)).
Proof.
  unfold parse_signature. replace (2 * _ + 2)%nat with (S (2 * length (lit "T[" ++ dec_str i ++ lit "]") + 1)) by lia.
  change (lit "T[" ++ dec_str i ++ lit "]") with (84 :: lit "[" ++ dec_str i ++ lit "]"). rewrite parse_sig_ref.
  pose proof (ref_int_read i []) as R. rewrite app_nil_r in R. rewrite R. reflexivity.
Qed.

Lemma describes_plain t e : describes t e -> is_reference e = false.
Proof. intros D. destruct D as [|lo hi e (c & l & h & k & -> & _)| |]; reflexivity. Qed.

Lemma type_index W nd firsts i t : entrywise (fun i p t => type_imported i p (w_types W t)) firsts (n_types nd) ->
  nth_error (n_types nd) i = Some t -> dt_id (w_types W t) = Some (Z.of_nat i) /\ is_reference (dt_elem (w_types W t)) = false.
Proof.
  intros [L F] N. destruct (nth_error firsts i) as [p|] eqn:P.
  - destruct (F i p t P N) as (_ & I & D & _). split; [exact I|]. eapply describes_plain; eauto.
  - apply nth_error_None in P. assert (i < length (n_types nd))%nat by (apply nth_error_Some; congruence). lia.
Qed.

Lemma attr_imported p : importable_port p -> exists t a,
  match ap_init p with None => Ok None | Some c => do t <- derive_init c; Ok (Some ([61] ++ t)) end = Ok t /\
  match t with None => Ok None | Some t => do a <- parse_port_attr t; Ok (Some a) end = Ok a /\
  match ap_init p, a with
  | None, None => True
  | Some c, Some a => pa_init a = const_value c /\ pa_qlen a = None /\ pa_queued a = false /\ pa_param a = false
  | _, _ => False
  end.
Proof.
  intros [_ I]. destruct (ap_init p) as [c|]; [|exists None, None; auto].
  destruct (imported_constant_read c I) as (t & D & P). exists (Some ([61] ++ t)). eexists. rewrite D. split; [reflexivity|].
  cbn [app]. rewrite P. split; [reflexivity|]. cbn. auto.
Qed.


Lemma resolve_ref H n t : is_reference (dt_elem (H t)) = false -> resolve_data_element H (DRef n (RObj t)) = Ok (dt_elem (H t)).
Proof. intros R. unfold resolve_data_element, MAX_RECURSE_DEPTH. cbn [resolve_loop]. destruct (dt_elem (H t)); [reflexivity|reflexivity|discriminate]. Qed.

Lemma port_imported_grow W W' ts ts' i p q : (forall t, In t ts -> In t ts' /\ dt_name (w_types W' t) = dt_name (w_types W t)) ->
  port_imported W ts i p q -> port_imported W' ts' i p q.
Proof.
  intros G (A & B & C & (t & T1 & T2 & T3) & D). destruct (G t T2) as [G1 G2].
  split; [exact A|]. split; [exact B|]. split; [exact C|]. split; [|exact D]. exists t. rewrite G2. auto.
Qed.

(** The type of a port is found or added. *)
Lemma import_type W0 W nd done p : iinv W0 W nd done done -> importable_port p ->
  exists W1 nd1 t,
    match map_find (Some (ap_tname p)) (n_map nd) with
    | Some o => Ok (W, nd, o)
    | None =>
      do d <- autosar_type (ap_tname p) (ap_type p) (ap_semantics p) (len (n_types nd));
      let '(W, o) := new_type W d in
      Ok (W, mk_node (n_name nd) (n_final nd) (n_types nd ++ [o]) (n_require nd) (n_provide nd)
               (n_map nd ++ [(Some (ap_tname p), o)]), o)
    end = Ok (W1, nd1, t) /\
    iinv W0 W1 nd1 (done ++ [p]) done /\ n_name nd1 = n_name nd /\ n_final nd1 = n_final nd /\
    In t (n_types nd1) /\ dt_name (w_types W1 t) = Some (ap_tname p).
Proof.
  intros I G. destruct I as [[fs [Ty Fs]] Mp Cv Un Nt Np Po Ot Op [Gt Gp]].
  destruct (map_find (Some (ap_tname p)) (n_map nd)) as [t|] eqn:M.
  - rewrite Mp in M. apply map_find_map in M as [It Nt']. exists W, nd, t. split; [reflexivity|]. split; [|auto].
    constructor; auto.
    + exists fs. split; [exact Ty|]. eapply Forall_impl; [|exact Fs]. intros q. apply first_use_app.
    + intros q [Q|[<-|[]]]%in_app_or; [apply Cv; exact Q|]. rewrite <- Nt'. apply (in_map (fun t => dt_name (w_types W t))). exact It.
  - destruct (imported_type_read _ (proj1 G)) as (sig & e & C & P & D).
    unfold autosar_type. rewrite C. cbn [bind]. rewrite P. cbn [bind new_type].
    pose proof M as Fresh. rewrite Mp in Fresh. apply map_find_map_none in Fresh.
    set (d := mk_dtype (Some (ap_tname p)) e _ _ None). set (W1 := mk_world _ _ _ _).
    exists W1. eexists _, (w_ntypes W). split; [reflexivity|].
    assert (Same : forall t, In t (n_types nd) -> w_types W1 t = w_types W t).
    { intros t It. rewrite Forall_forall in Nt. specialize (Nt t It). cbn [W1 w_types]. apply upd_other. lia. }
    assert (New : w_types W1 (w_ntypes W) = d) by (cbn [W1 w_types]; apply upd_same).
    assert (Names : map (fun t => dt_name (w_types W1 t)) (n_types nd ++ [w_ntypes W]) =
                    map (fun t => dt_name (w_types W t)) (n_types nd) ++ [Some (ap_tname p)]).
    { rewrite map_app. f_equal; [apply map_ext_in; intros t It; rewrite Same by exact It; reflexivity|].
      cbn [map]. rewrite New. reflexivity. }
    split; [|cbn [n_name n_final n_types]; split; [reflexivity|]; split; [reflexivity|]; split;
             [apply in_or_app; right; left; reflexivity|rewrite New; reflexivity]].
    constructor; cbn [n_types n_map n_provide n_require]; try assumption.
    + exists (fs ++ [p]). split.
      * apply entrywise_snoc.
        { eapply entrywise_impl; [|exact Ty]. intros i q t _ It. rewrite Same by exact It. auto. }
        rewrite New. repeat split; try reflexivity; [|exact D]. cbn [d dt_id]. destruct Ty as [Ln _]. unfold len. congruence.
      * apply Forall_app. split; [eapply Forall_impl; [|exact Fs]; intros q; apply first_use_app|].
        repeat constructor. exists done, []. split; [reflexivity|]. intros q Q E. apply Fresh. rewrite <- E. apply Cv, Q.
    + rewrite map_app, Mp. cbn [map]. rewrite New. f_equal. apply map_ext_in. intros t It. rewrite Same by exact It. reflexivity.
    + intros q Q. rewrite Names. apply in_or_app. apply in_app_or in Q as [Q|[<-|[]]]; [left; apply Cv, Q|right; left; reflexivity].
    + rewrite Names. rewrite <- (app_nil_r (_ ++ [_])), <- app_assoc. cbn [app]. apply NoDup_Add with (a := Some (ap_tname p)) (l := map (fun t => dt_name (w_types W t)) (n_types nd)).
      * rewrite <- (app_nil_r (map _ (n_types nd))) at 1. apply Add_app.
      * split; assumption.
    + apply Forall_app. split; [eapply Forall_impl; [|exact Nt]; cbn [W1 w_ntypes]; lia|]. repeat constructor; cbn [W1 w_ntypes]; lia.
    + intros b. specialize (Po b). destruct b; (eapply entrywise_impl; [|exact Po]; intros i q o _ _; apply port_imported_grow;
        intros t It; split; [apply in_or_app; left; exact It|rewrite Same by exact It; reflexivity]).
    + intros o Lo. cbn [W1 w_types]. rewrite upd_other by lia. apply Ot, Lo.
    + cbn [W1 w_ntypes w_nports]. lia.
Qed.

Lemma import_port W0 W nd done p : iinv W0 W nd done done -> importable_port p ->
  exists W' nd', add_autosar_port W nd p = Ok (W', nd') /\ iinv W0 W' nd' (done ++ [p]) (done ++ [p]) /\
    n_name nd' = n_name nd /\ n_final nd' = n_final nd.
Proof.
  intros I G. destruct (import_type W0 W nd done p I G) as (W1 & nd1 & t & E & I1 & Nn & Nf & It & Tn).
  unfold add_autosar_port. rewrite E. cbn [bind].
  destruct (attr_imported p G) as (at1 & at2 & A1 & A2 & A3). rewrite A1. cbn [bind].
  destruct I1 as [[fs [Ty Fs]] Mp Cv Un Nt Np Po Ot Op [Gt Gp]].
  pose proof It as (i & Ni)%In_nth_error. destruct (type_index _ _ _ _ _ Ty Ni) as [Id Nr]. rewrite Id. cbn [bind].
  unfold make_port. rewrite ref_signature. cbn [bind]. unfold str in *. rewrite A2. cbn [bind new_port].
  unfold add_port. cbn [w_ports]. rewrite upd_same. cbn [pt_provide].
  unfold resolve_port. cbn [with_pid pt_elem is_reference]. unfold resolve_sig. cbn [resolve_type].
  assert (Li : (i < length (n_types nd1))%nat) by (apply nth_error_Some; congruence).
  destruct (index_nth (n_types nd1) (Z.of_nat i)) as (t' & N' & X); [unfold len; lia|].
  rewrite Nat2Z.id, Ni in N'. injection N' as <-. rewrite X. cbn [bind].
  cbn [w_types]. rewrite resolve_ref by exact Nr. cbn [bind].
  eexists _, _. split; [reflexivity|]. set (W2 := NodeModel.set_port _ _ _).
  match goal with W2 := NodeModel.set_port _ _ ?x |- _ => set (q := x) in W2 end.
  assert (Q : w_ports W2 (w_nports W1) = q) by (cbn [W2 NodeModel.set_port w_ports]; apply upd_same).
  assert (Same : forall o, (o < w_nports W1)%nat -> w_ports W2 o = w_ports W1 o).
  { intros o Lo. cbn [W2 NodeModel.set_port w_ports]. rewrite !upd_other by lia. reflexivity. }
  assert (Qi : forall n, pt_id q = Some (Z.of_nat n) -> port_imported W2 (n_types nd1) n p q).
  { intros n Qn. split; [reflexivity|]. split; [reflexivity|]. split; [exact Qn|]. split; [|exact A3].
    exists t. split; [reflexivity|]. split; [exact It|exact Tn]. }
  rewrite Forall_forall in Np.
  split; [|destruct (ap_provide p); cbn [n_name n_final]; auto].
  assert (Npw : Forall (fun o => (w_nports W0 <= o < w_nports W2)%nat) (n_provide nd1 ++ n_require nd1)).
  { apply Forall_forall. intros o Io. specialize (Np o Io). cbn [W2 NodeModel.set_port w_nports]. lia. }
  apply Forall_app in Npw as [Npp Npr].
  assert (Po' : forall b, entrywise (fun i p o => port_imported W2 (n_types nd1) i p (w_ports W2 o))
      (filter (fun p => Bool.eqb (ap_provide p) b) done) (if b then n_provide nd1 else n_require nd1)).
  { intros b. eapply entrywise_impl; [|exact (Po b)]. intros j x o _ Io. rewrite Same.
    - apply port_imported_grow. auto.
    - assert (In o (n_provide nd1 ++ n_require nd1)) as Io' by (apply in_or_app; destruct b; auto). specialize (Np o Io'). lia. }
  assert (Len : forall b, length (filter (fun p => Bool.eqb (ap_provide p) b) done) = length (if b then n_provide nd1 else n_require nd1))
    by (intros b; apply (Po b)).
  destruct (ap_provide p) eqn:B; constructor; cbn [n_types n_map n_provide n_require]; try assumption; try (exists fs; auto); try (cbn [W2 NodeModel.set_port w_ntypes w_nports]; lia).
  - apply Forall_app. split; [apply Forall_app; split; [exact Npp|]|exact Npr]. repeat constructor; cbn [W2 NodeModel.set_port w_nports]; lia.
  - intros b. rewrite filter_app. cbn [filter]. rewrite B. destruct b; cbn [Bool.eqb]; [|rewrite app_nil_r; apply (Po' false)].
    apply entrywise_snoc; [apply (Po' true)|]. rewrite Q. apply Qi. cbn [q with_pelem with_pid pt_id]. rewrite (Len true). reflexivity.
  - intros o Lo. rewrite Same by lia. apply Op, Lo.
  - apply Forall_app. split; [exact Npp|apply Forall_app; split; [exact Npr|]]. repeat constructor; cbn [W2 NodeModel.set_port w_nports]; lia.
  - intros b. rewrite filter_app. cbn [filter]. rewrite B. destruct b; cbn [Bool.eqb]; [rewrite app_nil_r; apply (Po' true)|].
    apply entrywise_snoc; [apply (Po' false)|]. rewrite Q. apply Qi. cbn [q with_pelem with_pid pt_id]. rewrite (Len false). reflexivity.
  - intros o Lo. rewrite Same by lia. apply Op, Lo.
Qed.

Lemma import_ports W0 : forall l W nd done, iinv W0 W nd done done -> Forall importable_port l ->
  exists W' nd', add_autosar_ports W nd l = Ok (W', nd') /\ iinv W0 W' nd' (done ++ l) (done ++ l) /\
    n_name nd' = n_name nd /\ n_final nd' = n_final nd.
Proof.
  induction l as [|p l IH]; intros W nd done I F.
  - exists W, nd. rewrite app_nil_r. split; [reflexivity|auto].
  - destruct (import_port W0 W nd done p I (Forall_inv F)) as (W1 & nd1 & E & I1 & N1 & F1).
    destruct (IH W1 nd1 (done ++ [p]) I1 (Forall_inv_tail F)) as (W2 & nd2 & E2 & I2 & N2 & F2).
    exists W2, nd2. cbn [add_autosar_ports]. rewrite E. cbn [bind]. rewrite E2. split; [reflexivity|].
    rewrite <- app_assoc in I2. split; [exact I2|]. split; congruence.
Qed.

(** Ports that are resolved already stay as they are. *)
Lemma resolve_again types : forall l W, (forall o, In o l -> exists t, pt_elem (w_ports W o) = DRef None (RObj t) /\ is_reference (dt_elem (w_types W t)) = false) ->
  exists W', resolve_ports W types l = Ok W' /\ w_types W' = w_types W /\ w_ntypes W' = w_ntypes W /\ w_nports W' = w_nports W /\
    forall o, w_ports W' o = w_ports W o.
Proof.
  induction l as [|o l IH]; intros W H; [exists W; repeat split|].
  destruct (H o (or_introl eq_refl)) as (t & T & Nr).
  assert (R : resolve_port W types (w_ports W o) = Ok (w_ports W o)).
  { unfold resolve_port. rewrite T. cbn [is_reference]. unfold resolve_sig. cbn [resolve_type bind].
    rewrite resolve_ref by exact Nr. cbn [bind]. destruct (w_ports W o) as [a1 a2 a3 a4 a5]; cbn [with_pelem pt_elem] in *; subst; reflexivity. }
  cbn [resolve_ports]. rewrite R. cbn [bind].
  assert (S1 : forall o', w_ports (NodeModel.set_port W o (w_ports W o)) o' = w_ports W o').
  { intros o'. cbn [NodeModel.set_port w_ports]. unfold upd_nat. destruct (Nat.eqb_spec o' o) as [->|]; reflexivity. }
  destruct (IH (NodeModel.set_port W o (w_ports W o))) as (W' & E & Tt & Tn & Pn & Pp).
  { intros o' I'. rewrite S1. cbn [NodeModel.set_port w_types]. apply H. right. exact I'. }
  exists W'. split; [exact E|]. split; [exact Tt|]. split; [exact Tn|]. split; [exact Pn|]. intros o'. rewrite Pp. apply S1.
Qed.

Lemma filter_all {A} (f : A -> bool) l : Forall (fun x => f x = true) l -> filter f l = l.
Proof. induction 1 as [|x l E F IH]; cbn [filter]; [reflexivity|]. rewrite E, IH. reflexivity. Qed.
Lemma filter_none {A} (f : A -> bool) l : Forall (fun x => f x = false) l -> filter f l = [].
Proof. induction 1 as [|x l E F IH]; cbn [filter]; [reflexivity|]. rewrite E, IH. reflexivity. Qed.
