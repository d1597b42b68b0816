(** Lemmas about mirroring. *)
From Coq Require Import ZifyBool ZifyNat Lia.
From Coq Require FinFun Permutation.
From Verif Require Import Py PyLemmas TypesModel TextModel SigModel AttrModel NodeModel ParserModel.
From Verif Require Import SigSpec NodeSpec TextProofs SigProofs NodeProofs ElemTextProofs.
Ltac Zify.zify_post_hook ::= Z.div_mod_to_equations.

(** ** Copies of types *)

Lemma nth_shift n (types : list nat) i o : nth_error types i = Some o -> nth_error (map (fun o => o + n)%nat types) i = Some (o + n)%nat.
Proof. intros E. apply map_nth_error with (f := fun o => (o + n)%nat) in E. exact E. Qed.
Lemma stands_shift n types : forall e a, stands types e a -> stands (map (fun o => o + n)%nat types) (shift_elem n e) a.
Proof.
  apply (stands_mind types (fun e a _ => stands (map (fun o => o + n)%nat types) (shift_elem n e) a)
    (fun es l _ => stands_all (map (fun o => o + n)%nat types) (map (shift_elem n) es) l)); intros; cbn [shift_elem map].
  - constructor.
  - constructor. apply nth_shift. assumption.
  - constructor. assumption.
  - constructor.
  - constructor; assumption.
Qed.

Lemma copied W nd o : In o (n_types nd) -> (o < w_ntypes W)%nat ->
  w_types (copy_types W) (o + w_ntypes W)%nat = with_elem (w_types W o) (shift_elem (w_ntypes W) (dt_elem (w_types W o))).
Proof.
  intros I B. cbn [copy_types w_types]. destruct (Nat.ltb (o + w_ntypes W) (w_ntypes W)) eqn:X; [apply Nat.ltb_lt in X; lia|].
  replace (o + w_ntypes W - w_ntypes W)%nat with o by lia. reflexivity.
Qed.
Lemma not_copied W o : (o < w_ntypes W)%nat -> w_types (copy_types W) o = w_types W o.
Proof. intros B. cbn [copy_types w_types]. apply Nat.ltb_lt in B. rewrite B. reflexivity. Qed.

(** ** New ports *)

Lemma new_ports_spec l : forall W W' os, new_ports W l = (W', os) ->
  os = seq (w_nports W) (length l) /\ w_types W' = w_types W /\ w_ntypes W' = w_ntypes W /\ w_nports W' = (w_nports W + length l)%nat /\
  (forall o, (o < w_nports W)%nat -> w_ports W' o = w_ports W o) /\
  (forall i p, nth_error l i = Some p -> w_ports W' (w_nports W + i)%nat = p).
Proof.
  induction l as [|p l IH]; intros W W' os E; cbn [new_ports] in E.
  - invc E. cbn. split; [reflexivity|]. repeat split; auto. intros [|i] q X; discriminate.
  - destruct (new_port W p) as [W1 o] eqn:NP. destruct (new_ports W1 l) as [W2 os2] eqn:NS. invc E. unfold new_port in NP. invc NP.
    destruct (IH _ _ _ NS) as (A & B & C & D & F & G). cbn [w_types w_ntypes w_ports w_nports] in *. subst. cbn [length seq].
    split; [reflexivity|]. split; [exact B|]. split; [exact C|]. split; [lia|]. split.
    + intros o O. rewrite F by lia. apply upd_other. lia.
    + intros [|i] q X.
      * cbn in X. injection X as <-. rewrite Nat.add_0_r, F by lia. apply upd_same.
      * cbn in X. specialize (G i q X). rewrite <- G. f_equal. lia.
Qed.

(** ** The map of types *)

Lemma map_set_find nm k o m : map_find nm (map_set k o m) = if opt_eqb k nm then Some o else map_find nm m.
Proof.
  unfold map_find. induction m as [|[k' o'] m IH]; cbn [map_set find fst]; [destruct (opt_eqb k nm); reflexivity|].
  destruct (opt_eqb k' k) eqn:E; cbn [find fst].
  - apply opt_eqb_eq in E. subst k'. destruct (opt_eqb k nm); reflexivity.
  - destruct (opt_eqb k' nm) eqn:E2.
    + apply opt_eqb_eq in E2. subst k'. destruct (opt_eqb k nm) eqn:E3; [|reflexivity].
      apply opt_eqb_eq in E3. subst. rewrite (proj2 (opt_eqb_eq nm nm) eq_refl) in E. discriminate.
    + exact IH.
Qed.
Lemma map_built (name : nat -> option str) types : NoDup (map name types) -> forall nm o m,
  (forall o', In o' types -> map_find (name o') m = None) ->
  (map_find nm (fold_left (fun m o => map_set (name o) o m) types m) = Some o <->
   (exists i, nth_error types i = Some o /\ nth_error (map name types) i = Some nm) \/ map_find nm m = Some o).
Proof.
  induction types as [|x types IH]; intros N nm o m F; cbn [fold_left map].
  - split; [auto|]. intros [([|i] & X & _)|X]; [discriminate..|exact X].
  - inversion N as [|? ? NI N']; subst. rewrite (IH N').
    + rewrite map_set_find. destruct (opt_eqb (name x) nm) eqn:E.
      * apply opt_eqb_eq in E. subst nm. split.
        -- intros [(i & A & B)|A]; [left; exists (S i); auto|]. injection A as <-. left. exists 0%nat. auto.
        -- intros [([|i] & A & B)|A]; [right; exact A|left; exists i; auto|].
           rewrite F in A by (left; reflexivity). discriminate.
      * split.
        -- intros [(i & A & B)|A]; [left; exists (S i); auto|right; exact A].
        -- intros [([|i] & A & B)|A]; [|left; exists i; auto|right; exact A].
           cbn in B. injection B as B. rewrite B, (proj2 (opt_eqb_eq nm nm) eq_refl) in E. discriminate.
    + intros o' I. rewrite map_set_find. destruct (opt_eqb (name x) (name o')) eqn:E; [|apply F; right; exact I].
      apply opt_eqb_eq in E. exfalso. apply NI. rewrite E. apply in_map. exact I.
Qed.

Lemma nth_error_ext {A} (l m : list A) : (forall i, nth_error l i = nth_error m i) -> l = m.
Proof.
  revert m. induction l as [|x l IH]; intros [|y m] H; [reflexivity|specialize (H 0%nat); discriminate..|].
  f_equal; [specialize (H 0%nat); cbn in H; congruence|]. apply IH. intros i. exact (H (S i)).
Qed.
Lemma nth_forall2 {A B} (R : A -> B -> Prop) l m : length l = length m ->
  (forall i x y, nth_error l i = Some x -> nth_error m i = Some y -> R x y) -> Forall2 R l m.
Proof.
  revert m. induction l as [|x l IH]; intros [|y m] LN H; try discriminate; [constructor|].
  constructor; [apply (H 0%nat); reflexivity|]. apply IH; [injection LN; auto|]. intros i a b A1 B1. exact (H (S i) a b A1 B1).
Qed.
Lemma NoDup_app_swap {A} (a b : list A) : NoDup (a ++ b) -> NoDup (b ++ a).
Proof.
  intros N. apply (Permutation.Permutation_NoDup (l := a ++ b)); [|exact N]. apply Permutation.Permutation_app_comm.
Qed.

(** ** Resolving ports *)

Definition bare (nd : node) : node := mk_node (n_name nd) (n_final nd) (n_types nd) [] [] (n_map nd).
Definition bare_def (D : ndef) : ndef := mk_ndef (df_name D) (df_types D) [] [].
Lemma linked_bare D : linked D -> linked (bare_def D).
Proof. intros [A B C E F G]. constructor; auto. intros p []. Qed.

(** What [resolve_ports] does to the ports of a list. *)
Lemma resolve_ports_spec nd D : linked D -> n_provide nd = [] -> n_require nd = [] -> forall l W, represents W nd D -> NoDup l ->
  (forall o, In o l -> as_parsed (pt_elem (w_ports W o)) /\ exists a, port_found D (pt_elem (w_ports W o)) a) ->
  exists W', resolve_ports W (n_types nd) l = Ok W' /\ w_types W' = w_types W /\ w_ntypes W' = w_ntypes W /\ w_nports W' = w_nports W /\
    (forall o, ~ In o l -> w_ports W' o = w_ports W o) /\
    (forall o, In o l -> exists a e', port_found D (pt_elem (w_ports W o)) a /\ w_ports W' o = with_pelem (w_ports W o) e' /\
       port_stands (n_types nd) e' a).
Proof.
  intros L N1 N2. induction l as [|o l IH]; intros W R N F; cbn [resolve_ports].
  - exists W. repeat split; auto. intros o [].
  - inversion N as [|? ? NI N']; subst. destruct (F o (or_introl eq_refl)) as (AP & a0 & PF).
    destruct (resolve_port_ok W nd D (w_ports W o) a0 R L PF) as (p' & E). rewrite E. cbn [bind].
    destruct (resolve_port_step W nd D _ _ R AP E) as (a & e' & PF' & -> & ST).
    destruct (IH (set_port W o (with_pelem (w_ports W o) e'))) as (W' & E' & A & B & C & G & K).
    + eapply rep_frame; eauto. intros x X. rewrite N1, N2 in X. destruct X.
    + exact N'.
    + intros x X. cbn [set_port w_ports]. rewrite upd_other by congruence. apply F. right. exact X.
    + exists W'. split; [exact E'|]. split; [exact A|]. split; [exact B|]. split; [exact C|]. cbn [set_port w_ports] in *. split.
      * intros x X. rewrite G by (intros Y; apply X; right; exact Y). apply upd_other. intros ->. apply X. left. reflexivity.
      * intros x [<- |X].
        -- rewrite G by exact NI. rewrite upd_same. eauto.
        -- destruct (K x X) as (b & e2 & K1 & K2 & K3). rewrite upd_other in K1, K2 by congruence. eauto.
Qed.

(** ** Copies of ports *)

Definition nice_names (D : ndef) : Prop := forall t, In t (df_types D) -> name_is (fun s => clean_name s /\ bracketed s) (td_name t).
Lemma findable_names by_name W nd D : represents W nd D -> tagging W nd -> nice_names D -> findable by_name (w_types W) (n_types nd).
Proof.
  intros R TG WD i o E. destruct (Forall2_nth _ _ _ _ _ (rp_types _ _ _ R) E) as (t & T & (N & _)).
  apply nth_error_In in T. destruct (WD t T) as (s & S1 & S2 & S3). split; [exists s; rewrite N; auto|].
  right. destruct TG as [U|U]; [left; apply U; eapply nth_error_In; eauto|right; apply (U i o E)].
Qed.

Lemma below_ref_int i a : below i a -> is_ref a -> exists n j, a = DRef n (RInt (Z.of_nat j)).
Proof. intros [ ] R; try contradiction. eauto. Qed.

(** The text of the element of a port, read again. *)
Lemma port_elem_read by_name W nd D pr o p : represents W nd D -> linked D -> tagging W nd -> copyable D ->
  In p (df_provide D ++ df_require D) -> port_is W (n_types nd) pr o p ->
  exists s e, elem_string by_name (w_types W) (pt_elem (w_ports W o)) = Ok s /\ parse_signature s = Ok e /\ port_found D e (pd_elem p).
Proof.
  intros R L TG (CN & CP) IP (PP & N & A & PS). destruct (ln_ports _ L p IP) as (G1 & G2 & G3 & G4).
  pose proof (findable_names by_name W nd D R TG CN) as FN. inversion PS as [m r a ST E1 E2|e NR E1 E2].
  - assert (is_ref (pd_elem p)) as IR by (apply (stands_ref _ _ _ ST); exact I). destruct (G1 IR) as [BL RC].
    assert (tidy false (pd_elem p)) as T by (destruct (below_ref_int _ _ BL IR) as (x & y & ->); reflexivity).
    destruct (stands_text by_name _ _ _ FN (rep_names _ _ _ R) _ _ ST T) as (PR & CL & RF).
    destruct (signature_read _ _ _ PR) as (s & S1 & S2).
    assert (m = None) as ->.
    { destruct (below_ref_int _ _ BL IR) as (x & y & E). rewrite E in *. cbn in G3. inversion ST. congruence. }
    rewrite nameless_described in S2 by reflexivity.
    exists s. eexists. split; [exact S1|]. split; [exact S2|]. left. split; [destruct r; exact I|]. split; [|exact RC].
    specialize (RF _ BL). unfold type_names in *. rewrite firstn_map, firstn_all in RF. exact RF.
  - destruct (CP p IP) as [X|T]; [rewrite E2 in NR; contradiction|].
    destruct (own_text by_name (w_types W) _ T) as (PR & CL & DS). clear E1. rewrite E2 in *.
    destruct (signature_read _ _ _ PR) as (s & S1 & S2). exists s, (pd_elem p). split; [exact S1|].
    split; [rewrite S2, DS, G3; reflexivity|]. right. auto.
Qed.

Lemma copy_port_ok W nd D pr pr' o p : represents W nd D -> linked D -> tagging W nd -> copyable D ->
  In p (df_provide D ++ df_require D) -> port_is W (n_types nd) pr o p ->
  exists q, copy_port pr' (w_types W) (w_ports W o) = Ok q /\ pt_provide q = pr' /\ pt_name q = pd_name p /\ pt_attr q = pd_attr p /\
    pt_id q = None /\ as_parsed (pt_elem q) /\ port_found D (pt_elem q) (pd_elem p).
Proof.
  intros R L TG CP IP PI. unfold copy_port.
  destruct (port_elem_read (negb (pt_provide (w_ports W o))) W nd D pr o p R L TG CP IP PI) as (s & e & S1 & S2 & F).
  rewrite S1. cbn [bind]. unfold make_port. rewrite S2. cbn [bind]. destruct PI as (PP & N & A & PS).
  destruct (ln_ports _ L p IP) as (G1 & G2 & G3 & G4). rewrite A, N. destruct (pd_attr p) as [a|] eqn:PA.
  - rewrite (G4 a eq_refl). cbn [bind]. eexists. split; [reflexivity|]. cbn. repeat split; auto. eapply parse_signature_inv; eauto.
  - cbn [bind]. eexists. split; [reflexivity|]. cbn. repeat split; auto. eapply parse_signature_inv; eauto.
Qed.

Definition copied_as (D : ndef) (pr : bool) (q : port) (p : pdef) : Prop :=
  pt_provide q = pr /\ pt_name q = pd_name p /\ pt_attr q = pd_attr p /\ pt_id q = None /\ as_parsed (pt_elem q) /\ port_found D (pt_elem q) (pd_elem p).
Lemma mirror_ports W nd D pr : represents W nd D -> linked D -> tagging W nd -> copyable D -> forall os ps,
  (forall p, In p ps -> In p (df_provide D ++ df_require D)) -> Forall2 (port_is W (n_types nd) pr) os ps ->
  exists qs, map_res (fun o => mirror_port (w_types W) (w_ports W o)) os = Ok qs /\ Forall2 (copied_as D (negb pr)) qs ps.
Proof.
  intros R L TG CP os ps IP F. induction F as [|o p os ps X F IH]; cbn [map_res]; [exists []; split; constructor|].
  destruct IH as (qs & E & FQ); [intros q Q; apply IP; right; exact Q|].
  destruct (copy_port_ok W nd D pr (negb pr) o p R L TG CP (IP p (or_introl eq_refl)) X) as (q & E1 & Q).
  unfold mirror_port at 1. replace (negb (pt_provide (w_ports W o))) with (negb pr) by (destruct X as [<- _]; reflexivity).
  rewrite E1. cbn [bind]. rewrite E. cbn [bind]. exists (q :: qs). split; [reflexivity|]. constructor; [exact Q|exact FQ].
Qed.

(** ** Mirroring *)

Lemma Forall2_seq {A B} (R : nat -> B -> Prop) (R' : A -> B -> Prop) l m n : Forall2 R' l m ->
  (forall i x y, nth_error l i = Some x -> nth_error m i = Some y -> R' x y -> R (n + i)%nat y) -> Forall2 R (seq n (length l)) m.
Proof.
  intros F. revert n. induction F as [|x y l m X F IH]; intros n H; [constructor|]. cbn [length seq]. constructor.
  - rewrite <- (Nat.add_0_r n). eapply H; [reflexivity..|exact X].
  - apply IH. intros i a b A1 B1 Q. replace (S n + i)%nat with (n + S i)%nat by lia. eapply H; eauto.
Qed.
Lemma port_found_fun D e a b : linked D -> port_found D e a -> port_found D e b -> a = b.
Proof.
  intros L [(I1 & A & _)|(N1 & ->)] [(I2 & B & _)|(N2 & ->)]; [|contradiction..|reflexivity].
  eapply refers_fun; eauto. apply L.
Qed.

Lemma mirror_rep W nd D name : represents W nd D -> linked D -> tagging W nd -> copyable D ->
  exists W' nd', mirror W nd name = Ok (W', nd') /\ represents W' nd' (mirrored name D) /\ represents W' nd D /\
    (untagged W nd -> untagged W' nd') /\ (tagged W nd -> tagged W' nd') /\ n_final nd' = false /\
    (forall o, (o < w_ntypes W)%nat -> w_types W' o = w_types W o) /\ (forall o, (o < w_nports W)%nat -> w_ports W' o = w_ports W o).
Proof.
  intros R L TG CP. unfold mirror.
  destruct (mirror_ports W nd D true R L TG CP _ _ (fun p I => in_or_app _ _ _ (or_introl I)) (rp_provide _ _ _ R)) as (rp & E1 & F1).
  destruct (mirror_ports W nd D false R L TG CP _ _ (fun p I => in_or_app _ _ _ (or_intror I)) (rp_require _ _ _ R)) as (pp & E2 & F2).
  rewrite E1, E2. cbn [bind negb] in *.
  destruct (new_ports (copy_types W) rp) as [W2 rs] eqn:NP1. destruct (new_ports W2 pp) as [W3 ps] eqn:NP2.
  destruct (new_ports_spec _ _ _ _ NP1) as (RS & T2 & NT2 & NN2 & OL2 & NW2).
  destruct (new_ports_spec _ _ _ _ NP2) as (PS & T3 & NT3 & NN3 & OL3 & NW3).
  change (w_nports (copy_types W)) with (w_nports W) in *. change (w_ports (copy_types W)) with (w_ports W) in *.
  change (w_ntypes (copy_types W)) with (w_ntypes W + w_ntypes W)%nat in *.
  set (n := w_ntypes W) in *. set (types := map (fun o => (o + n)%nat) (n_types nd)).
  assert (w_types W3 = w_types (copy_types W)) as TT by congruence.
  assert (forall i o, nth_error types i = Some o -> exists o', nth_error (n_types nd) i = Some o' /\ o = (o' + n)%nat /\
    w_types W3 o = with_elem (w_types W o') (shift_elem n (dt_elem (w_types W o')))) as TY.
  { intros i o O. unfold types in O. rewrite nth_error_map in O. destruct (nth_error (n_types nd) i) as [o'|] eqn:O'; [|discriminate].
    cbn in O. injection O as <-. exists o'. split; [reflexivity|]. split; [reflexivity|]. rewrite TT. apply copied with (nd := nd).
    - eapply nth_error_In; eauto.
    - apply (rp_tbelow _ _ _ R). eapply nth_error_In; eauto. }
  assert (map (fun o => dt_name (w_types W3 o)) types = type_names D) as NAMES.
  { apply nth_error_ext. intros i. rewrite nth_error_map. destruct (nth_error types i) as [o|] eqn:O.
    - cbn [option_map]. destruct (TY i o O) as (o' & O' & _ & ->). destruct (Forall2_nth _ _ _ _ _ (rep_names _ _ _ R) O') as (nm & NM & X). cbn. rewrite NM. f_equal. exact X.
    - symmetry. apply nth_error_None. apply nth_error_None in O. unfold types in O. rewrite map_length in O.
      pose proof (Forall2_len _ _ _ (rep_names _ _ _ R)). lia. }
  set (m := fold_left (fun m o => map_set (dt_name (w_types W3 o)) o m) types []).
  set (name' := match name with Some s => Some s | None => n_name nd end).
  assert (represents W3 (mk_node name' false types [] [] m) (mk_ndef name' (df_types D) [] [])) as R3.
  { constructor; cbn [n_name n_types n_provide n_require n_map df_name df_types df_provide df_require app]; try solve [constructor]; auto.
    - pose proof (rp_types _ _ _ R) as F. unfold types in TY |- *. apply nth_forall2.
      + rewrite map_length. eapply Forall2_len; eauto.
      + intros i o t O T. destruct (TY i o O) as (o' & O' & _ & E). destruct (Forall2_nth _ _ _ _ _ F O') as (t' & T' & A & B & C).
        assert (t' = t) by congruence. subst t'. unfold type_is. rewrite E. cbn [with_elem dt_name dt_attr dt_elem].
        split; [exact A|]. split; [exact B|]. apply stands_shift. exact C.
    - intros nm o. unfold m. rewrite map_built.
      + rewrite NAMES. unfold type_names. cbn [df_types]. split; [intros [X|X]; [exact X|discriminate X]|auto].
      + rewrite NAMES. apply L.
      + intros o' _. reflexivity.
    - unfold types. apply FinFun.Injective_map_NoDup; [intros x y X; lia|]. apply R.
    - intros o O. apply In_nth_error in O as (i & O). destruct (TY i o O) as (o' & O' & -> & _). 
      apply nth_error_In in O'. apply (rp_tbelow _ _ _ R) in O'. unfold n in *. lia.
    - intros o []. }
  assert (linked (mk_ndef name' (df_types D) [] [])) as L3. { destruct L. constructor; auto. intros p []. }
  pose proof (Forall2_len _ _ _ F1) as LN1. pose proof (Forall2_len _ _ _ F2) as LN2.
  assert (forall i q, nth_error rp i = Some q -> w_ports W3 (w_nports W + i)%nat = q) as RW.
  { intros i q Q. rewrite OL3; [apply NW2; exact Q|]. assert (i < length rp)%nat by (apply nth_error_Some; congruence). lia. }
  assert (forall i q, nth_error pp i = Some q -> w_ports W3 (w_nports W + length rp + i)%nat = q) as PW.
  { intros i q Q. rewrite <- NN2. apply NW3. exact Q. }
  assert (rs ++ ps = seq (w_nports W) (length rp + length pp)) as SEQ by (rewrite seq_app; subst rs ps; rewrite NN2; reflexivity).
  assert (forall e a, port_found D e a <-> port_found (mk_ndef name' (df_types D) [] []) e a) as PFE by (intros; unfold port_found, type_names; reflexivity).
  assert (forall o, In o (rs ++ ps) -> (exists q pr a, w_ports W3 o = q /\ copied_as D pr q a)) as CO.
  { intros o O. apply in_app_or in O as [O|O].
    - subst rs. apply in_seq in O. destruct (nth_error rp (o - w_nports W)) as [q|] eqn:Q; [|apply nth_error_None in Q; lia].
      destruct (Forall2_nth _ _ _ _ _ F1 Q) as (a & A & X). exists q, false, a. split; [|exact X]. rewrite <- (RW _ _ Q). f_equal. lia.
    - subst ps. apply in_seq in O. destruct (nth_error pp (o - w_nports W2)) as [q|] eqn:Q; [|apply nth_error_None in Q; lia].
      destruct (Forall2_nth _ _ _ _ _ F2 Q) as (a & A & X). exists q, true, a. split; [|exact X]. rewrite <- (PW _ _ Q). f_equal. lia. }
  destruct (resolve_ports_spec (mk_node name' false types [] [] m) _ L3 eq_refl eq_refl (rs ++ ps) W3 R3) as (W4 & E4 & T4 & NT4 & NN4 & OL4 & RES).
  { rewrite SEQ. apply seq_NoDup. }
  { intros o O. destruct (CO o O) as (q & pr & a & -> & (_ & _ & _ & _ & AP & PF)). split; [exact AP|]. exists (pd_elem a). apply PFE. exact PF. }
  unfold resolve_types. cbn [n_types n_require n_provide] in *. rewrite E4. cbn [bind].
  exists W4, (mk_node name' false types rs ps m). split; [reflexivity|].
  assert (forall o, (o < w_nports W)%nat -> w_ports W4 o = w_ports W o) as OLD.
  { intros o O. rewrite OL4; [rewrite OL3, OL2; [reflexivity|lia..]|]. rewrite SEQ. intros X. apply in_seq in X. lia. }
  assert (forall o, (o < n)%nat -> w_types W4 o = w_types W o) as OLDT by (intros o O; rewrite T4, TT; apply not_copied; exact O).
  assert (forall pr o q a, In o (rs ++ ps) -> w_ports W3 o = q -> copied_as D pr q a -> port_is W4 types pr o a) as FIN.
  { intros pr o q a O Q (C1 & C2 & C3 & _ & _ & C6). destruct (RES o O) as (b & e' & B1 & B2 & B3). rewrite Q in *.
    apply PFE in B1. rewrite (port_found_fun _ _ _ _ L B1 C6) in B3. unfold port_is. rewrite B2. cbn. auto. }
  split; [|split; [|split; [|split; [|split; [|split]]]]].
  - constructor; cbn [n_name n_types n_provide n_require n_map mirrored df_name df_types df_provide df_require].
    + unfold name'. rewrite (rp_name _ _ _ R). destruct name; reflexivity.
    + rewrite T4. apply (rp_types _ _ _ R3).
    + subst ps. eapply Forall2_seq; [exact F2|]. intros i q a Q A X. eapply FIN; [| |exact X].
      * rewrite SEQ. apply in_seq. assert (i < length pp)%nat by (apply nth_error_Some; congruence). lia.
      * rewrite NN2. apply PW. exact Q.
    + subst rs. eapply Forall2_seq; [exact F1|]. intros i q a Q A X. eapply FIN; [| |exact X].
      * rewrite SEQ. apply in_seq. assert (i < length rp)%nat by (apply nth_error_Some; congruence). lia.
      * apply RW. exact Q.
    + apply (rp_map _ _ _ R3).
    + apply (rp_tdup _ _ _ R3).
    + apply NoDup_app_swap. rewrite SEQ. apply seq_NoDup.
    + rewrite NT4. apply (rp_tbelow _ _ _ R3).
    + intros o O. rewrite NN4. assert (In o (rs ++ ps)) as X by (apply in_or_app; apply in_app_or in O; tauto).
      rewrite SEQ in X. apply in_seq in X. lia.
  - eapply rep_frame; [exact R|..].
    + intros o O. apply OLDT. apply (rp_tbelow _ _ _ R). exact O.
    + intros o O. apply OLD. apply (rp_pbelow _ _ _ R). exact O.
    + rewrite NT4, NT3, NT2. lia.
    + lia.
  - intros U o O. cbn [n_types] in O. apply In_nth_error in O as (i & O). destruct (TY i o O) as (o' & O' & _ & E). rewrite T4, E. apply U. eapply nth_error_In; eauto.
  - intros U i o O. cbn [n_types] in O. destruct (TY i o O) as (o' & O' & _ & E). rewrite T4, E. apply (U i o' O').
  - reflexivity.
  - exact OLDT.
  - exact OLD.
Qed.
