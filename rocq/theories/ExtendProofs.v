(** Lemmas about merging nodes. *)
From Coq Require Import ZifyBool ZifyNat Lia.
From Coq Require Import Permutation.
From Verif Require Import Py PyLemmas TypesModel TextModel SigModel AttrModel NodeModel ParserModel.
From Verif Require Import SigSpec NodeSpec ParserSpec MergeSpec TextProofs SigProofs NodeProofs ElemTextProofs MirrorProofs FinalizeProofs.
Ltac Zify.zify_post_hook ::= Z.div_mod_to_equations.

(** ** Later worlds *)

Definition wle (W W' : world) : Prop :=
  (w_ntypes W <= w_ntypes W')%nat /\ (w_nports W <= w_nports W')%nat /\
  (forall o, (o < w_ntypes W)%nat -> w_types W' o = w_types W o) /\ (forall o, (o < w_nports W)%nat -> w_ports W' o = w_ports W o).
Lemma wle_refl W : wle W W.
Proof. repeat split; auto. Qed.
Lemma wle_trans W1 W2 W3 : wle W1 W2 -> wle W2 W3 -> wle W1 W3.
Proof.
  intros (A & B & C & D) (A' & B' & C' & D'). split; [lia|]. split; [lia|]. split; intros o O.
  - rewrite C', C by lia. reflexivity.
  - rewrite D', D by lia. reflexivity.
Qed.
Lemma rep_wle W W' nd D : wle W W' -> represents W nd D -> represents W' nd D.
Proof.
  intros (A & B & C & E) R. eapply rep_frame; eauto.
  - intros o O. apply C. apply (rp_tbelow _ _ _ R). exact O.
  - intros o O. apply E. apply (rp_pbelow _ _ _ R). exact O.
Qed.
Lemma new_type_wle W d W' o : new_type W d = (W', o) -> wle W W' /\ o = w_ntypes W /\ w_types W' o = d /\ w_ntypes W' = S (w_ntypes W) /\ w_nports W' = w_nports W.
Proof.
  intros E. unfold new_type in E. injection E as <- <-. cbn [w_types w_ntypes w_nports w_ports]. split; [|rewrite upd_same; auto].
  split; [cbn; lia|]. split; [cbn; lia|]. split; intros o O; [apply upd_other; lia|reflexivity].
Qed.
Lemma new_port_wle W d W' o : new_port W d = (W', o) -> wle W W' /\ o = w_nports W /\ w_ports W' o = d /\ w_nports W' = S (w_nports W).
Proof.
  intros E. unfold new_port in E. injection E as <- <-. cbn [w_types w_ntypes w_nports w_ports]. split; [|rewrite upd_same; auto].
  split; [cbn; lia|]. split; [cbn; lia|]. split; intros o O; [reflexivity|apply upd_other; lia].
Qed.
Lemma set_type_wle W W1 o d : wle W W1 -> (w_ntypes W <= o)%nat -> wle W (set_type W1 o d).
Proof.
  intros (A & B & C & D) O. split; [exact A|]. split; [exact B|]. split; [|exact D]. intros x X. cbn [set_type w_types]. rewrite upd_other by lia. auto.
Qed.
Lemma set_port_wle W W1 o d : wle W W1 -> (w_nports W <= o)%nat -> wle W (set_port W1 o d).
Proof.
  intros (A & B & C & D) O. split; [exact A|]. split; [exact B|]. split; [exact C|]. intros x X. cbn [set_port w_ports]. rewrite upd_other by lia. auto.
Qed.

(** ** The two nodes *)

Definition unshort (W : world) (nd : node) : Prop := forall o, In o (n_types nd) -> dt_short (w_types W o) = None.
Definition inv (W : world) (nd : node) (D : ndef) : Prop :=
  represents W nd D /\ linked D /\ copyable D /\ tidy_types D /\ unshort W nd.
Definition src (W : world) (nd : node) (D : ndef) : Prop :=
  represents W nd D /\ linked D /\ copyable D /\ tidy_types D /\ tagging W nd.

Lemma inv_wle W W' nd D : wle W W' -> inv W nd D -> inv W' nd D.
Proof.
  intros L (R & A & B & C & E). pose proof (rep_wle _ _ _ _ L R) as R'. repeat (split; [solve [auto]|]).
  intros o O. destruct L as (_ & _ & T & _). rewrite T by (apply (rp_tbelow _ _ _ R); exact O). auto.
Qed.
Lemma src_wle W W' nd D : wle W W' -> src W nd D -> src W' nd D.
Proof.
  intros L (R & A & B & C & E). pose proof (rep_wle _ _ _ _ L R) as R'. repeat (split; [solve [auto]|]).
  destruct L as (_ & _ & T & _). destruct E as [U|U]; [left|right].
  - intros o O. rewrite T by (apply (rp_tbelow _ _ _ R); exact O). auto.
  - intros i o O. rewrite T by (apply (rp_tbelow _ _ _ R); eapply nth_error_In; eauto). auto.
Qed.
Lemma src_inv W nd D : src W nd D -> inv W nd D.
Proof.
  intros (R & A & B & C & E). repeat (split; [solve [auto]|]). intros o O. destruct E as [U|U]; [apply U, O|].
  apply In_nth_error in O as (i & O). apply (U i o O).
Qed.
Lemma inv_find W nd D : inv W nd D -> findable true (w_types W) (n_types nd).
Proof.
  intros (R & _ & (CN & _) & _) i o E. destruct (Forall2_nth _ _ _ _ _ (rp_types _ _ _ R) E) as (t & T & (N & _)).
  apply nth_error_In in T. destruct (CN t T) as (s & S1 & S2 & S3). split; [exists s; rewrite N; auto|auto].
Qed.

(** ** References by name *)

Lemma moved_more names names' more a b : moved names names' a b -> moved names (names' ++ more) a b.
Proof.
  revert a b. apply (moved_mind names names' (fun a b _ => moved names (names' ++ more) a b) (fun l m _ => moveds names (names' ++ more) l m)).
  - intros. constructor.
  - intros n i j nm A B. econstructor; [exact A|]. rewrite nth_error_app1; [exact B|]. apply nth_error_Some. congruence.
  - intros. constructor; assumption.
  - constructor.
  - intros. constructor; assumption.
Qed.
Lemma described_moved H types names names' : findable true H types -> Forall2 (fun o nm => dt_name (H o) = nm) types names ->
  forall e a, stands types e a -> forall a', refers names' (described true H e) a' -> moved names names' a a'.
Proof.
  intros FN F.
  apply (stands_mind types (fun e a _ => forall a', refers names' (described true H e) a' -> moved names names' a a')
    (fun es l _ => forall l', refers_all names' (map (described true H) es) l' -> moveds names names' l l')).
  - intros n c lo hi k a' R. inversion R; subst. constructor.
  - intros n o i E a' R. destruct (FN _ _ E) as ((s & S1 & _) & _). destruct (Forall2_nth _ _ _ _ _ F E) as (nm & NM & X).
    cbn [described] in R. unfold reference_text in R. rewrite S1 in R. inversion R; subst. econstructor; eauto. congruence.
  - intros n es l _ IH a' R. cbn [described] in R. inversion R; subst. constructor. auto.
  - intros l' R. inversion R; subst. constructor.
  - intros e a es l _ IH1 _ IH2 l' R. cbn [map] in R. inversion R; subst. constructor; auto.
Qed.
Lemma stands_nameless types e a : stands types e a -> nameless a = a -> nameless e = e.
Proof. intros [ ]; cbn; congruence. Qed.

(* elements of the two nodes with the same text *)
Lemma same_text_moved H H2 types types2 names names2 e e2 a a2 s :
  findable true H types -> Forall2 (fun o nm => dt_name (H o) = nm) types names ->
  findable true H2 types2 -> Forall2 (fun o nm => dt_name (H2 o) = nm) types2 names2 ->
  stands types e a -> stands types2 e2 a2 -> tidy false a -> tidy false a2 -> nameless a = a -> nameless a2 = a2 ->
  below (length names) a -> elem_string true H e = Ok s -> elem_string true H2 e2 = Ok s -> moved names2 names a2 a.
Proof.
  intros FN F FN2 F2 ST ST2 T T2 N N2 B E E2.
  destruct (stands_text true _ _ _ FN F _ _ ST T) as (PR & _ & RF). destruct (stands_text true _ _ _ FN2 F2 _ _ ST2 T2) as (PR2 & _ & _).
  destruct (signature_read true _ _ PR) as (s1 & S1 & P1). destruct (signature_read true _ _ PR2) as (s2 & S2 & P2).
  assert (s1 = s) by congruence. assert (s2 = s) by congruence. subst s1 s2. rewrite P1 in P2. injection P2 as P2.
  rewrite !nameless_described in P2 by (eapply stands_nameless; eauto). specialize (RF _ B). rewrite firstn_all, P2 in RF.
  eapply described_moved; eauto.
Qed.

(** ** Adding the types *)

Definition plus_types (D : ndef) (ts : list tdef) : ndef := mk_ndef (df_name D) (df_types D ++ ts) (df_provide D) (df_require D).
Lemma plus_types_nil D : plus_types D [] = D.
Proof. destruct D. unfold plus_types. cbn. rewrite app_nil_r. reflexivity. Qed.
Lemma plus_types_app D a b : plus_types (plus_types D a) b = plus_types D (a ++ b).
Proof. unfold plus_types. cbn. rewrite app_assoc. reflexivity. Qed.
Lemma plus_types_names D ts : type_names (plus_types D ts) = type_names D ++ map td_name ts.
Proof. apply map_app. Qed.
Lemma same_type_more D2 D ts t2 t : same_type D2 D t2 t -> same_type D2 (plus_types D ts) t2 t.
Proof. intros (A & B & C). split; [exact A|]. split; [exact B|]. rewrite plus_types_names. apply moved_more. exact C. Qed.

(** [grown i W nd D W' nd' D']: some of the types of [D2] up to [i] were added. *)
Definition from_upto (D2 : ndef) (need : nat -> Prop) (D' : ndef) (i : nat) (t : tdef) : Prop :=
  exists j u, (j < i)%nat /\ nth_error (df_types D2) j = Some u /\ same_type D2 D' u t /\ need j.
Definition grown (D2 : ndef) (need : nat -> Prop) (i : nat) (W : world) (nd : node) (D : ndef) (W' : world) (nd' : node) (ts : list tdef) : Prop :=
  inv W' nd' (plus_types D ts) /\ wle W W' /\ w_nports W' = w_nports W /\ (forall o, w_ports W' o = w_ports W o) /\
  n_provide nd' = n_provide nd /\ n_require nd' = n_require nd /\
  Forall (from_upto D2 need (plus_types D ts) i) ts.
Lemma grown_trans D2 need i W nd D W1 nd1 ts1 W2 nd2 ts2 : grown D2 need i W nd D W1 nd1 ts1 -> grown D2 need i W1 nd1 (plus_types D ts1) W2 nd2 ts2 ->
  grown D2 need i W nd D W2 nd2 (ts1 ++ ts2).
Proof.
  intros (A & B & C & E & F & G & K) (A' & B' & C' & E' & F' & G' & K'). unfold grown. rewrite plus_types_app in *.
  split; [exact A'|]. split; [eapply wle_trans; eauto|]. split; [congruence|]. split; [intros o; rewrite E'; apply E|]. split; [congruence|]. split; [congruence|].
  apply Forall_app. split; [|exact K']. eapply Forall_impl; [|exact K]. intros t (j & u & J & U & S & N). exists j, u. split; [exact J|]. split; [exact U|].
  split; [rewrite <- plus_types_app; apply same_type_more; exact S|exact N].
Qed.
Lemma grown_upto D2 need i i' W nd D W' nd' ts : (i <= i')%nat -> grown D2 need i W nd D W' nd' ts -> grown D2 need i' W nd D W' nd' ts.
Proof.
  intros L (A & B & C & E & F & G & K). unfold grown. repeat (split; [assumption|]). eapply Forall_impl; [|exact K].
  intros t (j & u & J & U). exists j, u. split; [lia|exact U].
Qed.
Lemma grown_refl D2 need i W nd D : inv W nd D -> grown D2 need i W nd D W nd [].
Proof. intros I. unfold grown. rewrite plus_types_nil. repeat (split; [solve [auto using wle_refl]|]). constructor. Qed.

Lemma clone_type_inv W nd D i o t d : src W nd D -> nth_error (n_types nd) i = Some o -> nth_error (df_types D) i = Some t ->
  clone_type (w_types W) (w_types W o) = Ok d ->
  d = mk_dtype (td_name t) (described true (w_types W) (dt_elem (w_types W o))) (td_attr t) None None /\
  stands (n_types nd) (dt_elem (w_types W o)) (td_elem t) /\ as_parsed (dt_elem d) /\ nameless (dt_elem d) = dt_elem d /\ type_attr_ok (dt_attr d).
Proof.
  intros S O T E. pose proof (inv_find _ _ _ (src_inv _ _ _ S)) as FN. destruct S as (R & L & CP & TT & TG).
  destruct (Forall2_nth _ _ _ _ _ (rp_types _ _ _ R) O) as (t' & T' & N & A & ST). assert (t' = t) by congruence. subst t'. clear T'.
  pose proof (nth_error_In _ _ T) as IT. destruct (TT t IT) as [_ TD].
  destruct (stands_text true _ _ _ FN (rep_names _ _ _ R) _ _ ST TD) as (PR & _ & _). destruct (signature_read true _ _ PR) as (s & S1 & S2).
  unfold clone_type in E. rewrite S1 in E. cbn [bind] in E. rewrite N, A in E. apply make_type_inv in E as (e & P & AO & ->).
  rewrite nameless_described in S2 by (eapply stands_nameless; [exact ST|]; apply (ln_plain _ L); exact IT).
  pose proof P as P0. rewrite S2 in P. injection P as <-. split; [reflexivity|]. split; [exact ST|]. cbn [dt_elem dt_attr].
  split; [eapply parse_signature_inv; eauto|]. split; [eapply parse_nameless; eauto|exact AO].
Qed.

Section AddType.
  Variables (other : node) (D2 : ndef) (need : nat -> Prop).
  Hypothesis closed : forall i t j, need i -> nth_error (df_types D2) i = Some t -> points (td_elem t) j -> need j.

  Lemma upto_names D i t2 ts : linked D2 -> nth_error (df_types D2) i = Some t2 -> Forall (from_upto D2 need D i) ts -> ~ In (td_name t2) (map td_name ts).
  Proof.
    intros L T F I. apply in_map_iff in I as (t & E & I). rewrite Forall_forall in F. destruct (F t I) as (j & u & J & U & (N & _) & _).
    assert (nth_error (type_names D2) j = Some (td_name t2)) as X by (unfold type_names; rewrite nth_error_map, U; cbn; congruence).
    assert (nth_error (type_names D2) i = Some (td_name t2)) as Y by (unfold type_names; rewrite nth_error_map, T; reflexivity).
    pose proof (nodup_nth _ _ _ _ (ln_names _ L) X Y). lia.
  Qed.

  Definition adds (k : nat) : Prop := forall W nd D o i t2 W' nd' o',
    inv W nd D -> src W other D2 -> nth_error (n_types other) i = Some o -> nth_error (df_types D2) i = Some t2 -> need i ->
    add_type_from k W nd o = Ok (W', nd', o') ->
    exists ts, grown D2 need (S i) W nd D W' nd' ts /\
      (~ In (td_name t2) (type_names D) -> In o' (n_types nd') /\ dt_name (w_types W' o') = td_name t2 /\
         exists t, In t ts /\ td_name t = td_name t2).

  Definition member_step (k : nat) (acc : res (world * node)) (e : delem) : res (world * node) :=
    do '(W, nd) <- acc;
    match e with
    | DRef _ (RObj o') => do '(W, nd, _) <- add_type_from k W nd o'; Ok (W, nd)
    | DRef _ _ => Err ValueError
    | _ => Ok (W, nd)
    end.
  Lemma member_err k es x : fold_left (member_step k) es (Err x) = Err x.
  Proof. induction es as [|e es IH]; [reflexivity|]. exact IH. Qed.

  Lemma members_added k i : adds k -> forall es l, stands_all (n_types other) es l -> belows i l -> (forall a j, In a l -> points a j -> need j) ->
    forall W nd D W' nd', inv W nd D -> src W other D2 -> fold_left (member_step k) es (Ok (W, nd)) = Ok (W', nd') ->
    exists ts, grown D2 need i W nd D W' nd' ts.
  Proof.
    intros IH es l SA. induction SA as [|e a es l ST SA IHl]; intros B NE W nd D W' nd' IN SR E.
    - cbn in E. injection E as <- <-. exists []. apply grown_refl. exact IN.
    - inversion B as [|? ? B1 B2]; subst. cbn [fold_left] in E. destruct (member_step k (Ok (W, nd)) e) as [[W1 nd1]|x] eqn:M.
      + assert (exists ts, grown D2 need i W nd D W1 nd1 ts) as (ts1 & G1).
        { unfold member_step in M. cbn [bind] in M. inversion ST as [n c lo hi x E1|n o j N E1|n es' l' SA' E1]; subst.
          - injection M as <- <-. exists []. apply grown_refl. exact IN.
          - inv_bind M. destruct a as [[W2 nd2] o2]. injection M as <- <-. inversion B1 as [|n' j' J|]; subst.
            match goal with X : Z.of_nat _ = Z.of_nat _ |- _ => apply Nat2Z.inj in X; subst end.
            destruct SR as (R & SR'). destruct (Forall2_nth _ _ _ _ _ (rp_types _ _ _ R) N) as (u & U & _).
            destruct (IH W nd D o j u W2 nd2 o2 IN (conj R SR') N U (NE _ j (or_introl eq_refl) (pn_ref _ j)) Ha) as (ts & G & _). exists ts. eapply grown_upto; [|exact G]. lia.
          - injection M as <- <-. exists []. apply grown_refl. exact IN. }
        destruct (IHl B2 (fun a j I => NE a j (or_intror I)) W1 nd1 (plus_types D ts1) W' nd') as (ts2 & G2).
        * apply G1.
        * eapply src_wle; [apply G1|exact SR].
        * exact E.
        * exists (ts1 ++ ts2). eapply grown_trans; eauto.
      + rewrite member_err in E. discriminate.
  Qed.

  Lemma add_type_from_adds k : adds k.
  Proof.
    induction k as [|k IH]; intros W nd D o i t2 W' nd' o' IN SR O T NR E; [discriminate|]. cbn [add_type_from] in E. inv_bind E. destruct a as [Wm ndm].
    assert (exists ts, grown D2 need i W nd D Wm ndm ts) as (ts & G).
    { pose proof SR as SR0. destruct SR as (R & L & SR'). destruct (Forall2_nth _ _ _ _ _ (rp_types _ _ _ R) O) as (t' & T' & _ & _ & ST).
      assert (t' = t2) by congruence. subst t'. pose proof (ln_below _ L i t2 T) as B. destruct (dt_elem (w_types W o)) as [| n es|]; [|..|discriminate].
      - injection Ha as <- <-. exists []. apply grown_refl. exact IN.
      - inversion ST as [| |n' es' l SA]; subst. rewrite <- H1 in B. inversion B; subst.
        eapply members_added with (es := es) (W := W) (nd := nd); eauto. intros a j IA PA. eapply closed; [exact NR|exact T|]. rewrite <- H1. eapply pn_rec; eauto. }
    clear Ha. inv_bind E. rename a into d. rename Ha into CL. destruct (new_type Wm d) as [W1 on] eqn:NT. inv_bind E. destruct a as [[W2 nd2] o2]. injection E as <- <- <-.
    rename Ha into AT. destruct G as (INm & WL & NP & PO & PV & PR & FR). pose proof (src_wle _ _ _ _ WL SR) as SRm.
    destruct (clone_type_inv _ _ _ _ _ _ _ SRm O T CL) as (DE & ST & AP & NL & AO).
    destruct (new_type_wle _ _ _ _ NT) as (WL1 & ON & DN & NN & NP1). pose proof (inv_wle _ _ _ _ WL1 INm) as IN1.
    assert (forall x, w_ports W1 x = w_ports Wm x) as PO1 by (intros x; unfold new_type in NT; injection NT as <- _; reflexivity).
    pose proof IN1 as (R1 & L1 & C1 & T1 & U1).
    assert (~ In on (n_types ndm)) as FRESH.
    { intros I. destruct INm as (Rm & _). apply (rp_tbelow _ _ _ Rm) in I. lia. }
    assert (on < w_ntypes W1)%nat as ONB by lia.
    destruct (add_type_step W1 ndm (plus_types D ts) on W2 nd2 o2 R1 L1 ONB FRESH ltac:(rewrite DN; exact AP) AT) as [(I & -> & -> & I2 & _)|(a & e' & NI & RF & RC & -> & -> & -> & RP)].
    - exists ts. split.
      + unfold grown. split; [exact IN1|]. split; [eapply wle_trans; eauto|]. split; [congruence|]. split; [intros x; rewrite PO1; apply PO|]. split; [exact PV|]. split; [exact PR|].
        eapply Forall_impl; [|exact FR]. intros t (j & u & J & X). exists j, u. split; [lia|exact X].
      + intros NI. exfalso. rewrite DN, DE in I. cbn [dt_name] in I. rewrite plus_types_names in I. apply in_app_or in I as [I|I]; [contradiction|].
        eapply upto_names; [apply SR|exact T|exact FR|exact I].
    - rewrite DN in *. subst d. cbn [dt_name dt_elem dt_attr] in *.
      set (t := mk_tdef (td_name t2) a (td_attr t2)) in *.
      assert (plus_type (plus_types D ts) t = plus_types D (ts ++ [t])) as PT by (rewrite <- plus_types_app; reflexivity).
      assert (moved (type_names D2) (type_names (plus_types D ts)) (td_elem t2) a) as MV.
      { eapply described_moved; [apply (inv_find _ _ _ (src_inv _ _ _ SRm))|apply rep_names; apply SRm|exact ST|exact RF]. }
      exists (ts ++ [t]). split.
      + unfold grown. rewrite <- PT. split; [|split; [|split; [|split; [|split; [|split]]]]].
        * pose proof SR as (_ & _ & (CN2 & _) & TT2 & _). pose proof (nth_error_In _ _ T) as IT2.
          split; [exact RP|]. split; [eapply linked_plus_type; eauto|]. split; [|split].
          -- destruct C1 as [CN CP]. split; [|exact CP]. cbn [plus_type df_types]. intros u U. apply in_app_or in U as [U|[<- | []]]; [apply CN; exact U|].
             apply (CN2 t2 IT2).
          -- intros u U. cbn [plus_type df_types] in U. apply in_app_or in U as [U|[<- | []]]; [apply T1; exact U|]. split; [apply (TT2 t2 IT2)|].
             eapply moved_tidy; [exact MV|]. apply (TT2 t2 IT2).
          -- intros x X. cbn [n_types] in X. cbn [set_type w_types]. apply in_app_or in X as [X|[<- | []]].
             ++ rewrite upd_other by congruence. apply U1. exact X.
             ++ rewrite upd_same. reflexivity.
        * apply set_type_wle; [eapply wle_trans; eauto|]. destruct WL as (Q & _). lia.
        * cbn. congruence.
        * intros x. cbn [set_type w_ports]. rewrite PO1. apply PO.
        * exact PV.
        * exact PR.
        * apply Forall_app. rewrite PT, <- plus_types_app. split.
          -- eapply Forall_impl; [|exact FR]. intros u (j & v & J & V & S & N). exists j, v. split; [lia|]. split; [exact V|]. split; [apply same_type_more; exact S|exact N].
          -- constructor; [|constructor]. exists i, t2. split; [lia|]. split; [exact T|]. split; [|exact NR]. split; [reflexivity|]. split; [reflexivity|].
             rewrite plus_types_names. apply moved_more. exact MV.
      + intros _. cbn [n_types set_type w_types]. split; [apply in_or_app; right; left; reflexivity|]. rewrite upd_same. split; [reflexivity|].
        exists t. split; [apply in_or_app; right; left; reflexivity|reflexivity].
  Qed.
End AddType.

(** ** Ports of the same name *)

Definition named_as (W : world) (nm : option str) (o : nat) : bool := opt_eqb (pt_name (w_ports W o)) nm.
Lemma check_dup_filter W p l : check_duplicate W p l = check_duplicate W p (filter (named_as W (pt_name p)) l).
Proof.
  induction l as [|o l IH]; [reflexivity|]. cbn [filter]. unfold named_as at 1. cbn [check_duplicate].
  destruct (opt_eqb (pt_name (w_ports W o)) (pt_name p)) eqn:E; [|exact IH]. cbn [check_duplicate]. rewrite E. reflexivity.
Qed.
Lemma check_dup_none W p l : check_duplicate W p l = Ok None -> forall o, In o l -> pt_name (w_ports W o) <> pt_name p.
Proof.
  induction l as [|x l IH]; cbn [check_duplicate]; intros E o O; [destruct O|].
  destruct (opt_eqb (pt_name (w_ports W x)) (pt_name p)) eqn:N.
  - destruct (Bool.eqb _ _); [|discriminate]. inv_bind E. discriminate.
  - destruct O as [<- |O]; [|auto]. intros X. apply opt_eqb_eq in X. congruence.
Qed.
Lemma check_dup_some W p l o : check_duplicate W p l = Ok (Some o) -> In o l /\ pt_name (w_ports W o) = pt_name p /\
  pt_provide (w_ports W o) = pt_provide p /\ verify_equal (port_string true (w_types W) (w_ports W o)) (port_string true (w_types W) p) = Ok tt.
Proof.
  induction l as [|x l IH]; cbn [check_duplicate]; intros E; [discriminate|].
  destruct (opt_eqb (pt_name (w_ports W x)) (pt_name p)) eqn:N.
  - destruct (Bool.eqb _ _) eqn:B; [|discriminate]. inv_bind E. injection E as <-. apply opt_eqb_eq in N. apply Bool.eqb_prop in B.
    destruct a. split; [left; reflexivity|]. auto.
  - destruct (IH E) as (A & B). split; [right; exact A|exact B].
Qed.

(** ** The text of a port *)

Lemma port_sig W nd D pr o p : inv W nd D -> In p (df_provide D ++ df_require D) -> port_is W (n_types nd) pr o p ->
  exists s e, elem_string true (w_types W) (pt_elem (w_ports W o)) = Ok s /\ none bad s /\ parse_signature s = Ok e /\
    ((is_ref e /\ is_ref (pd_elem p) /\ stands (n_types nd) (pt_elem (w_ports W o)) (pd_elem p) /\ tidy false (pd_elem p)) \/
     (~ is_ref (pd_elem p) /\ e = pd_elem p /\ pt_elem (w_ports W o) = pd_elem p)).
Proof.
  intros IN IP (PP & N & A & PS). pose proof (inv_find _ _ _ IN) as FN. destruct IN as (R & L & (CN & CP) & TT & US).
  destruct (ln_ports _ L p IP) as (G1 & G2 & G3 & G4). inversion PS as [m r a ST E1 E2|e NR E1 E2].
  - assert (is_ref (pd_elem p)) as IR by (apply (stands_ref _ _ _ ST); exact I). destruct (G1 IR) as [BL RC].
    assert (tidy false (pd_elem p)) as T by (destruct (below_ref_int _ _ BL IR) as (x & y & ->); reflexivity).
    destruct (stands_text true _ _ _ FN (rep_names _ _ _ R) _ _ ST T) as (PR & CL & RF).
    destruct (signature_read _ _ _ PR) as (s & S1 & S2). destruct (elem_string_good _ _ _ CL _ S1) as [NB _].
    exists s. eexists. split; [exact S1|]. split; [exact NB|]. split; [exact S2|]. left. split; [destruct r; exact I|]. auto.
  - destruct (CP p IP) as [X|T]; [rewrite E2 in NR; contradiction|]. clear E1. rewrite E2 in *.
    destruct (own_text true (w_types W) _ T) as (PR & CL & DS).
    destruct (signature_read _ _ _ PR) as (s & S1 & S2). destruct (elem_string_good _ _ _ CL _ S1) as [NB _].
    exists s, (pd_elem p). split; [exact S1|]. split; [exact NB|]. split; [rewrite S2, DS, G3; reflexivity|]. right. auto.
Qed.

Definition attr_text (a : option pattr) : option str := match a with Some a => Some (pa_str a) | None => None end.
Lemma attr_text_inj a b : (forall x, a = Some x -> parse_port_attr (pa_str x) = Ok x) -> (forall x, b = Some x -> parse_port_attr (pa_str x) = Ok x) ->
  attr_text a = attr_text b -> a = b.
Proof.
  intros A B E. destruct a as [x|], b as [y|]; try discriminate; [|reflexivity]. cbn in E. injection E as E.
  specialize (A x eq_refl). specialize (B y eq_refl). rewrite E in A. congruence.
Qed.

Lemma below_names D a : below (length (df_types D)) a -> below (length (type_names D)) a.
Proof. unfold type_names. rewrite map_length. auto. Qed.
Lemma same_port_text W nd D other D2 pr o q po p : inv W nd D -> src W other D2 -> In q (df_provide D ++ df_require D) -> In p (df_provide D2 ++ df_require D2) ->
  port_is W (n_types nd) pr o q -> port_is W (n_types other) pr po p -> pd_name q = pd_name p ->
  verify_equal (port_string true (w_types W) (w_ports W o)) (port_string true (w_types W) (w_ports W po)) = Ok tt -> moved_port D2 D p q.
Proof.
  intros IN SR IQ IP PQ PP NM VE. pose proof (src_inv _ _ _ SR) as IN2.
  destruct (port_sig _ _ _ _ _ _ IN IQ PQ) as (s & e & S1 & NB & P1 & X). destruct (port_sig _ _ _ _ _ _ IN2 IP PP) as (s' & e' & S1' & NB' & P1' & X').
  apply verify_equal_ok in VE as (t & V1 & V2). unfold port_string in V1, V2. rewrite S1 in V1. rewrite S1' in V2. cbn [bind] in *.
  destruct PQ as (PQ1 & PQ2 & PQ3 & _). destruct PP as (PP1 & PP2 & PP3 & _). rewrite PQ1, PQ2, PQ3 in V1. rewrite PP1, PP2, PP3, <- NM in V2.
  assert (decl_string (if pr then 80 else 82) (pd_name q) s (attr_text (pd_attr q)) = decl_string (if pr then 80 else 82) (pd_name q) s' (attr_text (pd_attr p))) as E by (unfold attr_text; congruence).
  apply decl_string_inj in E as [<- EA]; auto. rewrite P1 in P1'. injection P1' as <-.
  pose proof (inv_find _ _ _ IN) as FN. pose proof (inv_find _ _ _ IN2) as FN2.
  destruct IN as (R & L & CP & TT & _). destruct IN2 as (R2 & L2 & CP2 & TT2 & _).
  destruct (ln_ports _ L q IQ) as (G1 & _ & G3 & G4). destruct (ln_ports _ L2 p IP) as (G1' & _ & G3' & G4').
  split; [exact NM|]. split; [apply attr_text_inj; auto|].
  destruct X as [(I1 & I2 & ST & T)|(N1 & -> & E1)]; destruct X' as [(I1' & I2' & ST' & T')|(N1' & E' & E1')].
  - split; [|contradiction]. intros _.
    eapply same_text_moved with (H := w_types W) (H2 := w_types W) (types := n_types nd) (types2 := n_types other); eauto.
    + apply rep_names. exact R.
    + apply rep_names. exact R2.
    + apply below_names. apply G1. exact I2.
  - exfalso. subst e. contradiction.
  - exfalso. contradiction.
  - split; [contradiction|]. intros _. congruence.
Qed.

(** ** Adding a port *)

Lemma add_fresh_port W nd D p W1 o W2 nd2 a : represents W nd D -> port_stands (n_types nd) (pt_elem p) a -> new_port W p = (W1, o) -> add_port W1 nd o = Ok (W2, nd2) ->
  let p2 := with_pid p (Some (len (if pt_provide p then n_provide nd else n_require nd))) in
  W2 = set_port W1 o p2 /\ nd2 = with_port nd (pt_provide p) o /\ wle W W2 /\ o = w_nports W /\ w_ports W2 o = p2 /\
  represents W2 nd2 (plus_port (pt_provide p) D (mk_pdef (pt_name p) a (pt_attr p))) /\ (is_ref a -> reaches (df_types D) 10 a) /\
  (numbered W nd -> numbered W2 nd2).
Proof.
  intros R ST NP E. cbv zeta. destruct (new_port_wle _ _ _ _ NP) as (WL & ON & PN & NN). pose proof (rep_wle _ _ _ _ WL R) as R1.
  destruct (add_port_shape _ _ _ _ _ E) as (p' & RP & -> & ->). rewrite PN in *.
  set (p2 := with_pid p (Some (len (if pt_provide p then n_provide nd else n_require nd)))) in *.
  assert (p' = p2 /\ (is_ref a -> reaches (df_types D) 10 a)) as [-> RC].
  { unfold resolve_port in RP. change (pt_elem p2) with (pt_elem p) in RP. inversion ST as [n r x S1 E1 E2|x NR E1 E2].
    - rewrite <- E1 in RP. cbn [is_reference] in RP. inversion S1 as [|n' o' i N E3 E4|]; subst r.
      inv_bind RP. destruct a0 as [e d]. injection RP as <-. unfold resolve_sig in Ha. cbn [resolve_type bind] in Ha. inv_bind Ha. injection Ha as <- <-. split.
      + subst p2. destruct p as [pp pn pe pa pi]. cbn in *. unfold with_pelem, with_pid. cbn. congruence.
      + intros _. rewrite E4. apply (proj1 (follow _ _ _ (rp_types _ _ _ R1) 10 _ _ S1) _ Ha0).
    - assert (is_reference (pt_elem p) = false) as IR by (apply is_ref_false; exact NR). rewrite IR in RP. injection RP as <-. split; [reflexivity|].
      intros X. contradiction. }
  assert (~ In o (n_provide nd ++ n_require nd)) as FRESH by (intros I; apply (rp_pbelow _ _ _ R) in I; lia).
  assert (o < w_nports W1)%nat as OB by lia.
  split; [reflexivity|]. split; [reflexivity|]. split; [apply set_port_wle; [exact WL|lia]|]. split; [exact ON|]. split; [cbn; apply upd_same|].
  split; [|split; [exact RC|]].
  - exact (add_port_rep W1 nd D o p2 a R1 OB FRESH ST).
  - intros NU. assert (numbered W1 nd) as NU1.
    { destruct NU as [N1 N2]. destruct WL as (_ & _ & _ & PW). split; intros i x X; rewrite PW; auto;
        apply (rp_pbelow _ _ _ R); apply in_or_app; [left|right]; eapply nth_error_In; eauto. }
    exact (numbered_add W1 nd o p2 NU1 FRESH eq_refl).
Qed.

Lemma node_find_type W nd D nm o : represents W nd D -> node_find W nd nm = Some (FType o) -> In o (n_types nd) /\ dt_name (w_types W o) = nm.
Proof.
  intros R E. unfold node_find in E. destruct (find _ (n_types nd)) as [x|] eqn:F; [|unfold option_map in E; match type of E with match ?x with _ => _ end = _ => destruct x end; discriminate].
  injection E as <-. apply find_some in F as [A B]. apply opt_eqb_eq in B. auto.
Qed.
Lemma node_find_none W nd D nm : represents W nd D -> node_find W nd nm = None -> ~ In nm (type_names D).
Proof.
  intros R E I. unfold node_find in E. destruct (find _ (n_types nd)) as [x|] eqn:F; [discriminate|].
  apply In_nth_error in I as (i & I). destruct (Forall2_nth_r _ _ _ _ _ (rep_names _ _ _ R) I) as (o & O & N).
  apply find_none with (x := o) in F; [|eapply nth_error_In; eauto]. rewrite N, (proj2 (opt_eqb_eq nm nm) eq_refl) in F. discriminate.
Qed.
Lemma type_string_same W nd D other D2 o t i oo t2 : inv W nd D -> src W other D2 -> In o (n_types nd) -> nth_error (df_types D) i = Some t -> nth_error (n_types nd) i = Some o ->
  forall j, nth_error (n_types other) j = Some oo -> nth_error (df_types D2) j = Some t2 -> td_name t = td_name t2 ->
  verify_equal (type_string true (w_types W) (w_types W o)) (type_string true (w_types W) (w_types W oo)) = Ok tt -> same_type D2 D t2 t.
Proof.
  intros IN SR IO T O j OO T2 NM VE. pose proof (src_inv _ _ _ SR) as IN2.
  pose proof (inv_find _ _ _ IN) as FN. pose proof (inv_find _ _ _ IN2) as FN2.
  destruct IN as (R & L & CP & TT & US). destruct IN2 as (R2 & L2 & CP2 & TT2 & US2).
  destruct (Forall2_nth _ _ _ _ _ (rp_types _ _ _ R) O) as (t' & T' & N & A & ST). assert (t' = t) by congruence. subst t'.
  destruct (Forall2_nth _ _ _ _ _ (rp_types _ _ _ R2) OO) as (t' & T2' & N2 & A2 & ST2). assert (t' = t2) by congruence. subst t'.
  apply verify_equal_ok in VE as (x & V1 & V2). unfold type_string in V1, V2. inv_bind V1. inv_bind V2.
  rewrite (US o IO), N, A in V1. rewrite (US2 oo (nth_error_In _ _ OO)), N2, A2, <- NM in V2.
  pose proof (nth_error_In _ _ T) as IT. pose proof (nth_error_In _ _ T2) as IT2. destruct (TT t IT) as [_ TD]. destruct (TT2 t2 IT2) as [_ TD2].
  destruct (stands_text true _ _ _ FN (rep_names _ _ _ R) _ _ ST TD) as (_ & CL & _). destruct (elem_string_good _ _ _ CL _ Ha) as [NB _].
  destruct (stands_text true _ _ _ FN2 (rep_names _ _ _ R2) _ _ ST2 TD2) as (_ & CL2 & _). destruct (elem_string_good _ _ _ CL2 _ Ha0) as [NB2 _].
  assert (decl_string 84 (td_name t) a (td_attr t) = decl_string 84 (td_name t) a0 (td_attr t2)) as E by congruence.
  apply decl_string_inj in E as [<- EA]; auto. split; [exact NM|]. split; [exact EA|].
  eapply same_text_moved with (H := w_types W) (H2 := w_types W) (types := n_types nd) (types2 := n_types other); eauto.
  - apply rep_names. exact R.
  - apply rep_names. exact R2.
  - apply (ln_plain _ L). exact IT.
  - apply (ln_plain _ L2). exact IT2.
  - apply below_names. eapply below_more; [|eapply (ln_below _ L); eauto]. assert (i < length (df_types D))%nat; [apply nth_error_Some; congruence|lia].
Qed.

Lemma moved_port_more D2 D ts p q : moved_port D2 D p q -> moved_port D2 (plus_types D ts) p q.
Proof.
  intros (A & B & C & E). split; [exact A|]. split; [exact B|]. split; [|exact E]. intros IR. rewrite plus_types_names. apply moved_more. auto.
Qed.
Lemma port_obj W nd D o : represents W nd D -> In o (n_provide nd ++ n_require nd) ->
  exists pr p, port_is W (n_types nd) pr o p /\ In p (ports pr D) /\ In p (df_provide D ++ df_require D).
Proof.
  intros R I. apply in_app_or in I as [O|O]; apply In_nth_error in O as [i O].
  - destruct (Forall2_nth _ _ _ _ _ (rp_provide _ _ _ R) O) as (p & Pn & PI). apply nth_error_In in Pn. exists true, p.
    split; [exact PI|]. split; [exact Pn|]. apply in_or_app. auto.
  - destruct (Forall2_nth _ _ _ _ _ (rp_require _ _ _ R) O) as (p & Pn & PI). apply nth_error_In in Pn. exists false, p.
    split; [exact PI|]. split; [exact Pn|]. apply in_or_app. auto.
Qed.
Lemma port_obj_r W nd D p : represents W nd D -> In p (df_provide D ++ df_require D) ->
  exists pr o, port_is W (n_types nd) pr o p /\ In o (n_provide nd ++ n_require nd).
Proof.
  intros R I. apply in_app_or in I as [O|O]; apply In_nth_error in O as [i O].
  - destruct (Forall2_nth_r _ _ _ _ _ (rp_provide _ _ _ R) O) as (o & Pn & PI). apply nth_error_In in Pn. exists true, o. split; [exact PI|]. apply in_or_app. auto.
  - destruct (Forall2_nth_r _ _ _ _ _ (rp_require _ _ _ R) O) as (o & Pn & PI). apply nth_error_In in Pn. exists false, o. split; [exact PI|]. apply in_or_app. auto.
Qed.

(** What adding one port of the other node does. *)
Definition kept (D2 D : ndef) (pr : bool) (p2 : pdef) (W : world) (nd : node) (po : nat) (W' : world) (nd' : node) (o : nat) : Prop :=
  W' = W /\ nd' = nd /\ check_duplicate W (w_ports W po) (n_provide nd ++ n_require nd) = Ok (Some o) /\
  exists q, In q (ports pr D) /\ moved_port D2 D p2 q.
Definition added (D2 D D' : ndef) (pr : bool) (p2 : pdef) (W : world) (nd : node) (po : nat) (W' : world) (nd' : node) (o : nat) : Prop :=
  exists ts q, D' = plus_port pr (plus_types D ts) q /\ inv W' nd' D' /\ wle W W' /\
    Forall (fun t => exists i t2, needs D2 (pd_elem p2) i /\ nth_error (df_types D2) i = Some t2 /\ same_type D2 (plus_types D ts) t2 t) ts /\
    ~ In (pd_name p2) (port_names D) /\ moved_port D2 (plus_types D ts) p2 q /\ type_agrees D2 (plus_types D ts) p2 /\
    n_provide nd' = n_provide nd ++ (if pr then [o] else []) /\ n_require nd' = n_require nd ++ (if pr then [] else [o]) /\
    (numbered W nd -> numbered W' nd') /\
    check_duplicate W' (w_ports W' po) (n_provide nd' ++ n_require nd') = Ok (Some o).

Lemma inv_plus_port W nd D pr q : represents W nd (plus_port pr D q) -> linked D -> copyable D -> tidy_types D -> unshort W nd ->
  good_port D q -> is_ref (pd_elem q) \/ tidy true (pd_elem q) -> inv W nd (plus_port pr D q).
Proof.
  intros R L (CN & CP) TT US G T. split; [exact R|]. split; [apply linked_plus_port; assumption|]. split; [split|split].
  - destruct pr; exact CN.
  - intros p I. assert (p = q \/ In p (df_provide D ++ df_require D)) as [-> |J]; [|exact T|apply CP; exact J].
    destruct pr; cbn [plus_port df_provide df_require] in I; rewrite !in_app_iff in *; cbn in I; intuition.
  - destruct pr; exact TT.
  - exact US.
Qed.
Lemma dup_new W' p l l' o : filter (named_as W' (pt_name p)) (l ++ l') = [o] -> pt_name (w_ports W' o) = pt_name p ->
  pt_provide (w_ports W' o) = pt_provide p -> verify_equal (port_string true (w_types W') (w_ports W' o)) (port_string true (w_types W') p) = Ok tt ->
  check_duplicate W' p (l ++ l') = Ok (Some o).
Proof.
  intros F N P V. rewrite check_dup_filter, F. cbn [check_duplicate]. rewrite N, (proj2 (opt_eqb_eq _ _) eq_refl), P, Bool.eqb_reflx, V. reflexivity.
Qed.
Lemma filter_nil {A} (f : A -> bool) l : (forall x, In x l -> f x = false) -> filter f l = [].
Proof. induction l as [|x l IH]; intros H; [reflexivity|]. cbn [filter]. rewrite H by (left; reflexivity). apply IH. intros y Y. apply H. right. exact Y. Qed.
Lemma verify_equal_refl s t : s = Ok t -> verify_equal s s = Ok tt.
Proof. intros ->. unfold verify_equal. cbn [bind]. rewrite str_eqb_refl. reflexivity. Qed.

Lemma add_port_from_step fuel W nd D other D2 pr po p2 W' nd' o : inv W nd D -> src W other D2 ->
  In po (n_provide other ++ n_require other) -> In p2 (ports pr D2) -> port_is W (n_types other) pr po p2 ->
  add_port_from fuel W nd po = Ok (W', nd', o) ->
  kept D2 D pr p2 W nd po W' nd' o \/ exists D', added D2 D D' pr p2 W nd po W' nd' o.
Proof.
  intros IN SR IPO IP2 PI E. unfold add_port_from in E. inv_bind E. rename a into dup. rename Ha into CD.
  assert (In p2 (df_provide D2 ++ df_require D2)) as IP by (destruct pr; apply in_or_app; auto).
  assert (po < w_nports W)%nat as POB by (apply (rp_pbelow _ _ _ (proj1 SR)); exact IPO).
  destruct dup as [x|].
  - left. injection E as <- <- <-. split; [reflexivity|]. split; [reflexivity|]. split; [exact CD|].
    apply check_dup_some in CD as (IX & N & PV & VE). destruct (port_obj _ _ _ _ (proj1 IN) IX) as (pr' & q & PQ & IQ & IQ').
    assert (pr' = pr) as -> by (destruct PI as (A & _); destruct PQ as (B & _); congruence). exists q. split; [exact IQ|].
    apply (same_port_text W nd D other D2 pr x q po p2); auto. destruct PI as (_ & A & _). destruct PQ as (_ & B & _). congruence.
  - right. inv_bind E. rename a into p'. rename Ha into CP. inv_bind E. destruct a as [[W1 nd1] p1]. rename Ha into TY.
    destruct (new_port W1 p1) as [W2 on] eqn:NP. inv_bind E. destruct a as [W3 nd3]. injection E as <- <- <-. rename Ha into AP.
    pose proof SR as (R2 & L2 & C2 & TT2 & TG2).
    destruct (copy_port_ok W other D2 pr (pt_provide (w_ports W po)) po p2 R2 L2 TG2 C2 IP PI) as (q' & CQ & Q1 & Q2 & Q3 & Q4 & Q5 & Q6).
    unfold clone_port in CP. rewrite CQ in CP. injection CP as <-.
    destruct PI as (PI1 & PI2 & PI3 & PI4). rewrite PI1 in Q1. destruct (ln_ports _ L2 p2 IP) as (G1 & G2 & G3 & G4).
    (* the type *)
    assert (exists ts a, grown D2 (needs D2 (pd_elem p2)) (length (df_types D2)) W nd D W1 nd1 ts /\ pt_provide p1 = pr /\ pt_name p1 = pd_name p2 /\ pt_attr p1 = pd_attr p2 /\
      port_stands (n_types nd1) (pt_elem p1) a /\ moved_port D2 (plus_types D ts) p2 (mk_pdef (pd_name p2) a (pd_attr p2)) /\ type_agrees D2 (plus_types D ts) p2 /\
      (exists s, elem_string true (w_types W1) (pt_elem p1) = Ok s /\ elem_string true (w_types W1) (pt_elem (w_ports W po)) = Ok s) /\
      (is_ref a -> below (length (df_types (plus_types D ts))) a) /\ nameless a = a) as (ts & a & GR & PP & PN & PA & PS & MP & TA & (sg & SG1 & SG2) & BL & NL).
    { inversion PI4 as [n r x ST E1 E2|x NR E1 E2].
      - rewrite <- E1 in TY. assert (is_ref (pd_elem p2)) as IR by (apply (stands_ref _ _ _ ST); exact I).
        destruct Q6 as [(Q7 & Q8 & Q9)|(Q7 & Q8)]; [|rewrite Q8 in IR; contradiction].
        inversion ST as [|n' oo i OO E3 E4|]. subst r.
        assert (n = None) as -> by (rewrite <- E4 in G3; cbn in G3; congruence).
        assert (exists r', pt_elem q' = DRef None r') as (r' & QE). { rewrite <- E4 in Q8. inversion Q8; subst; eauto. }
        inv_bind TY. destruct a as [[Wa nda] oa]. injection TY as <- <- <-. rename Ha into TY.
        destruct (Forall2_nth _ _ _ _ _ (rp_types _ _ _ R2) OO) as (t2 & T2 & N2 & _).
        assert (exists ts k, grown D2 (needs D2 (pd_elem p2)) (length (df_types D2)) W nd D Wa nda ts /\ nth_error (n_types nda) k = Some oa /\
          dt_name (w_types Wa oa) = td_name t2 /\ exists t, In t (df_types (plus_types D ts)) /\ same_type D2 (plus_types D ts) t2 t) as (ts & k & GR & K & KN & t & IT & TS).
        { rewrite N2 in TY. destruct (node_find W nd (td_name t2)) as [[of|of]|] eqn:NF.
          - destruct (node_find_type _ _ _ _ _ (proj1 IN) NF) as [IOF NOF]. inv_bind TY. injection TY as <- <- <-. destruct a.
            apply In_nth_error in IOF as (k & K). exists [], k. rewrite plus_types_nil. split; [apply grown_refl; exact IN|]. split; [exact K|]. split; [exact NOF|].
            destruct (Forall2_nth _ _ _ _ _ (rp_types _ _ _ (proj1 IN)) K) as (t & T & NT & _). exists t. split; [eapply nth_error_In; eauto|].
            eapply type_string_same; eauto; [eapply nth_error_In; eauto|congruence].
          - inv_bind TY. discriminate.
          - pose proof (node_find_none _ _ _ _ (proj1 IN) NF) as NI.
            assert (needs D2 (pd_elem p2) i) as NE2 by (eapply ne_here; symmetry; exact E4).
            destruct (add_type_from_adds other D2 _ (ne_next D2 (pd_elem p2)) fuel W nd D oo i t2 Wa nda oa IN SR OO T2 NE2 TY) as (ts & G & H). destruct (H NI) as (H1 & H2 & t & H3 & H4).
            apply In_nth_error in H1 as (k & K). exists ts, k.
            assert (i < length (df_types D2))%nat as IB by (apply nth_error_Some; congruence).
            split; [eapply grown_upto; [|exact G]; lia|]. split; [exact K|]. split; [exact H2|]. exists t. split; [apply in_or_app; right; exact H3|].
            destruct G as (_ & _ & _ & _ & _ & _ & FR). rewrite Forall_forall in FR. destruct (FR t H3) as (j & u & J & U & S & _).
            assert (nth_error (type_names D2) j = Some (td_name t2)) as X by (unfold type_names; rewrite nth_error_map, U; cbn; destruct S as (S & _); congruence).
            assert (nth_error (type_names D2) i = Some (td_name t2)) as Y by (unfold type_names; rewrite nth_error_map, T2; reflexivity).
            pose proof (nodup_nth _ _ _ _ (ln_names _ L2) X Y). subst j. assert (u = t2) by congruence. subst u. exact S. }
        assert (nth_error (type_names (plus_types D ts)) k = Some (td_name t2)) as KK.
        { destruct GR as ((Ra & _) & _). destruct (Forall2_nth _ _ _ _ _ (rep_names _ _ _ Ra) K) as (nm & NM & X). congruence. }
        exists ts, (DRef None (RInt (Z.of_nat k))). cbn [with_pelem pt_provide pt_name pt_attr pt_elem]. rewrite QE. cbn [set_ref].
        split; [rewrite ?E4; exact GR|]. split; [exact Q1|]. split; [exact Q2|]. split; [exact Q3|]. split; [constructor; constructor; exact K|]. split.
        { split; [reflexivity|]. split; [reflexivity|]. split; [|contradiction]. intros _. cbn [pd_elem]. rewrite <- E4. econstructor; [|exact KK].
          unfold type_names. rewrite nth_error_map, T2. reflexivity. }
        split.
        { intros n j u EJ U. rewrite <- E4 in EJ. injection EJ as _ EJ. apply Nat2Z.inj in EJ. subst j. assert (u = t2) by congruence. subst u. exists t. auto. }
        split.
        { eexists. split; [cbn [elem_string]; reflexivity|]. cbn [elem_string]. rewrite KN. destruct GR as (_ & WL & _).
          destruct WL as (_ & _ & WT & _). rewrite WT by (apply (rp_tbelow _ _ _ R2); eapply nth_error_In; eauto). rewrite N2. reflexivity. }
        split; [|reflexivity]. intros _. constructor. apply nth_error_Some.
        unfold type_names in KK. rewrite nth_error_map in KK. destruct (nth_error (df_types (plus_types D ts)) k); [discriminate|discriminate KK].
      - assert (~ is_ref (pd_elem p2)) as NR2 by (rewrite <- E2; exact NR).
        destruct Q6 as [(Q7 & Q8 & _)|(Q7 & Q8)]; [exfalso; apply NR2; apply (refers_ref _ _ _ Q8); exact Q7|].
        assert (W1 = W /\ nd1 = nd /\ p1 = q') as (-> & -> & ->).
        { destruct (pt_elem (w_ports W po)); [| |exfalso; apply NR; exact I]; injection TY as <- <- <-; auto. }
        exists [], (pd_elem p2). rewrite plus_types_nil. split; [apply grown_refl; exact IN|].
        split; [exact Q1|]. split; [exact Q2|]. split; [exact Q3|]. split; [rewrite Q8; constructor; exact Q7|]. split.
        { unfold moved_port. cbn [pd_name pd_attr pd_elem]. repeat split; auto; contradiction. }
        split; [intros n j u EJ; exfalso; apply NR2; rewrite EJ; exact I|]. split.
        { assert (port_is W (n_types other) pr po p2) as PI0 by (repeat split; assumption).
          destruct (port_sig W other D2 pr po p2 (src_inv _ _ _ SR) IP PI0) as (s & e & S1 & _). exists s.
          rewrite <- Q8, <- E2. auto. }
        split; [contradiction|exact G3]. }
    (* the port *)
    destruct GR as (IN1 & WL1 & NP1 & PO1 & PV1 & PR1 & FR1). pose proof IN1 as (R1 & L1 & C1 & TT1 & US1).
    destruct (add_fresh_port W1 nd1 _ p1 W2 on W3 nd3 a R1 PS NP AP) as (W3E & ND3 & WL3 & ONE & ONP & R3 & RC & NU3). rewrite PP, PN, PA in *.
    set (q := mk_pdef (pd_name p2) a (pd_attr p2)) in *.
    assert (unshort W3 nd3) as US3.
    { intros x X. rewrite ND3 in X. assert (In x (n_types nd1)) as X' by (destruct pr; exact X).
      destruct WL3 as (_ & _ & WT & _). rewrite WT by (apply (rp_tbelow _ _ _ R1); exact X'). apply US1. exact X'. }
    assert (good_port (plus_types D ts) q) as GQ.
    { destruct MP as (_ & _ & M1 & M2). cbn [pd_elem q] in *. split; [|split; [|split]]; cbn [pd_elem pd_attr q].
      - intros IR. split; [apply BL; exact IR|apply RC; exact IR].
      - intros NR. destruct (is_reference (pd_elem p2)) eqn:IR.
        + exfalso. apply NR. apply is_ref_bool in IR. apply (moved_ref _ _ _ _ (M1 IR)). exact IR.
        + apply is_ref_false in IR. rewrite (M2 IR). apply G2. exact IR.
      - exact NL.
      - exact G4. }
    assert (is_ref (pd_elem q) \/ tidy true (pd_elem q)) as TQ.
    { destruct MP as (_ & _ & M1 & M2). destruct (is_reference (pd_elem p2)) eqn:IR.
      - apply is_ref_bool in IR. left. apply (moved_ref _ _ _ _ (M1 IR)). exact IR.
      - apply is_ref_false in IR. rewrite (M2 IR). apply (proj2 C2 p2 IP). }
    exists (plus_port pr (plus_types D ts) q). exists ts, q. split; [reflexivity|]. split; [apply inv_plus_port; assumption|].
    assert (wle W W3) as WL by (eapply wle_trans; eauto). split; [exact WL|]. split.
    { eapply Forall_impl; [|exact FR1]. intros t (j & u & _ & U & S & N). exists j, u. auto. }
    assert (forall x, In x (n_provide nd ++ n_require nd) -> pt_name (w_ports W x) <> pd_name p2) as NODUP.
    { intros x X. rewrite <- PI2. exact (check_dup_none _ _ _ CD x X). }
    split.
    { intros I. unfold port_names in I. apply in_map_iff in I as (q0 & NQ & IQ). destruct (port_obj_r _ _ _ _ (proj1 IN) IQ) as (pr0 & x & PX & IX).
      apply (NODUP x IX). destruct PX as (_ & PX & _). congruence. }
    split; [exact MP|]. split; [exact TA|].
    assert (n_provide nd3 = n_provide nd ++ (if pr then [on] else []) /\ n_require nd3 = n_require nd ++ (if pr then [] else [on])) as [PV3 PR3].
    { rewrite ND3. destruct pr; cbn [with_port n_provide n_require]; rewrite ?PV1, ?PR1, ?app_nil_r; auto. }
    split; [exact PV3|]. split; [exact PR3|]. split.
    { intros [N1 N2]. apply NU3. split; intros i x X; rewrite PO1; [apply N1|apply N2]; congruence. }
    assert (w_ports W3 po = w_ports W po) as PO3 by (destruct WL as (_ & _ & _ & WP); apply WP; exact POB). rewrite PO3.
    apply dup_new; rewrite ?ONP; cbn [with_pid pt_name pt_provide].
    + rewrite PV3, PR3, PI2. assert (named_as W3 (pd_name p2) on = true) as NO by (unfold named_as; rewrite ONP; cbn [with_pid pt_name]; rewrite PN; apply opt_eqb_eq; reflexivity).
      assert (forall x, In x (n_provide nd ++ n_require nd) -> named_as W3 (pd_name p2) x = false) as NX.
      { intros x X. unfold named_as. destruct WL as (_ & _ & _ & WP). rewrite WP by (apply (rp_pbelow _ _ _ (proj1 IN)); exact X).
        destruct (opt_eqb _ _) eqn:Y; [|reflexivity]. apply opt_eqb_eq in Y. exfalso. apply (NODUP x X Y). }
      rewrite !filter_app. rewrite (filter_nil _ (n_provide nd)) by (intros x X; apply NX; apply in_or_app; auto).
      rewrite (filter_nil _ (n_require nd)) by (intros x X; apply NX; apply in_or_app; auto). destruct pr; cbn [filter app]; rewrite NO; reflexivity.
    + congruence.
    + congruence.
    + assert (w_types W3 = w_types W1) as T31 by (rewrite W3E; unfold new_port in NP; injection NP as <- _; reflexivity). rewrite T31.
      unfold port_string. cbn [with_pid pt_elem pt_name pt_attr pt_provide]. rewrite SG1, SG2. cbn [bind]. rewrite PP, PN, PA, PI1, PI2, PI3.
      eapply verify_equal_refl. reflexivity.
Qed.

Lemma port_text_wle W W' nd D pr o p : wle W W' -> inv W nd D -> In p (df_provide D ++ df_require D) -> port_is W (n_types nd) pr o p ->
  port_string true (w_types W') (w_ports W o) = port_string true (w_types W) (w_ports W o).
Proof.
  intros WL IN IP (_ & _ & _ & PS). assert (elem_string true (w_types W') (pt_elem (w_ports W o)) = elem_string true (w_types W) (pt_elem (w_ports W o))) as E.
  { destruct IN as (R & L & _). inversion PS as [m r a ST E1 E2|e NR E1 E2].
    - assert (stands (n_types nd) (DRef m r) (pd_elem p)) as ST' by exact ST. rewrite E1 in *. eapply stands_same_text; [|exact ST|exact ST].
      destruct WL as (_ & _ & WT & _). apply nth_forall2; [reflexivity|]. intros i x y X Y. assert (x = y) by congruence. subst y. rewrite WT; [auto|].
      apply (rp_tbelow _ _ _ R). eapply nth_error_In; eauto.
    - apply parsed_text. rewrite E2. destruct (ln_ports _ L p IP) as (_ & G2 & _). apply G2. rewrite <- E2. exact NR. }
  unfold port_string. rewrite E. reflexivity.
Qed.
Lemma check_dup_ext W W' p l : port_string true (w_types W') p = port_string true (w_types W) p ->
  (forall x, In x l -> w_ports W' x = w_ports W x /\ port_string true (w_types W') (w_ports W x) = port_string true (w_types W) (w_ports W x)) ->
  check_duplicate W' p l = check_duplicate W p l.
Proof.
  intros P. induction l as [|x l IH]; intros H; [reflexivity|]. cbn [check_duplicate]. destruct (H x (or_introl eq_refl)) as [-> ->]. rewrite P.
  rewrite IH by (intros y Y; apply H; right; exact Y). reflexivity.
Qed.

(** A port that was found before is still found after another one was added. *)
Definition holds (W : world) (nd : node) (po o : nat) : Prop := check_duplicate W (w_ports W po) (n_provide nd ++ n_require nd) = Ok (Some o).
Lemma added_holds W nd D other D2 pr p2 po W' nd' o D' po0 o0 : inv W nd D -> src W other D2 -> added D2 D D' pr p2 W nd po W' nd' o ->
  In po (n_provide other ++ n_require other) -> pt_name (w_ports W po) = pd_name p2 ->
  In po0 (n_provide other ++ n_require other) -> holds W nd po0 o0 -> holds W' nd' po0 o0.
Proof.
  intros IN SR (ts & q & -> & IN' & WL & _ & NI & MP & _ & PV & PR & _ & CD) IPO PN IPO0 H. pose proof WL as (_ & _ & _ & WP).
  pose proof (src_inv _ _ _ SR) as IN2. unfold holds in *.
  rewrite WP by (apply (rp_pbelow _ _ _ (proj1 IN2)); exact IPO0).
  pose proof (check_dup_some _ _ _ _ H) as (I0 & N0 & _).
  destruct (port_obj _ _ _ _ (proj1 IN) I0) as (pr0 & q0 & PQ0 & _ & IQ0).
  assert (pt_name (w_ports W po0) <> pd_name p2) as NE.
  { intros X. apply NI. unfold port_names. rewrite <- X, <- N0. destruct PQ0 as (_ & -> & _). apply in_map. exact IQ0. }
  assert (pt_name (w_ports W' o) = pd_name p2) as NO.
  { destruct (check_dup_some _ _ _ _ CD) as (_ & -> & _). rewrite WP by (apply (rp_pbelow _ _ _ (proj1 IN2)); exact IPO). exact PN. }
  rewrite check_dup_filter, PV, PR, !filter_app. assert (named_as W' (pt_name (w_ports W po0)) o = false) as NN.
  { unfold named_as. rewrite NO. destruct (opt_eqb _ _) eqn:X; [|reflexivity]. apply opt_eqb_eq in X. congruence. }
  assert (filter (named_as W' (pt_name (w_ports W po0))) (if pr then [o] else []) = [] /\ filter (named_as W' (pt_name (w_ports W po0))) (if pr then [] else [o]) = []) as [-> ->].
  { destruct pr; cbn [filter]; rewrite NN; auto. }
  rewrite !app_nil_r, <- filter_app, <- check_dup_filter. rewrite <- H. apply check_dup_ext.
  - destruct (port_obj _ _ _ _ (proj1 IN2) IPO0) as (pr1 & q1 & PQ1 & _ & IQ1). exact (port_text_wle W W' other D2 pr1 po0 q1 WL IN2 IQ1 PQ1).
  - intros x X. split; [apply WP; apply (rp_pbelow _ _ _ (proj1 IN)); exact X|].
    destruct (port_obj _ _ _ _ (proj1 IN) X) as (pr1 & q1 & PQ1 & _ & IQ1). exact (port_text_wle W W' nd D pr1 x q1 WL IN IQ1 PQ1).
Qed.

(** ** All the ports *)

Definition ext (D D' : ndef) : Prop := exists ts, df_types D' = df_types D ++ ts.
Lemma ext_names D D' : ext D D' -> exists l, type_names D' = type_names D ++ l.
Proof. intros (ts & E). exists (map td_name ts). unfold type_names. rewrite E. apply map_app. Qed.
Lemma ext_same_type D2 D D' t2 t : ext D D' -> same_type D2 D t2 t -> same_type D2 D' t2 t.
Proof. intros X (A & B & C). apply ext_names in X as (l & X). split; [exact A|]. split; [exact B|]. rewrite X. apply moved_more. exact C. Qed.
Lemma ext_moved_port D2 D D' p q : ext D D' -> moved_port D2 D p q -> moved_port D2 D' p q.
Proof.
  intros X (A & B & C & E). apply ext_names in X as (l & X). split; [exact A|]. split; [exact B|]. split; [|exact E]. intros IR. rewrite X. apply moved_more. auto.
Qed.
Lemma ext_agrees D2 D D' p : ext D D' -> type_agrees D2 D p -> type_agrees D2 D' p.
Proof.
  intros X A n i t2 E T. destruct (A n i t2 E T) as (t & I & S). exists t. split; [|eapply ext_same_type; eauto].
  destruct X as (ts & ->). apply in_or_app. auto.
Qed.
Lemma ports_plus_port pr pr' D q : ports pr' (plus_port pr D q) = ports pr' D ++ (if Bool.eqb pr' pr then [q] else []).
Proof. destruct pr, pr'; cbn; rewrite ?app_nil_r; reflexivity. Qed.
Lemma port_names_plus pr D q n : In n (port_names (plus_port pr D q)) <-> n = pd_name q \/ In n (port_names D).
Proof.
  unfold port_names. destruct pr; cbn [plus_port df_provide df_require]; rewrite !map_app, !in_app_iff; cbn; intuition congruence.
Qed.

Definition loop (D2 D D' : ndef) (lp : list (bool * pdef)) : Prop :=
  df_name D' = df_name D /\
  (exists ts, df_types D' = df_types D ++ ts /\ forall t, In t ts -> exists pr p i t2, In (pr, p) lp /\ ~ In (pd_name p) (port_names D) /\
    needs D2 (pd_elem p) i /\ nth_error (df_types D2) i = Some t2 /\ same_type D2 D' t2 t) /\
  (exists new : bool -> list pdef, (forall pr, ports pr D' = ports pr D ++ new pr) /\ NoDup (map pd_name (new true ++ new false)) /\
    forall pr q, In q (new pr) -> ~ In (pd_name q) (port_names D) /\ exists p, In (pr, p) lp /\ moved_port D2 D' p q /\ type_agrees D2 D' p) /\
  (forall pr p, In (pr, p) lp -> exists q, In q (ports pr D') /\ moved_port D2 D' p q).

Lemma add_ports_from_loop fuel other D2 l lp : forall W nd D W' nd', inv W nd D -> src W other D2 ->
  Forall2 (fun o x => In o (n_provide other ++ n_require other) /\ In (snd x) (ports (fst x) D2) /\ port_is W (n_types other) (fst x) o (snd x)) l lp ->
  add_ports_from fuel W nd l = Ok (W', nd') ->
  exists D', inv W' nd' D' /\ wle W W' /\ loop D2 D D' lp /\ (numbered W nd -> numbered W' nd') /\
    Forall (fun po => exists o, holds W' nd' po o) l /\
    (forall po0 o0, In po0 (n_provide other ++ n_require other) -> holds W nd po0 o0 -> holds W' nd' po0 o0).
Proof.
  revert lp. induction l as [|po l IH]; intros lp W nd D W' nd' IN SR F E; inversion F as [|po' [pr p2] l' lp' (IPO & IP2 & PI) F']; subst; cbn [add_ports_from] in E.
  - injection E as <- <-. exists D. split; [exact IN|]. split; [apply wle_refl|]. split; [|split; [auto|split; [constructor|auto]]].
    split; [reflexivity|]. split; [exists []; split; [symmetry; apply app_nil_r|intros t []]|]. split; [|intros pr p []].
    exists (fun _ => []). split; [intros pr; symmetry; apply app_nil_r|]. split; [constructor|intros pr q []].
  - inv_bind E. destruct a as [[W1 nd1] o1]. cbn [fst snd] in *.
    destruct (add_port_from_step _ _ _ _ _ _ _ _ _ _ _ _ IN SR IPO IP2 PI Ha) as [(-> & -> & CD & q & IQ & MQ)|(D1 & AD)].
    + destruct (IH _ _ _ _ _ _ IN SR F' E) as (D' & IN' & WL & (L1 & (ts & L2 & L2') & (new & L3 & L3' & L3'') & L4) & NU & HO & HK).
      exists D'. split; [exact IN'|]. split; [exact WL|]. split; [|split; [exact NU|split; [|exact HK]]].
      * split; [exact L1|]. split; [exists ts; split; [exact L2|]; intros t T; destruct (L2' t T) as (pr0 & p0 & i & t2 & A & B); exists pr0, p0, i, t2; split; [right; exact A|exact B]|]. split.
        -- exists new. split; [exact L3|]. split; [exact L3'|]. intros pr0 q0 Q0. destruct (L3'' _ _ Q0) as (A & p & B & C). split; [exact A|]. exists p. split; [right; exact B|exact C].
        -- intros pr0 p0 [X|X]; [|apply L4; exact X]. injection X as <- <-. exists q. split; [rewrite L3; apply in_or_app; auto|].
           eapply ext_moved_port; [exists ts; exact L2|exact MQ].
      * constructor; [|exact HO]. exists o1. apply HK; auto.
    + pose proof AD as (ts1 & q1 & ED1 & IN1 & WL1 & FT & NI & MP & TA & PV & PR & NU1 & CD).
      pose proof (src_wle _ _ _ _ WL1 SR) as SR1. pose proof PI as (PI1 & PI2 & PI3 & PI4).
      assert (Forall2 (fun o x => In o (n_provide other ++ n_require other) /\ In (snd x) (ports (fst x) D2) /\ port_is W1 (n_types other) (fst x) o (snd x)) l lp') as F1.
      { eapply Forall2_imp; [|exact F']. intros o x _ _ (A & B & C). split; [exact A|]. split; [exact B|]. unfold port_is in *.
        destruct WL1 as (_ & _ & _ & WP). rewrite WP; [exact C|]. apply (rp_pbelow _ _ _ (proj1 SR)). exact A. }
      destruct (IH _ _ _ _ _ _ IN1 SR1 F1 E) as (D' & IN' & WL & (L1 & (ts & L2 & L2') & (new & L3 & L3' & L3'') & L4) & NU & HO & HK).
      assert (ext D1 D') as X1 by (exists ts; exact L2).
      assert (df_types D1 = df_types D ++ ts1) as TD1 by (rewrite ED1; destruct pr; reflexivity).
      assert (ext (plus_types D ts1) D') as X0 by (exists ts; rewrite L2, TD1; reflexivity).
      exists D'. split; [exact IN'|]. split; [eapply wle_trans; eauto|]. split; [|split; [auto|split]].
      * split; [rewrite L1, ED1; destruct pr; reflexivity|]. split.
        { exists (ts1 ++ ts). split; [rewrite L2, TD1; symmetry; apply app_assoc|]. intros t T. apply in_app_or in T as [T|T].
          - rewrite Forall_forall in FT. destruct (FT t T) as (i & t2 & N & T2 & S). exists pr, p2, i, t2. split; [left; reflexivity|]. split; [exact NI|]. split; [exact N|].
            split; [exact T2|]. eapply ext_same_type; eauto.
          - destruct (L2' t T) as (pr0 & p0 & i & t2 & A & B & C). exists pr0, p0, i, t2. split; [right; exact A|]. split; [|exact C].
            intros X. apply B. rewrite ED1. apply port_names_plus. auto. }
        split.
        { exists (fun pr' => (if Bool.eqb pr' pr then [q1] else []) ++ new pr'). split; [|split].
          - intros pr'. rewrite L3, ED1, ports_plus_port. rewrite <- app_assoc. destruct pr'; reflexivity.
          - assert (NoDup (map pd_name (q1 :: new true ++ new false))) as ND.
            { cbn [map]. constructor; [|exact L3']. intros I. apply in_map_iff in I as (q & NQ & IQ).
              assert (exists pr', In q (new pr')) as (pr' & IQ') by (apply in_app_or in IQ as [IQ|IQ]; eauto).
              destruct (L3'' _ _ IQ') as (A & _). apply A. rewrite ED1. apply port_names_plus. left. congruence. }
            eapply Permutation_NoDup; [|exact ND]. apply Permutation_map. destruct pr; cbn [Bool.eqb app]; [reflexivity|]. apply Permutation_middle.
          - intros pr' q Q. apply in_app_or in Q as [Q|Q].
            + destruct (Bool.eqb pr' pr) eqn:EB; [|destruct Q]. apply Bool.eqb_prop in EB. subst pr'. destruct Q as [<- |[]].
              split; [destruct MP as (-> & _); exact NI|]. exists p2. split; [left; reflexivity|]. split; [eapply ext_moved_port; eauto|eapply ext_agrees; eauto].
            + destruct (L3'' _ _ Q) as (A & p & B & C). split; [intros X; apply A; rewrite ED1; apply port_names_plus; auto|]. exists p. split; [right; exact B|exact C]. }
        intros pr' p [X|X]; [|apply L4; exact X]. injection X as <- <-. exists q1. split; [|eapply ext_moved_port; eauto].
        rewrite L3, ED1, ports_plus_port, Bool.eqb_reflx. apply in_or_app. left. apply in_or_app. right. left. reflexivity.
      * constructor; [|exact HO]. exists o1. apply HK; [exact IPO|exact CD].
      * intros po0 o0 I0 H0. apply HK; [exact I0|]. exact (added_holds _ _ _ _ _ _ _ _ _ _ _ _ _ _ IN SR AD IPO PI2 I0 H0).
Qed.
Lemma held_unchanged fuel W nd l : Forall (fun po => exists o, holds W nd po o) l -> add_ports_from fuel W nd l = Ok (W, nd).
Proof.
  induction 1 as [|po l (o & H) F IH]; [reflexivity|]. cbn [add_ports_from]. unfold add_port_from. unfold holds in H. rewrite H. cbn [bind]. exact IH.
Qed.

Lemma paired W types D2 O pr l m : Forall2 (port_is W types pr) l m -> (forall q, In q m -> In q (ports pr D2)) -> (forall o, In o l -> In o O) ->
  Forall2 (fun o x => In o O /\ In (snd x) (ports (fst x) D2) /\ port_is W types (fst x) o (snd x)) l (map (pair pr) m).
Proof.
  induction 1 as [|x y l m X F IH]; intros HI HO; [constructor|]. cbn [map]. constructor; [|apply IH; intros; [apply HI|apply HO]; right; assumption]. cbn [fst snd].
  split; [apply HO; left; reflexivity|]. split; [apply HI; left; reflexivity|exact X].
Qed.
Lemma extend_rep fuel W nd D other D2 W' nd' : inv W nd D -> src W other D2 -> extend fuel W nd other = Ok (W', nd') ->
  exists D', merged D D2 D' /\ inv W' nd' D' /\ wle W W' /\ (numbered W nd -> numbered W' nd') /\ extend fuel W' nd' other = Ok (W', nd').
Proof.
  intros IN SR E. unfold extend in E. pose proof SR as (R2 & _).
  destruct (add_ports_from_loop fuel other D2 (n_require other ++ n_provide other) (map (pair false) (df_require D2) ++ map (pair true) (df_provide D2)) W nd D W' nd' IN SR) as (D' & IN' & WL & (L1 & L2 & (new & L3 & L3' & L3'') & L4) & NU & HO & _); [|exact E|].
  - apply Forall2_app.
    + apply paired; [exact (rp_require _ _ _ R2)|auto|intros; apply in_or_app; auto].
    + apply paired; [exact (rp_provide _ _ _ R2)|auto|intros; apply in_or_app; auto].
  - assert (forall pr p, In (pr, p) (map (pair false) (df_require D2) ++ map (pair true) (df_provide D2)) <-> In p (ports pr D2)) as LP.
    { intros pr p. rewrite in_app_iff, !in_map_iff. unfold ports. split.
      - intros [(x & X & I)|(x & X & I)]; injection X as <- <-; exact I.
      - intros I. destruct pr; [right|left]; eauto. }
    exists D'. split; [|split; [exact IN'|split; [exact WL|split; [exact NU|]]]].
    + constructor; [exact L1| | |].
      * destruct L2 as (ts & L2 & L2'). exists ts. split; [exact L2|]. intros t T. destruct (L2' t T) as (pr & p & i & t2 & A & B). exists pr, p, i, t2. split; [apply LP; exact A|exact B].
      * exists new. split; [exact L3|]. split; [exact L3'|]. intros pr q Q. destruct (L3'' _ _ Q) as (A & p & B & C). split; [exact A|]. exists p. split; [apply LP; exact B|exact C].
      * intros pr p I. apply L4. apply LP. exact I.
    + unfold extend. apply held_unchanged. exact HO.
Qed.

(** ** Types that are added have no ids *)
Definition noids (W : world) (nd : node) : Prop := forall o, In o (n_types nd) -> dt_id (w_types W o) = None /\ (o < w_ntypes W)%nat.
Lemma make_type_id n s a d : make_type n s a = Ok d -> dt_id d = None.
Proof. unfold make_type. intros E. inv_bind E. destruct a as [t|]; [inv_bind E|]; injection E as <-; reflexivity. Qed.
Lemma noids_add_type W nd d W1 o W2 nd2 o2 : noids W nd -> dt_id d = None -> new_type W d = (W1, o) -> add_type W1 nd o = Ok (W2, nd2, o2) -> noids W2 nd2.
Proof.
  intros N D E A. unfold new_type in E. injection E as <- <-. unfold add_type in A. cbn [w_types] in A.
  destruct (map_find _ _) eqn:F.
  - inv_bind A. injection A as <- <- <-. intros x X. destruct (N x X) as [P Q]. cbn. rewrite upd_other by lia. split; [exact P|lia].
  - inv_bind A. destruct a as [e u]. injection A as <- <- <-. intros x X. cbn in X. apply in_app_or in X as [X|[<- |[]]].
    + destruct (N x X) as [P Q]. cbn. rewrite !upd_other by lia. split; [exact P|lia].
    + cbn. rewrite !upd_same. split; [exact D|lia].
Qed.
Lemma noids_add_type_from k : forall W nd o W' nd' o', noids W nd -> add_type_from k W nd o = Ok (W', nd', o') -> noids W' nd'.
Proof.
  induction k as [|k IH]; intros W nd o W' nd' o' N E; [discriminate|]. cbn [add_type_from] in E. inv_bind E. destruct a as [Wm ndm].
  assert (noids Wm ndm) as NM.
  { destruct (dt_elem (w_types W o)) as [|n es|]; [injection Ha as <- <-; exact N| |discriminate].
    revert W nd N Ha. clear E. induction es as [|e es IHe]; intros W nd N F; cbn [fold_left] in F; [injection F as <- <-; exact N|].
    cbn [bind] in F. destruct e as [|m es'|m [s|i|x]].
    - eapply IHe; eauto.
    - eapply IHe; eauto.
    - match type of F with fold_left _ _ (Err ?x) = _ => change (fold_left (member_step k) es (Err x) = Ok (Wm, ndm)) in F end. rewrite member_err in F. discriminate.
    - match type of F with fold_left _ _ (Err ?x) = _ => change (fold_left (member_step k) es (Err x) = Ok (Wm, ndm)) in F end. rewrite member_err in F. discriminate.
    - destruct (add_type_from k W nd x) as [[[Wx ndx] ox]|er] eqn:X.
      + cbn [bind] in F. eapply IHe; [|exact F]. eapply IH; eauto.
      + cbn [bind] in F. match type of F with fold_left _ _ (Err ?x) = _ => change (fold_left (member_step k) es (Err x) = Ok (Wm, ndm)) in F end. rewrite member_err in F. discriminate. }
  inv_bind E. destruct (new_type Wm a) as [W1 on] eqn:NT. inv_bind E. destruct a0 as [[W2 nd2] o2]. injection E as <- <- _.
  eapply noids_add_type; [exact NM| |exact NT|exact Ha1]. unfold clone_type in Ha0. inv_bind Ha0. eapply make_type_id; eauto.
Qed.
Lemma noids_add_port_from k W nd o W' nd' o' : noids W nd -> add_port_from k W nd o = Ok (W', nd', o') -> noids W' nd'.
Proof.
  intros N E. unfold add_port_from in E. inv_bind E. destruct a as [x|]; [injection E as <- <- <-; exact N|]. inv_bind E. inv_bind E. destruct a0 as [[W1 nd1] p1].
  assert (noids W1 nd1) as N1.
  { destruct (pt_elem (w_ports W o)) as [| |m [s|i|t]]; try (injection Ha1 as <- <- <-; exact N); try discriminate.
    inv_bind Ha1. destruct a0 as [[W2 nd2] o2]. injection Ha1 as <- <- _. destruct (node_find _ _ _) as [[x|x]|].
    - inv_bind Ha2. injection Ha2 as <- <- _. exact N.
    - inv_bind Ha2. discriminate.
    - eapply noids_add_type_from; eauto. }
  unfold new_port in E. cbn in E. inv_bind E. destruct a0 as [W3 nd3]. injection E as <- <- _.
  destruct (add_port_shape _ _ _ _ _ Ha2) as (p' & _ & -> & ->). intros x X. assert (In x (n_types nd1)) as X' by (unfold with_port in X; destruct (pt_provide _); exact X).
  exact (N1 x X').
Qed.
Lemma noids_extend k W nd other W' nd' : noids W nd -> extend k W nd other = Ok (W', nd') -> noids W' nd'.
Proof.
  unfold extend. generalize (n_require other ++ n_provide other) as l. intros l. revert W nd. induction l as [|o l IH]; intros W nd N E; cbn [add_ports_from] in E.
  - injection E as <- <-. exact N.
  - inv_bind E. destruct a as [[W1 nd1] o1]. eapply IH; [|exact E]. eapply noids_add_port_from; eauto.
Qed.
