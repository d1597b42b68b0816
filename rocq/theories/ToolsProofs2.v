(** Lemmas about the tools that join and split definitions. *)
From Coq Require Import ZifyBool ZifyNat Lia.
From Coq Require Import Permutation.
From Verif Require Import Py PyLemmas TypesModel TextModel SigModel AttrModel NodeModel ParserModel NodeDataModel FilesModel ToolsModel.
From Verif Require Import SigSpec NodeSpec ParserSpec MergeSpec FilesSpec ToolsSpec TextProofs SigProofs NodeProofs ElemTextProofs ParserProofs RoundTripProofs LoadProofs.
From Verif Require Import MirrorProofs FinalizeProofs ExtendProofs FilesProofs FilesProofs2 ToolsProofs.
Ltac Zify.zify_post_hook ::= Z.div_mod_to_equations.

(** ** Nodes whose types are new *)

Definition fresh (n : nat) (W : world) (nd : node) : Prop :=
  (n <= w_ntypes W)%nat /\ (forall o, In o (n_types nd) -> (n <= o)%nat) /\ n_final nd = false.
Lemma fresh_add_type n W nd d W1 o W2 nd2 o2 : fresh n W nd -> new_type W d = (W1, o) -> add_type W1 nd o = Ok (W2, nd2, o2) -> fresh n W2 nd2.
Proof.
  intros (A & B & C) E F. unfold new_type in E. injection E as <- <-. unfold add_type in F. destruct (map_find _ _).
  - inv_bind F. injection F as <- <- <-. split; [cbn; lia|]. split; assumption.
  - inv_bind F. destruct a as [e u]. injection F as <- <- <-. split; [cbn; lia|]. split; [|exact C]. intros x X. cbn in X. apply in_app_or in X as [X|[<- |[]]]; [auto|lia].
Qed.
Lemma fresh_add_type_from n k : forall W nd o W' nd' o', fresh n W nd -> add_type_from k W nd o = Ok (W', nd', o') -> fresh n W' nd'.
Proof.
  induction k as [|k IH]; intros W nd o W' nd' o' N E; [discriminate|]. cbn [add_type_from] in E. inv_bind E. destruct a as [Wm ndm].
  assert (fresh n Wm ndm) as NM.
  { destruct (dt_elem (w_types W o)) as [|m es|]; [injection Ha as <- <-; exact N| |discriminate].
    revert W nd N Ha. clear E. induction es as [|e es IHe]; intros W nd N F; cbn [fold_left] in F; [injection F as <- <-; exact N|].
    cbn [bind] in F. destruct e as [|m' es'|m' [s|i|x]].
    - eapply IHe; eauto.
    - eapply IHe; eauto.
    - match type of F with fold_left _ _ (Err ?x) = _ => change (fold_left (member_step k) es (Err x) = Ok (Wm, ndm)) in F end. rewrite member_err in F. discriminate.
    - match type of F with fold_left _ _ (Err ?x) = _ => change (fold_left (member_step k) es (Err x) = Ok (Wm, ndm)) in F end. rewrite member_err in F. discriminate.
    - destruct (add_type_from k W nd x) as [[[Wx ndx] ox]|er] eqn:X.
      + cbn [bind] in F. eapply IHe; [|exact F]. eapply IH; eauto.
      + cbn [bind] in F. match type of F with fold_left _ _ (Err ?x) = _ => change (fold_left (member_step k) es (Err x) = Ok (Wm, ndm)) in F end. rewrite member_err in F. discriminate. }
  inv_bind E. destruct (new_type Wm a) as [W1 on] eqn:NT. inv_bind E. destruct a0 as [[W2 nd2] o2]. injection E as <- <- _. eapply fresh_add_type; eauto.
Qed.
Lemma fresh_add_port_from n k W nd o W' nd' o' : fresh n W nd -> add_port_from k W nd o = Ok (W', nd', o') -> fresh n W' nd'.
Proof.
  intros N E. unfold add_port_from in E. inv_bind E. destruct a as [x|]; [injection E as <- <- <-; exact N|]. inv_bind E. inv_bind E. destruct a0 as [[W1 nd1] p1].
  assert (fresh n W1 nd1) as N1.
  { destruct (pt_elem (w_ports W o)) as [| |m [s|i|t]]; try (injection Ha1 as <- <- <-; exact N); try discriminate.
    inv_bind Ha1. destruct a0 as [[W2 nd2] o2]. injection Ha1 as <- <- _. destruct (node_find _ _ _) as [[x|x]|].
    - inv_bind Ha2. injection Ha2 as <- <- _. exact N.
    - inv_bind Ha2. discriminate.
    - eapply fresh_add_type_from; eauto. }
  unfold new_port in E. cbn in E. inv_bind E. destruct a0 as [W3 nd3]. injection E as <- <- _.
  destruct (add_port_shape _ _ _ _ _ Ha2) as (p' & _ & -> & ->). destruct N1 as (A & B & C). unfold fresh, with_port. cbn. destruct (pt_provide _); auto.
Qed.
Lemma noids_add_ports_from k l : forall W nd W' nd', noids W nd -> add_ports_from k W nd l = Ok (W', nd') -> noids W' nd'.
Proof.
  induction l as [|o l IH]; intros W nd W' nd' N E; cbn [add_ports_from] in E; [injection E as <- <-; exact N|].
  inv_bind E. destruct a as [[W1 nd1] o1]. eapply IH; [|exact E]. eapply noids_add_port_from; eauto.
Qed.
Lemma fresh_add_ports_from n k l : forall W nd W' nd', fresh n W nd -> add_ports_from k W nd l = Ok (W', nd') -> fresh n W' nd'.
Proof.
  induction l as [|o l IH]; intros W nd W' nd' N E; cbn [add_ports_from] in E; [injection E as <- <-; exact N|].
  inv_bind E. destruct a as [[W1 nd1] o1]. eapply IH; [|exact E]. eapply fresh_add_port_from; eauto.
Qed.
Lemma inv_untagged W nd D : inv W nd D -> noids W nd -> untagged W nd.
Proof. intros (_ & _ & _ & _ & US) N o O. split; [apply N; exact O|apply US; exact O]. Qed.
Lemma new_inv W n : inv W (new_node (Some n)) (mk_ndef (Some n) [] [] []) /\ noids W (new_node (Some n)) /\ fresh (w_ntypes W) W (new_node (Some n)).
Proof.
  split; [|split; [intros o []|split; [auto|split; [intros o []|reflexivity]]]]. split; [|split; [|split; [|split]]].
  - constructor; cbn; try solve [constructor]; try solve [intros o []]; auto. intros nm o. split; [discriminate|]. intros (i & X & _). destruct i; discriminate.
  - constructor; cbn; try solve [intros ? []]; try solve [constructor].
    + intros i t X. destruct i; discriminate.
    + intros t a [].
  - split; intros ? [].
  - intros ? [].
  - intros ? [].
Qed.

(** ** What finalize and mirror leave alone *)

Lemma finalize_frame sort W0 W nd D W' nd' : represents W nd D -> linked D -> finalize sort false W nd = Ok (W', nd') ->
  wle W0 W -> (forall o, In o (n_types nd) -> (w_ntypes W0 <= o)%nat) -> wle W0 W'.
Proof.
  intros R L E WL AB. unfold finalize in E. destruct (n_final nd); [injection E as <- <-; exact WL|]. inv_bind E. rename a into nd1. rename Ha into SE.
  destruct (sort_rep _ _ _ _ _ R SE) as (D' & SD & R1 & _ & IT & IP).
  destruct (resolve_ports_same (n_types nd1) (n_require nd1 ++ n_provide nd1) W) as (W1 & RE & T1 & P1 & NT1 & NP1).
  { intros o O. apply (rep_resolved W nd D o R L). apply IP. exact O. }
  unfold resolve_types in E. rewrite RE in E. cbn [bind] in E. unfold set_type_ids in E. injection E as <- <-.
  destruct (number_types_spec (fun d i => with_tid d (Some i)) (n_types nd1) W1 0 (rp_tdup _ _ _ R1)) as (A & B & C & F & G). cbv zeta in *.
  destruct WL as (X1 & X2 & X3 & X4). split; [rewrite A, NT1; exact X1|]. split; [rewrite B, NP1; exact X2|]. split.
  - intros o O. rewrite F; [rewrite T1; auto|]. intros I. apply IT in I. apply AB in I. lia.
  - intros o O. rewrite C, P1. auto.
Qed.
Lemma resolve_ports_count types l : forall W W', resolve_ports W types l = Ok W' -> w_ntypes W' = w_ntypes W /\ w_nports W' = w_nports W.
Proof.
  induction l as [|o l IH]; intros W W' E; cbn [resolve_ports] in E; [injection E as <-; auto|]. inv_bind E. apply IH in E. exact E.
Qed.
Lemma mirror_frame W nd D name W' nd' : represents W nd D -> linked D -> tagging W nd -> copyable D -> mirror W nd name = Ok (W', nd') ->
  wle W W' /\ forall o, In o (n_types nd') -> (w_ntypes W <= o)%nat.
Proof.
  intros R L TG CP E. destruct (mirror_rep W nd D name R L TG CP) as (Wx & ndx & Ex & _ & _ & _ & _ & _ & OT & OP). rewrite E in Ex. injection Ex as <- <-.
  unfold mirror in E. inv_bind E. inv_bind E. destruct (new_ports (copy_types W) a) as [W2 rs] eqn:N1. destruct (new_ports W2 a0) as [W3 ps] eqn:N2.
  destruct (new_ports_spec _ _ _ _ N1) as (_ & _ & NT1 & NP1 & _). destruct (new_ports_spec _ _ _ _ N2) as (_ & _ & NT2 & NP2 & _).
  cbn [w_ntypes w_nports copy_types] in *. inv_bind E. injection E as <- <-. unfold resolve_types in Ha1. apply resolve_ports_count in Ha1 as [C1 C2].
  split; [split; [lia|split; [lia|split; assumption]]|]. intros o O. cbn [n_types] in O. apply in_map_iff in O as (x & <- & _). lia.
Qed.

(** ** Order of ports *)

Lemma existsb_name n l : existsb (opt_eqb n) l = true <-> In n l.
Proof.
  rewrite existsb_exists. split.
  - intros (x & I & E). apply opt_eqb_eq in E. congruence.
  - intros I. exists n. split; [exact I|]. apply opt_eqb_eq. reflexivity.
Qed.
Lemma existsb_none n l : existsb (opt_eqb n) l = false <-> ~ In n l.
Proof. rewrite <- existsb_name. destruct (existsb _ _); split; congruence. Qed.
Lemma firsts_ext l : forall s s', (forall n, In n s <-> In n s') -> firsts s l = firsts s' l.
Proof.
  induction l as [|n l IH]; intros s s' H; cbn [firsts]; [reflexivity|]. destruct (existsb (opt_eqb n) s) eqn:E.
  - apply existsb_name in E. apply H in E. apply existsb_name in E. rewrite E. apply IH. exact H.
  - apply existsb_none in E. assert (~ In n s') as E' by (rewrite <- H; exact E). apply existsb_none in E'. rewrite E'. f_equal. apply IH. intros m. cbn. rewrite H. reflexivity.
Qed.
Lemma firsts_app l1 : forall s l2, firsts s (l1 ++ l2) = firsts s l1 ++ firsts (firsts s l1 ++ s) l2.
Proof.
  induction l1 as [|n l1 IH]; intros s l2; cbn [firsts app]; [reflexivity|]. destruct (existsb (opt_eqb n) s); [apply IH|].
  cbn [app]. f_equal. rewrite IH. f_equal. apply firsts_ext. intros m. rewrite !in_app_iff. cbn. rewrite in_app_iff. tauto.
Qed.
Lemma firsts_in n l : forall s, In n (firsts s l) <-> In n l /\ ~ In n s.
Proof.
  induction l as [|m l IH]; intros s; cbn [firsts]; [cbn; tauto|]. destruct (existsb (opt_eqb m) s) eqn:E.
  - apply existsb_name in E. rewrite IH. cbn. split; [tauto|]. intros [[-> |A] B]; tauto.
  - apply existsb_none in E. cbn. rewrite IH. cbn. split.
    + intros [<- |[A B]]; tauto.
    + intros [[-> |A] B]; [tauto|]. destruct (existsb (opt_eqb n) [m]) eqn:X; [apply existsb_name in X|apply existsb_none in X]; cbn in X; tauto.
Qed.
Lemma firsts_nodup l : forall s, NoDup (firsts s l).
Proof.
  induction l as [|m l IH]; intros s; cbn [firsts]; [constructor|]. destruct (existsb (opt_eqb m) s); [apply IH|]. constructor; [|apply IH].
  rewrite firsts_in. cbn. tauto.
Qed.
Lemma in_port_names n D : In n (port_names D) <-> exists pr, In n (names_of pr D).
Proof.
  unfold port_names, names_of. rewrite map_app, in_app_iff. split; [intros [H|H]; [exists true|exists false]; exact H|intros (pr & H); destruct pr; auto].
Qed.
Definition side (pr : bool) (lp : list (bool * pdef)) : list pdef := map snd (filter (fun x => Bool.eqb (fst x) pr) lp).
Definition source_ports (W : world) (other : node) (D2 : ndef) : list nat -> list (bool * pdef) -> Prop :=
  Forall2 (fun o x => In o (n_provide other ++ n_require other) /\ In (snd x) (ports (fst x) D2) /\ port_is W (n_types other) (fst x) o (snd x)).
Lemma source_ports_wle W W' other D2 l lp : represents W other D2 -> wle W W' -> source_ports W other D2 l lp -> source_ports W' other D2 l lp.
Proof.
  intros R WL F. eapply Forall2_imp; [|exact F]. intros o x _ _ (A & B & C). split; [exact A|]. split; [exact B|]. unfold port_is in *.
  destruct WL as (_ & _ & _ & WP). rewrite WP; [exact C|]. apply (rp_pbelow _ _ _ R). exact A.
Qed.
Lemma inv_fun W nd D D' : inv W nd D -> inv W nd D' -> D = D'.
Proof. intros (R & _) (R' & _). eapply represents_unique; eauto. Qed.

Lemma add_ports_order fuel other D2 l : forall lp W nd D W' nd', inv W nd D -> src W other D2 -> source_ports W other D2 l lp ->
  add_ports_from fuel W nd l = Ok (W', nd') ->
  exists D', inv W' nd' D' /\ forall pr, names_of pr D' = names_of pr D ++ firsts (names_of pr D) (map pd_name (side pr lp)).
Proof.
  induction l as [|po l IH]; intros lp W nd D W' nd' IN SR F E; inversion F as [|po' [pr p2] l' lp' (IPO & IP2 & PI) F']; subst; cbn [add_ports_from] in E.
  - injection E as <- <-. exists D. split; [exact IN|]. intros pr. cbn. rewrite app_nil_r. reflexivity.
  - inv_bind E. destruct a as [[W1 nd1] o1]. cbn [fst snd] in *.
    destruct (add_port_from_step _ _ _ _ _ _ _ _ _ _ _ _ IN SR IPO IP2 PI Ha) as [(-> & -> & CD & q & IQ & MQ)|(D1 & AD)].
    + destruct (IH _ _ _ _ _ _ IN SR F' E) as (D' & IN' & ORD). exists D'. split; [exact IN'|]. intros pr'. rewrite ORD. f_equal. unfold side. cbn [filter fst].
      destruct (Bool.eqb pr pr') eqn:EB; [|reflexivity]. apply Bool.eqb_prop in EB. subst pr'. cbn [map snd firsts].
      replace (existsb (opt_eqb (pd_name p2)) (names_of pr D)) with true; [reflexivity|]. symmetry. apply existsb_name. destruct MQ as (<- & _). apply in_map. exact IQ.
    + pose proof AD as (ts1 & q1 & ED1 & IN1 & WL1 & _ & NI & (MN & _) & _).
      destruct (IH _ _ _ _ _ _ IN1 (src_wle _ _ _ _ WL1 SR) (source_ports_wle _ _ _ _ _ _ (proj1 SR) WL1 F') E) as (D' & IN' & ORD).
      exists D'. split; [exact IN'|]. intros pr'. rewrite ORD, ED1. unfold names_of. rewrite !ports_plus_port, !map_app. unfold side. cbn [filter fst].
      assert (forall pr0, ports pr0 (plus_types D ts1) = ports pr0 D) as PP by (intros []; reflexivity). rewrite !PP. destruct (Bool.eqb pr pr') eqn:EB.
      * apply Bool.eqb_prop in EB. subst pr'. rewrite Bool.eqb_reflx. cbn [map snd firsts].
        replace (existsb (opt_eqb (pd_name p2)) (map pd_name (ports pr D))) with false.
        -- rewrite <- app_assoc. cbn [app]. rewrite MN. f_equal. f_equal. apply firsts_ext. intros m. rewrite in_app_iff. cbn. tauto.
        -- symmetry. apply existsb_none. intros X. apply NI. apply in_port_names. eauto.
      * replace (Bool.eqb pr' pr) with false by (destruct pr, pr'; auto). cbn [map]. rewrite !app_nil_r. reflexivity.
Qed.

(** ** Joining *)

Inductive chain : ndef -> list ndef -> ndef -> Prop :=
| ch_nil D : chain D [] D
| ch_cons D D2 D1 Ds D' : merged D D2 D1 -> (forall pr, names_of pr D1 = names_of pr D ++ firsts (names_of pr D) (names_of pr D2)) ->
    chain D1 Ds D' -> chain D (D2 :: Ds) D'.
Lemma extend_order fuel W nd D other D2 W' nd' D' : inv W nd D -> src W other D2 -> extend fuel W nd other = Ok (W', nd') -> inv W' nd' D' ->
  forall pr, names_of pr D' = names_of pr D ++ firsts (names_of pr D) (names_of pr D2).
Proof.
  intros IN SR E IN'. unfold extend in E. pose proof (proj1 SR) as R2.
  assert (source_ports W other D2 (n_require other ++ n_provide other) (map (pair false) (df_require D2) ++ map (pair true) (df_provide D2))) as SP.
  { apply Forall2_app; apply paired; auto; try (apply R2); intros; apply in_or_app; auto. }
  destruct (add_ports_order fuel other D2 _ _ _ _ _ _ _ IN SR SP E) as (D1 & IN1 & ORD).
  rewrite (inv_fun _ _ _ _ IN' IN1). intros pr. rewrite ORD. do 2 f_equal. unfold names_of. f_equal. unfold side.
  assert (forall b c l, map snd (filter (fun x : bool * pdef => Bool.eqb (fst x) c) (map (pair b) l)) = if Bool.eqb b c then l else []) as X.
  { intros b c l. induction l as [|x l IHl]; cbn [map filter fst]; [destruct (Bool.eqb b c); reflexivity|]. destruct (Bool.eqb b c); [cbn [map snd]; rewrite IHl; reflexivity|exact IHl]. }
  rewrite filter_app, map_app, !X. destruct pr; cbn [Bool.eqb ports]; [reflexivity|apply app_nil_r].
Qed.
Lemma extend_all_rep fuel l : forall Ds W nd D W' nd', inv W nd D -> noids W nd -> n_final nd = false -> Forall2 (src W) l Ds -> extend_all fuel W nd l = Ok (W', nd') ->
  exists D', chain D Ds D' /\ inv W' nd' D' /\ noids W' nd' /\ n_final nd' = false.
Proof.
  induction l as [|x l IH]; intros Ds W nd D W' nd' IN NO NF F E; inversion F as [|? D2 ? Ds' SR F']; subst; cbn [extend_all] in E.
  - injection E as <- <-. exists D. split; [constructor|auto].
  - inv_bind E. destruct a as [W1 nd1]. destruct (extend_rep _ _ _ _ _ _ _ _ IN SR Ha) as (D1 & M & IN1 & WL & _).
    pose proof (noids_extend _ _ _ _ _ _ NO Ha) as NO1.
    assert (fresh 0 W nd) as FR by (split; [lia|split; [intros; lia|exact NF]]). destruct (fresh_add_ports_from _ _ _ _ _ _ _ FR Ha) as (_ & _ & NF1).
    destruct (IH Ds' W1 nd1 D1 W' nd' IN1 NO1 NF1) as (D' & C & R).
    + eapply Forall2_imp; [|exact F']. intros; eapply src_wle; eauto.
    + exact E.
    + exists D'. split; [|exact R]. econstructor; [exact M| |exact C]. exact (extend_order _ _ _ _ _ _ _ _ _ IN SR Ha IN1).
Qed.
Lemma chain_ext D Ds D' : chain D Ds D' -> ext D D' /\ df_name D' = df_name D.
Proof.
  induction 1 as [D|D D2 D1 Ds D' M _ C [(ts & E) N]]; [split; [exists []; symmetry; apply app_nil_r|reflexivity]|].
  destruct (merged_ext _ _ _ M) as (ts1 & E1). split; [exists (ts1 ++ ts); rewrite E, E1; symmetry; apply app_assoc|]. rewrite N. apply (mg_name _ _ _ M).
Qed.
Lemma chain_ports D Ds D' pr q : chain D Ds D' -> In q (ports pr D) -> In q (ports pr D').
Proof.
  induction 1 as [D|D D2 D1 Ds D' M _ C IH]; [auto|]. intros I. apply IH. destruct (mg_ports _ _ _ M) as (new & E & _). rewrite E. apply in_or_app. auto.
Qed.
Lemma chain_fine (ok : tdef -> Prop) (okp : pdef -> Prop) D Ds D' :
  (forall Da Db t2 t, same_type Da Db t2 t -> ok t2 -> ok t) -> (forall Da Db p q, moved_port Da Db p q -> okp p -> okp q) ->
  chain D Ds D' -> from_fine D ok okp -> Forall (fun Di => from_fine Di ok okp) Ds -> from_fine D' ok okp.
Proof.
  intros HT HP C. induction C as [D|D D2 D1 Ds D' M _ C IH]; intros B F; [exact B|]. inversion F as [|? ? F1 F2]; subst. apply IH; [|exact F2].
  eapply merged_fine; [exact M| | |exact B|exact F1]; eauto.
Qed.
Lemma NoDup_app_intro {A} (a b : list A) : NoDup a -> NoDup b -> (forall x, In x a -> In x b -> False) -> NoDup (a ++ b).
Proof.
  induction 1 as [|x a NI N IH]; intros NB H; [exact NB|]. cbn [app]. constructor; [|apply IH; [exact NB|intros y Y; apply H; right; exact Y]].
  intros I. apply in_app_or in I as [I|I]; [exact (NI I)|]. apply (H x); [left; reflexivity|exact I].
Qed.
Lemma merged_once D D2 D' : merged D D2 D' -> NoDup (port_names D) -> NoDup (port_names D').
Proof.
  intros M N. destruct (mg_ports _ _ _ M) as (new & E & ND & H). unfold port_names in *. pose proof (E true) as E1. pose proof (E false) as E2. cbn [ports] in E1, E2. rewrite E1, E2.
  assert (Permutation (map pd_name ((df_provide D ++ df_require D) ++ (new true ++ new false))) (map pd_name ((df_provide D ++ new true) ++ (df_require D ++ new false)))) as P.
  { apply Permutation_map. rewrite <- !app_assoc. apply Permutation_app_head. rewrite !app_assoc. apply Permutation_app_tail. apply Permutation_app_comm. }
  eapply Permutation_NoDup; [exact P|]. rewrite map_app. apply NoDup_app_intro; [exact N|exact ND|].
  intros n I J. apply in_map_iff in J as (q & <- & J). assert (exists pr, In q (new pr)) as (pr & Q) by (apply in_app_or in J as [J|J]; eauto).
  destruct (H _ _ Q) as (X & _). apply X. exact I.
Qed.
Lemma chain_once D Ds D' : chain D Ds D' -> NoDup (port_names D) -> NoDup (port_names D').
Proof. induction 1 as [D|D D2 D1 Ds D' M _ C IH]; [auto|]. intros N. apply IH. eapply merged_once; eauto. Qed.
Lemma chain_all D Ds D' : chain D Ds D' -> forall Di pr p, In Di Ds -> In p (ports pr Di) -> exists q, In q (ports pr D') /\ moved_port Di D' p q.
Proof.
  induction 1 as [D|D D2 D1 Ds D' M _ C IH]; intros Di pr p I P; [destruct I|]. destruct I as [<- |I]; [|eapply IH; eauto].
  destruct (mg_all _ _ _ M _ _ P) as (q & Q & MQ). exists q. split; [eapply chain_ports; eauto|]. eapply ext_moved_port; [apply (chain_ext _ _ _ C)|exact MQ].
Qed.
Lemma chain_from D Ds D' : chain D Ds D' -> forall pr q, In q (ports pr D') -> In q (ports pr D) \/ exists Di p, In Di Ds /\ In p (ports pr Di) /\ moved_port Di D' p q.
Proof.
  induction 1 as [D|D D2 D1 Ds D' M _ C IH]; intros pr q Q; [left; exact Q|]. destruct (IH _ _ Q) as [I|(Di & p & I & P & MP)]; [|right; exists Di, p; cbn; auto].
  destruct (merged_port _ _ _ _ _ M I) as [J|(p & P & MP)]; [left; exact J|right]. exists D2, p. split; [left; reflexivity|]. split; [exact P|].
  eapply ext_moved_port; [apply (chain_ext _ _ _ C)|exact MP].
Qed.
Lemma chain_types D Ds D' : chain D Ds D' -> forall t, In t (df_types D') -> In t (df_types D) \/ exists Di pr p i t2, In Di Ds /\ In p (ports pr Di) /\ needs Di (pd_elem p) i /\ nth_error (df_types Di) i = Some t2 /\ same_type Di D' t2 t.
Proof.
  induction 1 as [D|D D2 D1 Ds D' M _ C IH]; intros t Q; [left; exact Q|]. destruct (IH _ Q) as [I|(Di & pr & p & i & u & I & X)]; [|right; exists Di, pr, p, i, u; cbn; auto].
  destruct (merged_needs _ _ _ _ M I) as [J|(pr & p & i & u & P & N & U & MP)]; [left; exact J|right]. exists D2, pr, p, i, u. split; [left; reflexivity|].
  split; [exact P|]. split; [exact N|]. split; [exact U|].
  eapply ext_same_type; [apply (chain_ext _ _ _ C)|exact MP].
Qed.
Lemma chain_names D Ds D' : chain D Ds D' -> forall pr, names_of pr D' = names_of pr D ++ firsts (names_of pr D) (flat_map (names_of pr) Ds).
Proof.
  induction 1 as [D|D D2 D1 Ds D' M O C IH]; intros pr; [cbn; symmetry; apply app_nil_r|]. rewrite IH, O. cbn [flat_map]. rewrite firsts_app, <- app_assoc. do 2 f_equal.
  apply firsts_ext. intros n. rewrite !in_app_iff. tauto.
Qed.
Lemma chain_join n Ds D : chain (mk_ndef (Some n) [] [] []) Ds D -> join_of Ds D.
Proof.
  intros C. constructor.
  - intros pr. rewrite (chain_names _ _ _ C). destruct pr; reflexivity.
  - apply (chain_once _ _ _ C). constructor.
  - apply (chain_all _ _ _ C).
  - intros pr q Q. destruct (chain_from _ _ _ C _ _ Q) as [X|X]; [destruct pr; destruct X|exact X].
  - intros t T. destruct (chain_types _ _ _ C _ T) as [[]|X]. exact X.
Qed.
Lemma chain_writable n Ds D : chain (mk_ndef (Some n) [] [] []) Ds D -> plain_name n -> Forall writable_def Ds -> writable_def D.
Proof.
  intros C P F. apply writable_parts. split; [rewrite (proj2 (chain_ext _ _ _ C)); exists n; auto|].
  eapply chain_fine; [| |exact C|split; intros ? []|].
  - intros. eapply fine_same_type; eauto.
  - intros. eapply fine_moved_port; eauto.
  - eapply Forall_impl; [|exact F]. intros Di W. apply writable_parts in W. apply W.
Qed.
Lemma chain_crless n Ds D : chain (mk_ndef (Some n) [] [] []) Ds D -> ~ In 13 n -> Forall crless Ds -> crless D.
Proof.
  intros C P F. apply crless_parts. split; [rewrite (proj2 (chain_ext _ _ _ C)); exact P|].
  eapply (chain_fine crless_type crless_port); [| |exact C|split; intros ? []|].
  - intros Da Db t2 t S. unfold crless_type. rewrite (words_same_type _ _ _ _ S). auto.
  - intros Da Db p q S. unfold crless_port. rewrite (port_words_moved _ _ _ _ S). auto.
  - eapply Forall_impl; [|exact F]. intros Di W. apply crless_parts in W. apply W.
Qed.

Lemma parse_files_rep d paths Ds : Forall2 (read_as d) paths Ds -> Forall writable_def Ds -> forall old W,
  exists W' l, parse_files old d W paths = Ok (W', l) /\ wle W W' /\ Forall2 (src W') l Ds /\ Forall crless Ds.
Proof.
  induction 1 as [|p D paths Ds RA F IH]; intros WD old W; cbn [parse_files].
  - exists W, []. split; [reflexivity|]. split; [apply wle_refl|]. split; constructor.
  - inversion WD as [|? ? W1 W2]; subst. destruct (read_as_sound _ _ _ W RA) as (Wa & nd & E & (R & L & N & U) & CR & _ & WL).
    destruct (IH W2 (Some nd) Wa) as (Wb & l & E' & WL' & FS & FC). exists Wb, (nd :: l).
    assert (parse_with old d W p = Ok (Wa, nd)) as EP. { unfold parse_file, parse_with in *. inv_bind E. rewrite Ha. cbn [bind]. apply load_old. exact E. }
    rewrite EP. cbn [bind]. rewrite E'. cbn [bind]. split; [reflexivity|]. split; [eapply wle_trans; eauto|]. split; constructor; auto.
    eapply src_wle; [exact WL'|]. destruct (writable_copyable _ W1) as [A B]. split; [exact R|]. split; [exact L|]. split; [exact A|]. split; [exact B|left; exact U].
Qed.

(** ** Saving a finalized node *)
Lemma save_final normalized out d W nd D path : represents W nd D -> linked D -> tagged W nd -> n_final nd = true -> writable_def D -> crless D -> path_for out D path ->
  exists ls, says_lines normalized D ls /\ text_as (file_text ls) D /\ save_apx normalized out d W nd = (put_file d path (file_text ls), Ok (W, nd)) /\
    exists t, node_dumps normalized W nd = Ok (W, nd, t) /\ print t = file_text ls.
Proof.
  intros R L T F WD CR PF. destruct (written_as normalized W nd D R L (or_intror T) WD CR) as (ls & EL & TA). exists ls.
  assert (finalize true false W nd = Ok (W, nd)) as EF by (unfold finalize; rewrite F; reflexivity).
  split; [eapply lines_are; eauto|]. split; [exact TA|]. split.
  - unfold save_apx. rewrite EF. destruct out as [p|]; cbn [path_for] in PF.
    + subst path. rewrite (write_node_lines _ _ _ _ _ _ EL). reflexivity.
    + destruct PF as (s & N & ->). rewrite (rp_name _ _ _ R), N. cbn [default_path]. rewrite (write_node_lines _ _ _ _ _ _ EL). reflexivity.
  - eexists. split; [unfold node_dumps; rewrite EF; cbn [bind]; rewrite EL; reflexivity|]. unfold print. apply printed_text. destruct (lines_cons _ _ _ _ EL) as (x & r & ->). discriminate.
Qed.
Lemma save_shape normalized p d W nd d' r : save_apx normalized (Some p) d W nd = (d', r) -> (forall q, q <> p -> d' q = d q).
Proof.
  unfold save_apx, write_node. intros E q N. destruct (finalize _ _ _ _) as [[W1 nd1]|e]; [|injection E as <- _; reflexivity].
  destruct (written normalized W1 nd1) as [t e]. injection E as <- _. apply put_other. exact N.
Qed.
Lemma save_final_world normalized p d W nd d' W' nd' : n_final nd = true -> save_apx normalized (Some p) d W nd = (d', Ok (W', nd')) -> W' = W.
Proof.
  intros F. unfold save_apx, write_node, finalize. rewrite F. destruct (written normalized W nd) as [t [e|]]; intros E; [discriminate|]. injection E as _ <- _. reflexivity.
Qed.
Lemma dumps_final_world normalized W nd W' nd' t : n_final nd = true -> node_dumps normalized W nd = Ok (W', nd', t) -> W' = W.
Proof. intros F. unfold node_dumps, finalize. rewrite F. cbn [bind]. intros E. inv_bind E. injection E as <- _ _. reflexivity. Qed.

Lemma join_done fuel inputs name sort normalize d Ds d' out : Forall2 (read_as d) inputs Ds -> Forall writable_def Ds -> plain_name name -> ~ In 13 name ->
  apx_join fuel inputs name sort normalize d = (d', Printed out) ->
  out = [] /\ (forall p, p <> name ++ lit ".apx" -> d' p = d p) /\
  exists D D', join_of Ds D /\ df_name D = Some name /\ (sorted_def sort D D' /\ linked D) /\
    (ordered D' -> exists t, text_for normalize D' t /\ text_as t D' /\ d' = put_file d (name ++ lit ".apx") t).
Proof.
  intros F WD PN NC E. unfold apx_join in E. destruct (parse_files_rep _ _ _ F WD None empty_world) as (W & l & EP & _ & FS & FC). rewrite EP in E. cbn [bind] in E.
  destruct (new_inv W name) as (IN & NO & (_ & _ & NF)). destruct (extend_all fuel W (new_node (Some name)) l) as [[W1 nd1]|e] eqn:EE; [|discriminate]. cbn [bind] in E.
  destruct (extend_all_rep _ _ _ _ _ _ _ _ IN NO NF FS EE) as (D & C & IN1 & NO1 & NF1). pose proof (inv_untagged _ _ _ IN1 NO1) as U. pose proof IN1 as (R1 & L1 & _).
  destruct (finalize sort false W1 nd1) as [[W2 nd2]|e] eqn:EF; [|discriminate].
  destruct (finalize_rep sort W1 nd1 D W2 nd2 R1 L1 NF1 EF) as (D' & SD & _). destruct (finalized_tagged _ _ _ _ _ _ _ R1 L1 NF1 U SD EF) as (R2 & T2 & F2).
  pose proof (chain_writable _ _ _ C PN WD) as WR. pose proof (chain_crless _ _ _ C NC FC) as CR. pose proof (proj2 (chain_ext _ _ _ C)) as DN. cbn [df_name] in DN.
  destruct (save_apx normalize None d W2 nd2) as [d1 r] eqn:ES. unfold finish_with in E. destruct r as [[Wx ndx]|e]; [|discriminate]. cbn [bind] in E. injection E as <- <-.
  split; [reflexivity|].
  assert (n_name nd2 = Some name) as NN by (rewrite (rp_name _ _ _ R2), (sd_name _ _ _ SD); exact DN).
  split.
  - intros p NP. unfold save_apx, finalize in ES. rewrite F2, NN in ES. cbn [default_path] in ES. unfold write_node in ES. destruct (written _ _ _) as [t e]. injection ES as <- _. apply put_other. exact NP.
  - exists D, D'. split; [eapply chain_join; eauto|]. split; [exact DN|]. split; [exact (conj SD L1)|]. intros OD.
    destruct (save_final normalize None d W2 nd2 D' (name ++ lit ".apx") R2 (linked_sorted _ _ _ L1 SD OD) T2 F2 (writable_sorted _ _ _ SD WR) (crless_sorted _ _ _ SD CR)) as (ls & SL & TA & SE & _).
    { exists name. split; [rewrite (sd_name _ _ _ SD); exact DN|reflexivity]. }
    rewrite SE in ES. injection ES as <- _. exists (file_text ls). split; [exists ls; auto|]. auto.
Qed.

(** ** Taking ports out of a definition *)

Lemma add_ports_fresh fuel other D2 l : forall lp W nd D W' nd', inv W nd D -> src W other D2 -> source_ports W other D2 l lp ->
  NoDup (map (fun x => pd_name (snd x)) lp) -> (forall x, In x lp -> ~ In (pd_name (snd x)) (port_names D)) ->
  add_ports_from fuel W nd l = Ok (W', nd') ->
  exists D', inv W' nd' D' /\ wle W W' /\ df_name D' = df_name D /\ ext D D' /\
    (forall pr, exists new, ports pr D' = ports pr D ++ new /\ Forall2 (moved_port D2 D') (side pr lp) new) /\
    (forall t, In t (df_types D') -> In t (df_types D) \/ exists pr p i t2, In (pr, p) lp /\ needs D2 (pd_elem p) i /\ nth_error (df_types D2) i = Some t2 /\ same_type D2 D' t2 t).
Proof.
  induction l as [|po l IH]; intros lp W nd D W' nd' IN SR F ND DJ E; inversion F as [|po' [pr p2] l' lp' (IPO & IP2 & PI) F']; subst; cbn [add_ports_from] in E.
  - injection E as <- <-. exists D. split; [exact IN|]. split; [apply wle_refl|]. split; [reflexivity|]. split; [exists []; symmetry; apply app_nil_r|]. split; [|auto].
    intros pr. exists []. split; [symmetry; apply app_nil_r|constructor].
  - inv_bind E. destruct a as [[W1 nd1] o1]. cbn [fst snd map] in *. inversion ND as [|? ? NI0 ND']; subst.
    destruct (add_port_from_step _ _ _ _ _ _ _ _ _ _ _ _ IN SR IPO IP2 PI Ha) as [(_ & _ & _ & q & IQ & (MQ & _))|(D1 & AD)].
    { exfalso. apply (DJ _ (or_introl eq_refl)). cbn [snd]. rewrite <- MQ. apply in_port_names. exists pr. apply in_map. exact IQ. }
    pose proof AD as (ts1 & q1 & ED1 & IN1 & WL1 & FT & NI & MP & _).
    destruct (IH lp' W1 nd1 D1 W' nd' IN1 (src_wle _ _ _ _ WL1 SR) (source_ports_wle _ _ _ _ _ _ (proj1 SR) WL1 F') ND') as (D' & IN' & WL & NM & (ts & X1) & PO & TY); [|exact E|].
    { intros x X Y. rewrite ED1 in Y. apply port_names_plus in Y as [Y|Y].
      - apply NI0. destruct MP as (MN & _). rewrite <- MN, <- Y. apply (in_map (fun x => pd_name (snd x))). exact X.
      - apply (DJ x (or_intror X)). exact Y. }
    assert (df_types D1 = df_types D ++ ts1) as TD1 by (rewrite ED1; destruct pr; reflexivity).
    assert (ext (plus_types D ts1) D') as X0 by (exists ts; rewrite X1, TD1; reflexivity).
    exists D'. split; [exact IN'|]. split; [eapply wle_trans; eauto|]. split; [rewrite NM, ED1; destruct pr; reflexivity|].
    split; [exists (ts1 ++ ts); rewrite X1, TD1; symmetry; apply app_assoc|]. split.
    + intros pr'. destruct (PO pr') as (new & PE & PF). rewrite ED1, ports_plus_port in PE. exists ((if Bool.eqb pr' pr then [q1] else []) ++ new).
      split; [rewrite PE, <- app_assoc; destruct pr'; reflexivity|]. unfold side. cbn [filter fst]. replace (Bool.eqb pr pr') with (Bool.eqb pr' pr) by (destruct pr, pr'; reflexivity).
      destruct (Bool.eqb pr' pr); [|exact PF]. cbn [map snd app]. constructor; [eapply ext_moved_port; eauto|exact PF].
    + intros t T. destruct (TY t T) as [I|(pr0 & p0 & i & t2 & I & X)]; [|right; exists pr0, p0, i, t2; split; [right; exact I|exact X]]. rewrite TD1 in I. apply in_app_or in I as [I|I]; [left; exact I|right].
      rewrite Forall_forall in FT. destruct (FT t I) as (i & t2 & N & T2 & S). exists pr, p2, i, t2. split; [left; reflexivity|]. split; [exact N|]. split; [exact T2|]. eapply ext_same_type; eauto.
Qed.

Lemma find_in {A} (f : A -> bool) l x : find f l = Some x -> In x l /\ f x = true.
Proof. apply find_some. Qed.
Lemma found_port W source D nm : represents W source D -> match node_find W source nm with
  | None => ~ In nm (port_names D)
  | Some (FType o) => dt_name (w_types W o) = nm
  | Some (FPort o) => pt_name (w_ports W o) = nm /\ exists pr p, In o (n_provide source ++ n_require source) /\ In p (ports pr D) /\ port_is W (n_types source) pr o p /\ pd_name p = nm
  end.
Proof.
  intros R. unfold node_find. destruct (find _ (n_types source)) as [o|] eqn:F1.
  - apply find_some in F1 as [_ F1]. apply opt_eqb_eq in F1. exact F1.
  - destruct (find _ (n_require source ++ n_provide source)) as [o|] eqn:F2; cbn [option_map].
    + apply find_some in F2 as [I F2]. apply opt_eqb_eq in F2. split; [exact F2|].
      assert (In o (n_provide source ++ n_require source)) as I' by (rewrite in_app_iff in *; tauto).
      apply in_app_or in I as [I|I]; apply In_nth_error in I as (i & I).
      * destruct (Forall2_nth _ _ _ _ _ (rp_require _ _ _ R) I) as (p & P & PI). exists false, p. split; [exact I'|]. split; [eapply nth_error_In; exact P|]. split; [exact PI|]. destruct PI as (_ & <- & _). exact F2.
      * destruct (Forall2_nth _ _ _ _ _ (rp_provide _ _ _ R) I) as (p & P & PI). exists true, p. split; [exact I'|]. split; [eapply nth_error_In; exact P|]. split; [exact PI|]. destruct PI as (_ & <- & _). exact F2.
    + intros I. apply in_map_iff in I as (p & NP & I). destruct (port_obj_r _ _ _ _ R I) as (pr & o & PI & IO). 
      assert (In o (n_require source ++ n_provide source)) as IO' by (rewrite in_app_iff in *; tauto).
      pose proof (find_none _ _ F2 o IO') as X. cbn beta in X. destruct PI as (_ & PN & _). rewrite PN, NP in X. rewrite (proj2 (opt_eqb_eq nm nm) eq_refl) in X. discriminate.
Qed.
Lemma firsts_filter f n l : f n = false -> forall s, filter f (firsts (n :: s) l) = filter f (firsts s l).
Proof.
  intros FN. induction l as [|m l IH]; intros s; [reflexivity|]. cbn [firsts]. destruct (existsb (opt_eqb m) (n :: s)) eqn:E1; destruct (existsb (opt_eqb m) s) eqn:E2.
  - apply IH.
  - apply existsb_name in E1. apply existsb_none in E2. destruct E1 as [<- |E1]; [|contradiction]. cbn [filter]. rewrite FN. reflexivity.
  - apply existsb_none in E1. apply existsb_name in E2. exfalso. apply E1. right. exact E2.
  - cbn [filter]. assert (firsts (m :: n :: s) l = firsts (n :: m :: s) l) as -> by (apply firsts_ext; cbn; tauto). rewrite IH. reflexivity.
Qed.
Lemma head_ports_picks fuel W0 source D names : src W0 source D -> forall W head done W' head' done', wle W0 W -> (exists Dh, inv W head Dh) ->
  head_ports fuel W source head done names = Ok (W', head', done') ->
  exists l lp, source_ports W0 source D l lp /\ add_ports_from fuel W head l = Ok (W', head') /\
    done' = rev (map (fun x => pd_name (snd x)) lp) ++ done /\
    map (fun x => pd_name (snd x)) lp = filter (fun n => existsb (opt_eqb n) (port_names D)) (firsts done (map Some names)).
Proof.
  intros SR. induction names as [|s names IH]; intros W head done W' head' done' WL IN E; cbn [head_ports] in E.
  - injection E as <- <- <-. exists [], []. split; [constructor|]. split; [reflexivity|]. split; reflexivity.
  - pose proof (found_port W source D (Some s) (rep_wle _ _ _ _ WL (proj1 SR))) as FP. cbn [map firsts]. destruct (node_find W source (Some s)) as [[o|o]|] eqn:NF.
    + rewrite FP in E. destruct (existsb (opt_eqb (Some s)) done) eqn:X; [|discriminate]. eapply IH; eauto.
    + destruct FP as (PN & pr & p & IO & IP & PI & NP). rewrite PN in E. destruct (existsb (opt_eqb (Some s)) done) eqn:X; [eapply IH; eauto|].
      inv_bind E. destruct a as [[W1 head1] o1]. destruct IN as (Dh & IN).
      assert (wle W W1 /\ exists D1, inv W1 head1 D1) as (WL1 & IN1).
      { destruct (add_port_from_step _ _ _ _ _ _ _ _ _ _ _ _ IN (src_wle _ _ _ _ WL SR) IO IP PI Ha) as [(-> & -> & _)|(D1 & (ts & q & _ & I1 & L1 & _))]; [split; [apply wle_refl|eauto]|eauto]. }
      destruct (IH _ _ _ _ _ _ (wle_trans _ _ _ WL WL1) IN1 E) as (l & lp & SP & AE & DE & ME). exists (o :: l), ((pr, p) :: lp). split; [|split; [|split]].
      * constructor; [|exact SP]. cbn [fst snd]. split; [exact IO|]. split; [exact IP|]. unfold port_is in *. destruct WL as (_ & _ & _ & WP). rewrite <- WP; [exact PI|]. apply (rp_pbelow _ _ _ (proj1 SR)). exact IO.
      * cbn [add_ports_from]. rewrite Ha. exact AE.
      * rewrite DE. cbn [map rev snd]. rewrite NP, <- app_assoc. reflexivity.
      * cbn [map snd filter]. assert (existsb (opt_eqb (Some s)) (port_names D) = true) as -> by (apply existsb_name, in_port_names; exists pr; rewrite <- NP; apply in_map; exact IP).
        rewrite NP, ME. reflexivity.
    + destruct (IH _ _ _ _ _ _ WL IN E) as (l & lp & SP & AE & DE & ME). exists l, lp. split; [exact SP|]. split; [exact AE|]. split; [exact DE|]. rewrite ME.
      destruct (existsb (opt_eqb (Some s)) done); [reflexivity|]. apply existsb_none in FP. cbn [filter]. rewrite FP. symmetry. apply firsts_filter. exact FP.
Qed.
Lemma tail_ports_picks fuel W0 source D l : src W0 source D -> forall lp W tail done W' tail', wle W0 W -> (exists Dt, inv W tail Dt) -> source_ports W0 source D l lp ->
  tail_ports fuel W tail done l = Ok (W', tail') ->
  exists l', source_ports W0 source D l' (filter (fun x => negb (existsb (opt_eqb (pd_name (snd x))) done)) lp) /\ add_ports_from fuel W tail l' = Ok (W', tail').
Proof.
  intros SR. induction l as [|o l IH]; intros lp W tail done W' tail' WL IN SP E; inversion SP as [|? [pr p] ? lp' (IO & IP & PI) SP']; subst; cbn [tail_ports] in E.
  - injection E as <- <-. exists []. split; [constructor|reflexivity].
  - cbn [fst snd] in *. assert (port_is W (n_types source) pr o p) as PW. { unfold port_is in *. pose proof WL as (_ & _ & _ & WP). rewrite WP; [exact PI|]. apply (rp_pbelow _ _ _ (proj1 SR)). exact IO. }
    pose proof PW as (_ & PN & _). rewrite PN in E. cbn [filter snd]. destruct (existsb (opt_eqb (pd_name p)) done) eqn:X; cbn [negb]; [eapply IH; eauto|].
    inv_bind E. destruct a as [[W1 tail1] o1]. destruct IN as (Dt & IN).
    assert (wle W W1 /\ exists D1, inv W1 tail1 D1) as (WL1 & IN1).
    { destruct (add_port_from_step _ _ _ _ _ _ _ _ _ _ _ _ IN (src_wle _ _ _ _ WL SR) IO IP PW Ha) as [(-> & -> & _)|(D1 & (ts & q & _ & I1 & L1 & _))]; [split; [apply wle_refl|eauto]|eauto]. }
    destruct (IH _ _ _ _ _ _ (wle_trans _ _ _ WL WL1) IN1 SP' E) as (l' & SP2 & AE). exists (o :: l'). split; [constructor; auto|]. cbn [add_ports_from]. rewrite Ha. exact AE.
Qed.
