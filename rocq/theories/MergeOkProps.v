(** Properties: compatible nodes can be merged (C81). *)
From Coq Require Import ZifyBool ZifyNat Lia.
From Coq Require Import String.
From Verif Require Import Py PyLemmas TypesModel TextModel SigModel AttrModel NodeModel ParserModel.
From Verif Require Import SigSpec NodeSpec ParserSpec MergeSpec MergeOkSpec NodeProofs ExtendProofs MergeOkProofs ParserProps NodeProps FilesProofs2.
Ltac Zify.zify_post_hook ::= Z.div_mod_to_equations.

(** A recursion limit of the number of types is enough. *)
Theorem compatible_merge fuel W nd D other D2 : settled W nd D -> settled W other D2 -> compatible D D2 -> (length (df_types D2) <= fuel)%nat ->
  exists W' nd' D', extend fuel W nd other = Ok (W', nd') /\ merged D D2 D' /\ represents W' nd' D' /\ represents W' other D2.
Proof.
  intros S1 S2 CM FU. destruct (add_ports_from_ok fuel other D2 FU (n_require other ++ n_provide other) W nd D (settled_inv _ _ _ S1) S2 CM) as (W' & nd' & E).
  { intros o O. rewrite in_app_iff in *. tauto. }
  destruct (extend_merges fuel W nd D other D2 W' nd' S1 S2 E) as (D' & M & R & _ & R2 & _). exists W', nd', D'. auto.
Qed.
Print Assumptions compatible_merge.

(** What two nodes declare in common stays compatible after the merge: a third node that
    is compatible with the result can be merged too, and so can the second one again. *)
Theorem compatible_again fuel W nd D other D2 : settled W nd D -> settled W other D2 -> compatible D D2 -> (length (df_types D2) <= fuel)%nat ->
  exists W' nd' D', extend fuel W nd other = Ok (W', nd') /\ represents W' nd' D' /\ compatible D' D2 /\ extend fuel W' nd' other = Ok (W', nd').
Proof.
  intros S1 S2 CM FU. destruct (compatible_merge fuel W nd D other D2 S1 S2 CM FU) as (W' & nd' & D0 & E & _).
  destruct (extend_merges fuel W nd D other D2 W' nd' S1 S2 E) as (D' & M & R & L' & _ & _ & _ & AG). exists W', nd', D'.
  split; [exact E|]. split; [exact R|]. split; [|exact AG]. destruct S2 as (_ & L2 & _).
  destruct (mg_types _ _ _ M) as (ts & TE & TS). destruct (mg_ports _ _ _ M) as (new & PE & _ & NEW).
  assert (type_names D' = type_names D ++ map td_name ts) as TN by (unfold type_names; rewrite TE; apply map_app).
  assert (forall t t2, In t (df_types D') -> In t2 (df_types D2) -> td_name t = td_name t2 -> same_type D2 D' t2 t) as TY.
  { intros t t2 I I2 N. rewrite TE in I. apply in_app_or in I as [I|I].
    - destruct (cm_types _ _ CM t t2 I I2 N) as (A & B & C). split; [exact A|]. split; [exact B|]. rewrite TN. apply moved_more. exact C.
    - destruct (TS t I) as (_ & _ & i & u & _ & _ & _ & NU & ST). apply nth_error_In in NU as IU. assert (u = t2) as <-; [|exact ST].
      apply (names_nodup td_name (df_types D2)); [apply (ln_names _ L2)|exact IU|exact I2|]. destruct ST as (<- & _). exact N. }
  split.
  - exact TY.
  - intros pr pr' p q I IQ N. rewrite PE in IQ. apply in_app_or in IQ as [IQ|IQ].
    + destruct (cm_ports _ _ CM pr pr' p q I IQ N) as (A & B & C & X & Y). split; [exact A|]. split; [exact B|]. split; [exact C|]. split; [|exact Y].
      intros IR. rewrite TN. apply moved_more. auto.
    + destruct (NEW pr' q IQ) as (_ & p' & IP' & MP & _). destruct (cm_once _ _ CM pr pr' p p' I IP') as [-> ->]; [|auto]. destruct MP as (<- & _). exact N.
  - exact (cm_once _ _ CM).
  - intros pr p n j t2 I X T. rewrite TN. destruct (cm_taken _ _ CM pr p n j t2 I X T) as [Y|Y]; [left; apply in_or_app; auto|auto].
  - intros t2 I. rewrite TN. destruct (cm_names _ _ CM t2 I) as [X|[X Y]]; [left; apply in_or_app; auto|]. right. split; [|exact Y].
    intros Z. unfold port_names in Z. apply in_map_iff in Z as (q & QN & IQ).
    assert (exists pr, In q (ports pr D')) as (pr & IQ') by (apply in_app_or in IQ as [?|?]; [exists true|exists false]; assumption).
    rewrite PE in IQ'. apply in_app_or in IQ' as [IQ'|IQ'].
    + apply X. rewrite <- QN. unfold port_names. apply in_map. destruct pr; apply in_or_app; auto.
    + destruct (NEW pr q IQ') as (_ & p & IP & (N & _) & _). apply Y. rewrite <- QN, N. unfold port_names. apply in_map. destruct pr; apply in_or_app; auto.
Qed.
Print Assumptions compatible_again.

(** The ports that are taken over come behind those that were there, in the order of the
    other node, and with repeated names once. *)
Theorem extend_order fuel W nd D other D2 W' nd' : settled W nd D -> settled W other D2 -> extend fuel W nd other = Ok (W', nd') ->
  exists D' (new : bool -> list pdef), merged D D2 D' /\ represents W' nd' D' /\ (forall pr, ports pr D' = ports pr D ++ new pr) /\
    forall pr, taken D2 D' (port_names D) (ports pr D2) (new pr).
Proof.
  intros S1 S2 E. destruct (extend_ordered fuel W nd D other D2 W' nd' (settled_inv _ _ _ S1) S2 E) as (D' & new & R & PE & TK).
  destruct (extend_merges fuel W nd D other D2 W' nd' S1 S2 E) as (D1 & M & R1 & _). assert (D1 = D') as -> by (eapply represents_unique; eauto).
  exists D', new. auto.
Qed.
Print Assumptions extend_order.

Lemma nodup_app_both {A} (a b : list A) : NoDup (a ++ b) -> NoDup a /\ NoDup b.
Proof.
  induction a as [|x a IH]; cbn [app]; intros N; [split; [constructor|exact N]|]. inversion N as [|? ? X N']; subst. destruct (IH N') as [P Q].
  split; [|exact Q]. constructor; [|exact P]. intros I. apply X. apply in_or_app. auto.
Qed.
Lemma taken_all D2 D' l : forall names new, taken D2 D' names l new -> NoDup (map pd_name l) -> (forall p, In p l -> ~ In (pd_name p) names) -> Forall2 (moved_port D2 D') l new.
Proof.
  induction l as [|p l IH]; intros names new T ND NI; inversion T as [|? ? ? ? I T'|? ? q ? new' N M T']; subst; [constructor|..].
  - exfalso. exact (NI p (or_introl eq_refl) I).
  - cbn [map] in ND. inversion ND as [|? ? X ND']; subst. constructor; [exact M|]. eapply IH; [exact T'|exact ND'|].
    intros x I [E|Y]; [|exact (NI x (or_intror I) Y)]. apply X. rewrite E. apply in_map. exact I.
Qed.

(** A new node can take over any definition whose ports have different names, whose
    types are movable and whose types and ports do not share names. *)
Theorem copy_into_new_node fuel W name other D2 : settled W other D2 -> NoDup (port_names D2) ->
  (forall pr p n j, In p (ports pr D2) -> pd_elem p = DRef n (RInt (Z.of_nat j)) -> movable D2 j) ->
  (forall nm, In nm (type_names D2) -> ~ In nm (port_names D2)) -> (length (df_types D2) <= fuel)%nat ->
  exists W' nd' D', extend fuel W (new_node name) other = Ok (W', nd') /\ represents W' nd' D' /\ df_name D' = name /\
    (forall pr, Forall2 (moved_port D2 D') (ports pr D2) (ports pr D')).
Proof.
  intros S2 ND MV NM FU.
  assert (settled W (new_node name) (mk_ndef name [] [] [])) as S1.
  { split; [|split; [|split; [|split]]].
    - constructor; cbn; try constructor; try contradiction; auto; try discriminate. intros (i & X & _). destruct i; discriminate.
    - constructor; cbn; try contradiction; [constructor|]. intros i t E. destruct i; discriminate.
    - split; cbn; contradiction.
    - intros t [].
    - left. intros o []. }
  assert (compatible (mk_ndef name [] [] []) D2) as CM.
  { constructor; cbn [df_types ports df_provide df_require].
    - intros t t2 [].
    - intros pr pr' p q _ IQ. destruct pr'; destruct IQ.
    - intros pr pr' p p' IP IP' N.
      assert (In p (df_provide D2 ++ df_require D2)) as A by (destruct pr; apply in_or_app; auto).
      assert (In p' (df_provide D2 ++ df_require D2)) as B by (destruct pr'; apply in_or_app; auto).
      assert (p' = p) as -> by (apply (names_nodup pd_name (df_provide D2 ++ df_require D2)); auto). split; [|reflexivity].
      destruct pr, pr'; try reflexivity; exfalso; cbn [ports] in *; unfold port_names in ND; rewrite map_app in ND;
        [apply in_split in IP as (a & b & X); apply in_split in IP' as (a' & b' & Y)|apply in_split in IP' as (a & b & X); apply in_split in IP as (a' & b' & Y)];
        rewrite X, Y, !map_app in ND; cbn [map] in ND; rewrite <- app_assoc in ND; cbn [app] in ND; apply NoDup_remove_2 in ND; apply ND; rewrite !in_app_iff; cbn; auto 10.
    - intros pr p n j t2 IP E _. right. eapply MV; eauto.
    - intros t2 I. right. split; [intros []|]. apply NM. unfold type_names. apply in_map. exact I. }
  destruct (compatible_merge fuel W (new_node name) _ other D2 S1 S2 CM FU) as (W' & nd' & D' & E & M & R & _). exists W', nd', D'.
  split; [exact E|]. split; [exact R|]. split; [exact (mg_name _ _ _ M)|].
  destruct (extend_order fuel W (new_node name) _ other D2 W' nd' S1 S2 E) as (D1 & new & _ & R1 & PE & TK).
  assert (D1 = D') as -> by (eapply represents_unique; eauto). intros pr. rewrite PE.
  replace (ports pr (mk_ndef name [] [] [])) with (@nil pdef) by (destruct pr; reflexivity). cbn [app].
  eapply taken_all; [apply TK| |intros p _ []]. unfold port_names in ND. rewrite map_app in ND. apply nodup_app_both in ND as [A B]. destruct pr; assumption.
Qed.
Print Assumptions copy_into_new_node.

(** Without these conditions the merge of a node that was read may fail: a type that has
    the name of a port already taken over, and a reference inside a nested record. *)
Local Open Scope string_scope.
Local Open Scope list_scope.
Theorem copy_into_new_node_refuted :
  (exists W other, loads empty_world (text_of ["N""b"""; "T""X""C"; "R""X""C"; "P""q""T[""X""]"]) = Ok (W, other) /\
    extend 20 W (new_node None) other = Err ValueError) /\
  (exists W other e, loads empty_world (text_of ["N""b"""; "T""X""C"; "T""Y""{""a""{""b""T[""X""]}}"; "P""q""T[""Y""]"]) = Ok (W, other) /\
    extend 20 W (new_node None) other = Err e).
Proof.
  split.
  - match goal with |- exists W nd, ?t = _ /\ _ => destruct t as [[W nd]|] eqn:E; [|vm_compute in E; discriminate] end.
    vm_compute in E. injection E as <- <-. do 2 eexists. split; [reflexivity|]. vm_compute. reflexivity.
  - match goal with |- exists W nd e, ?t = _ /\ _ => destruct t as [[W nd]|] eqn:E; [|vm_compute in E; discriminate] end.
    vm_compute in E. injection E as <- <-. do 3 eexists. split; [reflexivity|]. vm_compute. reflexivity.
Qed.
Print Assumptions copy_into_new_node_refuted.

(** Two compatible definitions, and what merging them gives. *)
Definition ex_A : ndef := mk_ndef (Some (lit "a")) [mk_tdef (Some (lit "t")) (DPrim None CU8 None None None) None]
  [mk_pdef (Some (lit "p")) (DRef None (RInt 0)) None] [].
Definition ex_B : ndef := mk_ndef (Some (lit "b"))
  [mk_tdef (Some (lit "v")) (DPrim None CU16 None None None) None; mk_tdef (Some (lit "t")) (DPrim None CU8 None None None) None;
   mk_tdef (Some (lit "r")) (DRec None [DRef (Some (lit "x")) (RInt 0); DRef (Some (lit "y")) (RInt 1)]) None]
  [mk_pdef (Some (lit "q")) (DRef None (RInt 2)) None; mk_pdef (Some (lit "p")) (DRef None (RInt 1)) None]
  [mk_pdef (Some (lit "s")) (DPrim None CU32 None None None) None].
Example ex_compatible : compatible ex_A ex_B.
Proof.
  constructor.
  - intros t t2 [<- |[]] I2 N. cbn in I2. destruct I2 as [<- |[<- |[<- |[]]]]; try discriminate. split; [reflexivity|]. split; [reflexivity|]. constructor.
  - intros pr pr' p q IP IQ N. destruct pr'; [|destruct IQ]. destruct IQ as [<- |[]]. destruct pr; cbn in IP.
    + destruct IP as [<- |[<- |[]]]; [discriminate|]. split; [reflexivity|]. split; [reflexivity|]. split; [reflexivity|]. split; [|intros X; exfalso; apply X; exact I].
      intros _. exact (mv_ref (type_names ex_B) (type_names ex_A) None 1%nat 0%nat (Some (lit "t")) eq_refl eq_refl).
    + destruct IP as [<- |[]]. discriminate.
  - intros pr pr' p p' IP IP' N. destruct pr, pr'; cbn in IP, IP'; repeat match goal with X : _ \/ _ |- _ => destruct X as [<- |X] | X : False |- _ => destruct X end; try discriminate; auto.
  - assert (movable ex_B 0) as M0 by (eapply mo_prim; reflexivity). assert (movable ex_B 1) as M1 by (eapply mo_prim; reflexivity).
    intros pr p n j t2 IP E T. right. destruct pr; cbn in IP; repeat match goal with X : _ \/ _ |- _ => destruct X as [<- |X] | X : False |- _ => destruct X end; try discriminate; cbn in E.
    + assert (j = 2)%nat as -> by (injection E as _ E; lia). eapply mo_rec; [reflexivity|reflexivity|].
      constructor; [exact (me_ref _ (Some (lit "x")) 0%nat M0)|]. constructor; [exact (me_ref _ (Some (lit "y")) 1%nat M1)|constructor].
    + assert (j = 1)%nat as -> by (injection E as _ E; lia). exact M1.
  - intros t2 I. cbn in I. destruct I as [<- |[<- |[<- |[]]]]; [right|left; left; reflexivity|right]; cbn; intuition discriminate.
Qed.
Example ex_merge_AB :
  extend_texts ["N""a"""; "T""t""C"; "P""p""T[0]"] ["N""b"""; "T""v""S"; "T""t""C"; "T""r""{""x""T[0]""y""T[1]}"; "P""q""T[2]"; "P""p""T[1]"; "R""s""L"]
  = Ok (text_of ["APX/1.2"; "N""a"""; "T""t""C"; "T""v""S"; "T""r""{""x""T[""v""]""y""T[""t""]}"; "P""p""T[""t""]"; "P""q""T[""r""]"; "R""s""L"; ""]).
Proof. vm_compute. reflexivity. Qed.
(** The two nodes read from these texts stand for the two definitions. *)
Example ex_AB_read : exists W nd W' other, loads empty_world (text_of ["N""a"""; "T""t""C"; "P""p""T[0]"]) = Ok (W, nd) /\
  loads W (text_of ["N""b"""; "T""v""S"; "T""t""C"; "T""r""{""x""T[0]""y""T[1]}"; "P""q""T[2]"; "P""p""T[1]"; "R""s""L"]) = Ok (W', other) /\
  Forall2 (type_is (w_types W') (n_types other)) (n_types other) (df_types ex_B).
Proof.
  match goal with |- exists W nd W1 other, ?t = _ /\ _ => destruct t as [[W nd]|] eqn:E; [|vm_compute in E; discriminate] end.
  vm_compute in E. injection E as <- <-. do 4 eexists. split; [reflexivity|]. split; [vm_compute; reflexivity|].
  cbn [n_types df_types ex_B w_types]. constructor; [|constructor; [|constructor; [|constructor]]]; (split; [reflexivity|split; [reflexivity|]]); try (vm_compute; constructor).
  constructor; [exact (st_ref [1; 2; 3]%nat _ 1%nat 0%nat eq_refl)|]. constructor; [exact (st_ref [1; 2; 3]%nat _ 2%nat 1%nat eq_refl)|constructor].
Qed.
