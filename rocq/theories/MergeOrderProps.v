(** Properties: merging nodes in another order (C84). *)
From Coq Require Import ZifyBool ZifyNat Lia.
From Coq Require Import String Permutation.
From Verif Require Import Py PyLemmas TypesModel TextModel SigModel AttrModel NodeModel ParserModel ToolsModel.
From Verif Require Import SigSpec NodeSpec ParserSpec MergeSpec MergeOkSpec MergeOrderSpec NodeProofs FinalizeProofs ExtendProofs FilesProofs FilesProofs2 MergeOkProofs MergeOrderProofs ParserProps NodeProps MergeOkProps.
Ltac Zify.zify_post_hook ::= Z.div_mod_to_equations.

Lemma merged_once D D2 X : merged D D2 X -> NoDup (port_names D) -> NoDup (port_names X).
Proof.
  intros M ND. destruct (mg_ports _ _ _ M) as (new & PE & NN & NEW).
  assert (Permutation (port_names X) (port_names D ++ map pd_name (new true ++ new false))) as P.
  { unfold port_names. rewrite <- map_app. apply Permutation_map. pose proof (PE true) as A. pose proof (PE false) as B. cbn [ports] in A, B. rewrite A, B.
    rewrite <- !app_assoc. apply Permutation_app_head. rewrite !app_assoc. apply Permutation_app_tail. apply Permutation_app_comm. }
  apply (Permutation_NoDup (Permutation_sym P)). clear P.
  assert (forall nm, In nm (map pd_name (new true ++ new false)) -> ~ In nm (port_names D)) as OUT.
  { intros nm I. apply in_map_iff in I as (q & <- & I). apply in_app_or in I as [I|I]; apply (NEW _ q I). }
  revert ND OUT. generalize (port_names D). intros l. induction l as [|x l IH]; intros ND OUT; [exact NN|]. inversion ND as [|? ? NI ND']; subst. cbn [app]. constructor.
  - intros I. apply in_app_or in I as [I|I]; [auto|]. apply (OUT x I). left. reflexivity.
  - apply IH; [exact ND'|]. intros nm I J. apply (OUT nm I). right. exact J.
Qed.

Lemma extend_all_gathers fuel l : forall W nd D Ds W' nd', inv W nd D -> gathers Ds D -> Forall (fun x => src W (fst x) (snd x)) l ->
  extend_all fuel W nd (map fst l) = Ok (W', nd') ->
  exists X, inv W' nd' X /\ gathers (Ds ++ map snd l) X /\ wle W W' /\ (NoDup (port_names D) -> NoDup (port_names X)).
Proof.
  induction l as [|[o D2] l IH]; intros W nd D Ds W' nd' IN G FA E.
  - cbn in E. injection E as <- <-. exists D. split; [exact IN|]. split; [cbn; rewrite app_nil_r; exact G|]. split; [apply wle_refl|auto].
  - cbn [map fst extend_all] in E. destruct (extend fuel W nd o) as [[W1 n1]|] eqn:E1; [|discriminate].
    cbn [bind] in E. inversion FA as [|? ? S2 FA']; subst. cbn [fst snd] in S2.
    destruct (extend_rep fuel W nd D o D2 W1 n1 IN S2 E1) as (D1 & M & IN1 & WL & _ & _).
    assert (gathers [D; D2] D1) as G1.
    { apply merged_gathers; [apply IN|apply S2|apply IN1|exact M]. }
    assert (gathers (Ds ++ [D2]) D1) as G2.
    { eapply (gathers_trans _ [D; D2] D D2); [auto|exact G1|exact G|apply gathers_one; apply S2|left; reflexivity|right; left; reflexivity|]. intros X. apply in_app_iff. }
    destruct (IH W1 n1 D1 (Ds ++ [D2]) W' nd' IN1 G2) as (X & INX & GX & WX & NX); [|exact E|].
    { eapply Forall_impl; [|exact FA']. intros x SX. eapply src_wle; eauto. }
    exists X. split; [exact INX|]. split; [cbn [map snd]; rewrite <- app_assoc in GX; exact GX|]. split; [eapply wle_trans; eauto|].
    intros ND. apply NX. eapply merged_once; eauto.
Qed.

Lemma gathers_incl Ds Es X : gathers Ds X -> (forall E, In E Ds <-> In E Es) -> gathers Es X.
Proof.
  intros G IFF. constructor.
  - apply G.
  - intros D I. apply IFF in I. apply (ga_from _ _ G D I).
  - intros D pr p I. apply IFF in I. apply (ga_has _ _ G D pr p I).
  - intros pr q I. destruct (ga_port _ _ G pr q I) as (D & p & ID & R). exists D, p. split; [apply IFF; exact ID|exact R].
  - intros t I. destruct (ga_type _ _ G t I) as (D & p & ID & R). exists D, p. split; [apply IFF; exact ID|exact R].
Qed.
(** What two definitions with the ports of the same definitions have in common. *)
Definition alike (Ds : list ndef) (X Y : ndef) : Prop :=
  ports_in (moved_port X Y) X Y /\ ports_in (moved_port Y X) Y X /\
  ((forall D E, In D Ds -> In E Ds -> D = E \/ types_agree D E) ->
    types_agree X Y /\ ports_in (same_data X Y) X Y /\ ports_in (same_data Y X) Y X).
Lemma gathers_alike Ds X Y : gathers Ds X -> gathers Ds Y -> alike Ds X Y.
Proof.
  intros G G'. pose proof (gathers_moved _ _ _ _ G G' (fun _ i => i)) as A. pose proof (gathers_moved _ _ _ _ G' G (fun _ i => i)) as B.
  split; [exact A|]. split; [exact B|]. intros AG. assert (types_agree X Y) as T.
  { eapply gathers_types; [exact G|exact G'|]. intros D E ID IE. destruct (AG D E ID IE) as [<- |AE]; [|exact AE]. apply agree_self. apply (ga_from _ _ G D ID). }
  split; [exact T|]. split; intros pr p I.
  - destruct (A pr p I) as (q & IQ & M). exists q. split; [exact IQ|]. eapply moved_data; [apply G|apply agree_sym; exact T|exact I|exact M].
  - destruct (B pr p I) as (q & IQ & M). exists q. split; [exact IQ|]. eapply moved_data; [apply G'|exact T|exact I|exact M].
Qed.
Lemma ports_names X Y pr : NoDup (port_names X) -> NoDup (port_names Y) -> ports_in (moved_port X Y) X Y -> ports_in (moved_port Y X) Y X ->
  Permutation (map pd_name (ports pr X)) (map pd_name (ports pr Y)).
Proof.
  intros NX NY A B. unfold port_names in NX, NY. rewrite map_app in NX, NY. apply nodup_app_both in NX as [NX1 NX2]. apply nodup_app_both in NY as [NY1 NY2].
  apply NoDup_Permutation; [destruct pr; assumption|destruct pr; assumption|]. intros nm. split; intros I; apply in_map_iff in I as (p & <- & I).
  - destruct (A pr p I) as (q & IQ & (N & _)). rewrite <- N. apply in_map. exact IQ.
  - destruct (B pr p I) as (q & IQ & (N & _)). rewrite <- N. apply in_map. exact IQ.
Qed.

(** [extend_all] is what apx_join does: [a.extend(b); a.extend(c); …].
    Whichever of the nodes is extended by all the others, and in whichever order: if all
    merges succeed, the results have the same ports.  If also the types that two of the
    nodes share are declared in the same way, types of the same name are the same in both
    results and every port has the same data.  If the node that is extended has no port
    twice, neither has the result.  (The nodes are different objects.) *)
Theorem merge_any_order fuel W a D l b E m W1 n1 W2 n2 :
  Forall (fun x => settled W (fst x) (snd x)) ((a, D) :: l) -> Permutation ((a, D) :: l) ((b, E) :: m) ->
  extend_all fuel W a (map fst l) = Ok (W1, n1) -> extend_all fuel W b (map fst m) = Ok (W2, n2) ->
  exists X Y, represents W1 n1 X /\ represents W2 n2 Y /\ alike (map snd ((a, D) :: l)) X Y /\
    (NoDup (port_names D) -> NoDup (port_names E) -> forall pr, Permutation (map pd_name (ports pr X)) (map pd_name (ports pr Y))).
Proof.
  intros FA P E1 E2. assert (Forall (fun x => settled W (fst x) (snd x)) ((b, E) :: m)) as FB by (eapply Permutation_Forall; eauto).
  inversion FA as [|? ? SA FA']; subst. inversion FB as [|? ? SB FB']; subst. cbn [fst snd] in SA, SB.
  destruct (extend_all_gathers fuel l W a D [D] W1 n1 (settled_inv _ _ _ SA)) as (X & IX & GX & _ & NX); [apply gathers_one; apply SA|exact FA'|exact E1|].
  destruct (extend_all_gathers fuel m W b E [E] W2 n2 (settled_inv _ _ _ SB)) as (Y & IY & GY & _ & NY); [apply gathers_one; apply SB|exact FB'|exact E2|].
  exists X, Y. split; [apply IX|]. split; [apply IY|].
  assert (gathers (map snd ((a, D) :: l)) Y) as GY'.
  { eapply gathers_incl; [exact GY|]. intros Z. apply (Permutation_map snd) in P. split; intros I; [apply (Permutation_in _ (Permutation_sym P))|apply (Permutation_in _ P)]; exact I. }
  pose proof (gathers_alike _ _ _ GX GY') as AL. split; [exact AL|]. intros N1 N2 pr. destruct AL as (A & B & _). apply ports_names; auto.
Qed.
Print Assumptions merge_any_order.

(** Nor does it matter how the merges are grouped. *)
Theorem merge_any_grouping fuel W a D1 b D2 c D3 Wl l1 Wm left Wr r1 Wn right :
  settled W a D1 -> settled W b D2 -> settled W c D3 ->
  extend fuel W a b = Ok (Wl, l1) -> extend fuel Wl l1 c = Ok (Wm, left) ->
  extend fuel W b c = Ok (Wr, r1) -> (untagged W b) -> extend fuel Wr a r1 = Ok (Wn, right) ->
  exists X Y, represents Wm left X /\ represents Wn right Y /\ alike [D1; D2; D3] X Y.
Proof.
  intros SA SB SC E1 E2 E3 UB E4.
  destruct (extend_all_gathers fuel [(b, D2); (c, D3)] W a D1 [D1] Wm left (settled_inv _ _ _ SA)) as (X & IX & GX & _ & _);
    [apply gathers_one; apply SA|constructor; [exact SB|constructor; [exact SC|constructor]]|cbn [map fst extend_all]; rewrite E1; cbn [bind]; rewrite E2; reflexivity|].
  destruct (extend_rep fuel W b D2 c D3 Wr r1 (settled_inv _ _ _ SB) SC E3) as (D23 & M23 & IN23 & WL & _ & _).
  destruct (extend_merges fuel W b D2 c D3 Wr r1 SB SC E3) as (D23' & _ & R' & _ & _ & _ & ST & _).
  assert (D23' = D23) as -> by (eapply represents_unique; [exact R'|apply IN23]). specialize (ST UB).
  assert (src Wr a D1) as SA' by (eapply src_wle; [exact WL|exact SA]).
  destruct (extend_rep fuel Wr a D1 r1 D23 Wn right (src_inv _ _ _ SA') ST E4) as (Y & MY & IY & _ & _ & _).
  exists X, Y. split; [apply IX|]. split; [apply IY|]. apply gathers_alike; [exact GX|].
  eapply (gathers_trans _ [D1; D23] D1 D23); [auto|apply merged_gathers; [apply SA|apply ST|apply IY|exact MY]|apply gathers_one; apply SA|
    apply merged_gathers; [apply SB|apply SC|apply ST|exact M23]|left; reflexivity|right; left; reflexivity|].
  intros Z. cbn. tauto.
Qed.
Print Assumptions merge_any_grouping.

Local Open Scope string_scope.
Local Open Scope list_scope.
(** Without the condition on types it does matter: both orders succeed, no type of a port
    is declared in two ways, and yet the element of [p] is a byte in one result and a
    16 bit number in the other.  Types below the type of a port are not compared. *)
Theorem merge_any_order_refuted :
  extend_texts ["N""a"""; "T""u""C"; "T""t""{""x""T[""u""]}"; "P""p""T[""t""]"] ["N""b"""; "T""u""S"; "T""t""{""x""T[""u""]}"; "R""q""C"] =
    Ok (text_of ["APX/1.2"; "N""a"""; "T""u""C"; "T""t""{""x""T[""u""]}"; "P""p""T[""t""]"; "R""q""C"; ""]) /\
  extend_texts ["N""b"""; "T""u""S"; "T""t""{""x""T[""u""]}"; "R""q""C"] ["N""a"""; "T""u""C"; "T""t""{""x""T[""u""]}"; "P""p""T[""t""]"] =
    Ok (text_of ["APX/1.2"; "N""b"""; "T""u""S"; "T""t""{""x""T[""u""]}"; "P""p""T[""t""]"; "R""q""C"; ""]).
Proof. vm_compute. auto. Qed.
Print Assumptions merge_any_order_refuted.
(** Nor need the other order succeed: the type [v] is only compared if a port brings it. *)
Theorem merge_other_order_refuted :
  (exists s, extend_texts ["N""a"""; "T""v""C"; "P""p""T[""v""]"] ["N""b"""; "T""v""S"; "R""q""C"] = Ok s) /\
  extend_texts ["N""b"""; "T""v""S"; "R""q""C"] ["N""a"""; "T""v""C"; "P""p""T[""v""]"] = Err ValueError.
Proof. vm_compute. eauto. Qed.
Print Assumptions merge_other_order_refuted.
(** The order of the ports, and the types no port needs, do depend on it. *)
Example ex_merge_order :
  extend_texts ["N""a"""; "T""w""C"; "T""t""C"; "P""p""T[""t""]"; "P""r""S"] ["N""b"""; "T""t""C"; "T""z""L"; "P""q""T[""t""]"; "P""r""S"] =
    Ok (text_of ["APX/1.2"; "N""a"""; "T""w""C"; "T""t""C"; "P""p""T[""t""]"; "P""r""S"; "P""q""T[""t""]"; ""]) /\
  extend_texts ["N""b"""; "T""t""C"; "T""z""L"; "P""q""T[""t""]"; "P""r""S"] ["N""a"""; "T""w""C"; "T""t""C"; "P""p""T[""t""]"; "P""r""S"] =
    Ok (text_of ["APX/1.2"; "N""b"""; "T""t""C"; "T""z""L"; "P""q""T[""t""]"; "P""r""S"; "P""p""T[""t""]"; ""]).
Proof. vm_compute. auto. Qed.
(** A port of a record type, with the declarations in place of the references. *)
Definition ex_R : ndef := mk_ndef (Some (lit "b"))
  [mk_tdef (Some (lit "v")) (DPrim None CU16 None None None) None; mk_tdef (Some (lit "r")) (DRec None [DRef (Some (lit "x")) (RInt 0); DPrim (Some (lit "y")) CU8 None None None]) None]
  [mk_pdef (Some (lit "q")) (DRef None (RInt 1)) None] [].
Example ex_expands : expands ex_R (DRef None (RInt 1)) (DRec None [DPrim (Some (lit "x")) CU16 None None None; DPrim (Some (lit "y")) CU8 None None None]).
Proof.
  refine (xp_ref ex_R None 1%nat _ (DRec None _) eq_refl _). constructor. constructor; [|constructor; [constructor|constructor]].
  refine (xp_ref ex_R (Some (lit "x")) 0%nat _ (DPrim None CU16 None None None) eq_refl _). constructor.
Qed.
Fixpoint load_all (W : world) (texts : list (list String.string)) : res (world * list node) :=
  match texts with
  | [] => Ok (W, [])
  | t :: r => do '(W1, nd) <- loads W (text_of t); do '(W2, l) <- load_all W1 r; Ok (W2, nd :: l)
  end.
Definition merge_texts (base : list String.string) (others : list (list String.string)) : res str :=
  do '(W, l) <- load_all empty_world (base :: others);
  match l with nd :: r => do '(W1, n1) <- extend_all 20 W nd r; context_dumps false W1 [n1] | [] => Err ValueError end.
Example ex_merge_three :
  let a := ["N""a"""; "T""t""C"; "P""p""T[""t""]"] in let b := ["N""b"""; "T""t""C"; "R""q""T[""t""]"] in let c := ["N""c"""; "T""r""{""x""S}"; "P""s""T[""r""]"; "R""q""C"] in
  let d := ["N""c"""; "T""r""{""x""S}"; "T""t""C"; "P""s""T[""r""]"; "P""p""T[""t""]"] in
  merge_texts a [b; d] = Ok (text_of ["APX/1.2"; "N""a"""; "T""t""C"; "T""r""{""x""S}"; "P""p""T[""t""]"; "P""s""T[""r""]"; "R""q""T[""t""]"; ""]) /\
  merge_texts d [a; b] = Ok (text_of ["APX/1.2"; "N""c"""; "T""r""{""x""S}"; "T""t""C"; "P""s""T[""r""]"; "P""p""T[""t""]"; "R""q""T[""t""]"; ""]) /\
  merge_texts a [b; c] = Err ValueError.
Proof. vm_compute. auto. Qed.
