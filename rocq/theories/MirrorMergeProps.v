(** Properties: mirroring and merging (C85). *)
From Coq Require Import ZifyBool ZifyNat Lia.
From Coq Require Import String Permutation.
From Verif Require Import Py PyLemmas TypesModel TextModel SigModel AttrModel NodeModel ParserModel.
From Verif Require Import SigSpec NodeSpec ParserSpec MergeSpec MergeOkSpec MergeOrderSpec NodeProofs FinalizeProofs MirrorProofs ExtendProofs FilesProofs FilesProofs2 MergeOkProofs MergeOrderProofs ParserProps NodeProps MergeOkProps MergeOrderProps.
Ltac Zify.zify_post_hook ::= Z.div_mod_to_equations.

Lemma new_ports_counts l : forall W W' os, new_ports W l = (W', os) -> w_ntypes W' = w_ntypes W /\ (w_nports W <= w_nports W')%nat.
Proof.
  induction l as [|p l IH]; intros W W' os E; [injection E as <- <-; auto|]. cbn [new_ports] in E.
  destruct (new_port W p) as [W1 o] eqn:P. destruct (new_ports W1 l) as [W2 os2] eqn:Q. injection E as <- <-.
  destruct (IH _ _ _ Q) as (A & B). injection P as <- <-. cbn [w_ntypes w_nports] in A, B. split; [exact A|lia].
Qed.
Lemma resolve_ports_counts types l : forall W W', resolve_ports W types l = Ok W' -> w_ntypes W' = w_ntypes W /\ w_nports W' = w_nports W.
Proof.
  induction l as [|o l IH]; intros W W' E; [injection E as <-; auto|]. cbn [resolve_ports] in E. destruct (resolve_port W types (w_ports W o)); [|discriminate].
  exact (IH _ _ E).
Qed.
Lemma mirror_counts W nd name W' nd' : mirror W nd name = Ok (W', nd') -> (w_ntypes W <= w_ntypes W')%nat /\ (w_nports W <= w_nports W')%nat.
Proof.
  unfold mirror. intros E. inv_bind E. inv_bind E.
  destruct (new_ports (copy_types W) a) as [W2 rs] eqn:N1. destruct (new_ports W2 a0) as [W3 ps] eqn:N2. inv_bind E. injection E as <- _.
  destruct (new_ports_counts _ _ _ _ N1) as (A & B). destruct (new_ports_counts _ _ _ _ N2) as (A2 & B2). destruct (resolve_ports_counts _ _ _ _ Ha1) as (A3 & B3).
  unfold copy_types in A, B. cbn [w_ntypes w_nports] in A, B. lia.
Qed.
Lemma mirror_settled W nd D name : settled W nd D -> exists W' nd', mirror W nd name = Ok (W', nd') /\ settled W' nd' (mirrored name D) /\ wle W W'.
Proof.
  intros (R & L & C & T & TG). destruct (mirror_rep W nd D name R L TG C) as (W' & nd' & E & R' & _ & U & TT & _ & WT & WP). exists W', nd'. split; [exact E|]. split.
  - split; [exact R'|]. split; [apply linked_mirrored; exact L|]. split; [apply copyable_mirrored; exact C|]. split; [exact T|]. destruct TG; [left|right]; auto.
  - destruct (mirror_counts _ _ _ _ _ E) as (A & B). split; [exact A|]. split; [exact B|]. split; [exact WT|exact WP].
Qed.
Lemma settled_wle W W' nd D : wle W W' -> settled W nd D -> settled W' nd D.
Proof. exact (src_wle W W' nd D). Qed.

Lemma ports_mirrored name D pr : ports pr (mirrored name D) = ports (negb pr) D.
Proof. destruct pr; reflexivity. Qed.
Lemma port_names_mirrored name D nm : In nm (port_names (mirrored name D)) <-> In nm (port_names D).
Proof. unfold port_names. cbn [mirrored df_provide df_require]. rewrite !map_app, !in_app_iff. tauto. Qed.
Lemma moved_port_mirrored n n2 D D2 p q : moved_port D D2 p q -> moved_port (mirrored n D) (mirrored n2 D2) p q.
Proof. auto. Qed.
Lemma movable_mirrored n D : forall i, movable D i -> movable (mirrored n D) i.
Proof.
  fix F 2. intros i [j t nm c lo hi k T E|j t nm es T E M].
  - exact (mo_prim (mirrored n D) j t nm c lo hi k T E).
  - apply (mo_rec (mirrored n D) j t nm es T E). clear T E. induction M as [|e es X M IH]; constructor; [|exact IH].
    destruct X as [e R|nm' j' MV]; [exact (me_plain _ _ R)|]. exact (me_ref _ nm' j' (F j' MV)).
Qed.
Lemma compatible_mirrored n n2 D D2 : compatible D D2 -> compatible (mirrored n D) (mirrored n2 D2).
Proof.
  intros [A B C E F]. constructor.
  - exact A.
  - intros pr pr' p q I J N. rewrite ports_mirrored in I, J. destruct (B _ _ _ _ I J N) as (X & Y). split; [destruct pr, pr'; cbn in X; congruence|exact Y].
  - intros pr pr' p q I J N. rewrite ports_mirrored in I, J. destruct (C _ _ _ _ I J N) as (X & Y). split; [destruct pr, pr'; cbn in X; congruence|exact Y].
  - intros pr p nm j t2 I X T. rewrite ports_mirrored in I. destruct (E _ _ _ _ _ I X T) as [Y|Y]; [left; exact Y|right; apply movable_mirrored; exact Y].
  - intros t2 I. destruct (F t2 I) as [X|(X & Y)]; [left; exact X|right]. rewrite !port_names_mirrored. auto.
Qed.
Lemma gathers_mirrored n1 n2 n D D2 X : gathers [D; D2] X -> gathers [mirrored n1 D; mirrored n2 D2] (mirrored n X).
Proof.
  intros G. pose proof (ga_from _ _ G D (or_introl eq_refl)) as L1. pose proof (ga_from _ _ G D2 (or_intror (or_introl eq_refl))) as L2. constructor.
  - apply linked_mirrored. apply G.
  - intros E [<- |[<- |[]]]; apply linked_mirrored; assumption.
  - intros E pr p I IP. destruct I as [<- |[<- |[]]]; rewrite ports_mirrored in IP |- *.
    + destruct (ga_has _ _ G D _ p (or_introl eq_refl) IP) as (q & IQ & M). exists q. auto.
    + destruct (ga_has _ _ G D2 _ p (or_intror (or_introl eq_refl)) IP) as (q & IQ & M). exists q. auto.
  - intros pr q I. rewrite ports_mirrored in I. destruct (ga_port _ _ G _ q I) as (E & p & [<- |[<- |[]]] & IP & M).
    + exists (mirrored n1 D), p. split; [left; reflexivity|]. rewrite ports_mirrored. auto.
    + exists (mirrored n2 D2), p. split; [right; left; reflexivity|]. rewrite ports_mirrored. auto.
  - intros t I. destruct (ga_type _ _ G t I) as (E & u & [<- |[<- |[]]] & IU & M).
    + exists (mirrored n1 D), u. split; [left; reflexivity|]. auto.
    + exists (mirrored n2 D2), u. split; [right; left; reflexivity|]. auto.
Qed.

(** The mirror of the merged node has the ports of the merged mirrors, if both merges
    succeed. *)
Theorem mirror_of_merge fuel W a D b D2 na nb n V ab W1 ma W2 mb W3 m : settled W a D -> settled W b D2 -> untagged W a ->
  extend fuel W a b = Ok (V, ab) ->
  mirror W a na = Ok (W1, ma) -> mirror W1 b nb = Ok (W2, mb) -> extend fuel W2 ma mb = Ok (W3, m) ->
  exists V' mab X Y, mirror V ab n = Ok (V', mab) /\ represents V' mab X /\ represents W3 m Y /\
    alike [mirrored na D; mirrored nb D2] X Y /\ (na = n -> df_name X = df_name Y).
Proof.
  intros SA SB UA E EA EB EM. destruct (extend_merges fuel W a D b D2 V ab SA SB E) as (D' & MD & R' & L' & _ & _ & ST & _). specialize (ST UA).
  destruct (mirror_settled V ab D' n ST) as (V' & mab & EV & SV & _).
  destruct (mirror_settled W a D na SA) as (W1' & ma' & EA' & SMA & WL1). rewrite EA in EA'. apply (f_equal (fun r => match r with Ok x => x | Err _ => (W1, ma) end)) in EA'. injection EA' as <- <-.
  destruct (mirror_settled W1 b D2 nb (settled_wle _ _ _ _ WL1 SB)) as (W2' & mb' & EB' & SMB & WL2). rewrite EB in EB'. apply (f_equal (fun r => match r with Ok x => x | Err _ => (W2, mb) end)) in EB'. injection EB' as <- <-.
  destruct (extend_merges fuel W2 ma _ mb _ W3 m (settled_wle _ _ _ _ WL2 SMA) SMB EM) as (Y & MY & RY & LY & _).
  exists V', mab, (mirrored n D'), Y. split; [exact EV|]. split; [apply SV|]. split; [exact RY|]. split.
  - apply gathers_alike.
    + apply gathers_mirrored. apply merged_gathers; [apply SA|apply SB|exact L'|exact MD].
    + apply merged_gathers; [apply SMA|apply SMB|exact LY|exact MY].
  - intros <-. rewrite (mg_name _ _ _ MY). cbn [mirrored df_name]. rewrite (mg_name _ _ _ MD). reflexivity.
Qed.
Print Assumptions mirror_of_merge.

(** For compatible definitions both succeed, and the data of the ports are the same. *)
Theorem mirror_of_compatible_merge fuel W a D b D2 na nb : settled W a D -> settled W b D2 -> untagged W a -> compatible D D2 -> (length (df_types D2) <= fuel)%nat ->
  exists V ab V' mab W1 ma W2 mb W3 m X Y,
    extend fuel W a b = Ok (V, ab) /\ mirror V ab na = Ok (V', mab) /\
    mirror W a na = Ok (W1, ma) /\ mirror W1 b nb = Ok (W2, mb) /\ extend fuel W2 ma mb = Ok (W3, m) /\
    represents V' mab X /\ represents W3 m Y /\ df_name X = df_name Y /\
    types_agree X Y /\ ports_in (same_data X Y) X Y /\ ports_in (same_data Y X) Y X.
Proof.
  intros SA SB UA CM FU. destruct (compatible_merge fuel W a D b D2 SA SB CM FU) as (V & ab & D' & E & _).
  destruct (mirror_settled W a D na SA) as (W1 & ma & EA & SMA & WL1). destruct (mirror_settled W1 b D2 nb (settled_wle _ _ _ _ WL1 SB)) as (W2 & mb & EB & SMB & WL2).
  destruct (compatible_merge fuel W2 ma _ mb _ (settled_wle _ _ _ _ WL2 SMA) SMB (compatible_mirrored na nb _ _ CM) FU) as (W3 & m & Y0 & EM & _).
  destruct (mirror_of_merge fuel W a D b D2 na nb na V ab W1 ma W2 mb W3 m SA SB UA E EA EB EM) as (V' & mab & X & Y & EV & RX & RY & (_ & _ & AL) & N).
  exists V, ab, V', mab, W1, ma, W2, mb, W3, m, X, Y. repeat (split; [solve [auto]|]). apply AL.
  intros F G [<- |[<- |[]]] [<- |[<- |[]]]; [left; reflexivity|right|right|left; reflexivity].
  - exact (cm_types _ _ CM).
  - apply (agree_sym (mirrored na D) (mirrored nb D2)). exact (cm_types _ _ CM).
Qed.
Print Assumptions mirror_of_compatible_merge.

Local Open Scope string_scope.
Local Open Scope list_scope.
Definition merge_then_mirror (a b : list String.string) : res str :=
  do '(W, nd) <- loads empty_world (text_of a); do '(W, other) <- loads W (text_of b);
  do '(W, nd) <- extend 20 W nd other; do '(W, nd) <- mirror W nd None; context_dumps false W [nd].
Definition mirror_then_merge (a b : list String.string) : res str :=
  do '(W, nd) <- loads empty_world (text_of a); do '(W, other) <- loads W (text_of b);
  do '(W, nd) <- mirror W nd None; do '(W, other) <- mirror W other None;
  do '(W, nd) <- extend 20 W nd other; context_dumps false W [nd].
Example ex_mirror_merge :
  let a := ["N""a"""; "T""t""C"; "P""p""T[""t""]"; "R""x""L"] in
  let b := ["N""b"""; "T""t""C"; "T""v""S"; "T""r""{""x""T[""v""]""y""T[""t""]}"; "P""q""T[""r""]"; "P""p""T[""t""]"; "R""s""T[""t""]"] in
  let c := text_of ["APX/1.2"; "N""a"""; "T""t""C"; "T""v""S"; "T""r""{""x""T[""v""]""y""T[""t""]}"; "P""x""L"; "P""s""T[""t""]"; "R""p""T[""t""]"; "R""q""T[""r""]"; ""] in
  merge_then_mirror a b = Ok c /\ mirror_then_merge a b = Ok c.
Proof. vm_compute. auto. Qed.
(** Whether the merge succeeds can depend on the direction of the ports: require ports
    are taken over first, and a port that has been taken over hides a type of its name. *)
Theorem mirror_of_merge_refuted :
  let a := ["N""a"""] in let b := ["N""b"""; "T""X""C"; "P""X""C"; "R""q""T[""X""]"] in
  (exists s, merge_then_mirror a b = Ok s) /\ mirror_then_merge a b = Err ValueError.
Proof. vm_compute. eauto. Qed.
Print Assumptions mirror_of_merge_refuted.
