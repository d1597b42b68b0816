(** Lemmas on merging in different orders. *)
From Coq Require Import ZifyBool ZifyNat Lia.
From Verif Require Import Py PyLemmas TypesModel TextModel SigModel AttrModel NodeModel.
From Verif Require Import SigSpec NodeSpec MergeSpec MergeOkSpec MergeOrderSpec NodeProofs FinalizeProofs ExtendProofs FilesProofs NodeProps.
Ltac Zify.zify_post_hook ::= Z.div_mod_to_equations.

Lemma moved_sym N N' a b : moved N N' a b -> moved N' N b a.
Proof.
  revert a b. apply (moved_mind N N' (fun a b _ => moved N' N b a) (fun l m _ => moveds N' N m l)); intros; try (constructor; auto; fail).
  econstructor; eauto.
Qed.
Lemma moved_trans N1 N2 N3 a b : moved N1 N2 a b -> NoDup N2 -> forall c, moved N2 N3 b c -> moved N1 N3 a c.
Proof.
  intros M ND. revert a b M.
  apply (moved_mind N1 N2 (fun a b _ => forall c, moved N2 N3 b c -> moved N1 N3 a c) (fun l m _ => forall k, moveds N2 N3 m k -> moveds N1 N3 l k)).
  - intros n c lo hi k x X. inversion X; subst. constructor.
  - intros n i j nm A B x X. inversion X as [|? i' j' nm' A' B'|]; subst. assert (i' = j) as -> by lia. econstructor; [exact A|]. congruence.
  - intros n l l' M IH x X. inversion X; subst. constructor. auto.
  - intros k X. inversion X; subst. constructor.
  - intros a a' l l' M IH Ms IHs k X. inversion X; subst. constructor; auto.
Qed.
Lemma ref_dec e : is_ref e \/ ~ is_ref e.
Proof. destruct e; cbn; auto. Qed.
Lemma moved_port_ref D D' p q : moved_port D D' p q -> is_ref (pd_elem p) <-> is_ref (pd_elem q).
Proof.
  intros (_ & _ & A & B). destruct (ref_dec (pd_elem p)) as [R|R]; [exact (moved_ref _ _ _ _ (A R))|]. rewrite (B R). tauto.
Qed.
Lemma moved_port_sym D D' p q : moved_port D D' p q -> moved_port D' D q p.
Proof.
  intros M. pose proof (moved_port_ref _ _ _ _ M) as R. destruct M as (N & AT & A & B). split; [auto|]. split; [auto|]. split.
  - intros I. apply moved_sym. apply A. tauto.
  - intros I. symmetry. apply B. tauto.
Qed.
Lemma moved_port_trans D1 D2 D3 p q r : NoDup (type_names D2) -> moved_port D1 D2 p q -> moved_port D2 D3 q r -> moved_port D1 D3 p r.
Proof.
  intros ND M M'. pose proof (moved_port_ref _ _ _ _ M) as R. destruct M as (N & AT & A & B), M' as (N' & AT' & A' & B').
  split; [congruence|]. split; [congruence|]. split.
  - intros I. eapply moved_trans; [apply A; exact I|exact ND|]. apply A'. tauto.
  - intros I. rewrite B' by tauto. auto.
Qed.
Lemma same_type_sym D D' t t' : same_type D D' t t' -> same_type D' D t' t.
Proof. intros (A & B & C). split; [auto|]. split; [auto|]. apply moved_sym. exact C. Qed.
Lemma same_type_trans D1 D2 D3 t u v : NoDup (type_names D2) -> same_type D1 D2 t u -> same_type D2 D3 u v -> same_type D1 D3 t v.
Proof. intros ND (A & B & C) (A' & B' & C'). split; [congruence|]. split; [congruence|]. eapply moved_trans; eauto. Qed.
Lemma same_type_refl D t : linked D -> In t (df_types D) -> same_type D D t t.
Proof.
  intros L I. split; [auto|]. split; [auto|]. apply In_nth_error in I as (i & E). apply (moved_refl _ i); [|apply (ln_below _ L i t E)].
  assert (i < length (df_types D))%nat by (apply nth_error_Some; congruence). unfold type_names. rewrite map_length. lia.
Qed.
Lemma in_ports pr D p : In p (ports pr D) -> In p (df_provide D ++ df_require D).
Proof. intros I. apply in_or_app. destruct pr; auto. Qed.
Lemma moved_port_refl pr D p : linked D -> In p (ports pr D) -> moved_port D D p p.
Proof.
  intros L I. split; [auto|]. split; [auto|]. split; [|auto]. intros R. destruct (ln_ports _ L p (in_ports _ _ _ I)) as (G & _). destruct (G R) as (B & _).
  eapply moved_refl; [|exact B]. unfold type_names. rewrite map_length. lia.
Qed.

(** [gathers Ds X]: [X] has the ports of the definitions [Ds] and no others, and its types
    are from them. *)
Record gathers (Ds : list ndef) (X : ndef) : Prop := {
  ga_linked : linked X;
  ga_from : forall D, In D Ds -> linked D;
  ga_has : forall D pr p, In D Ds -> In p (ports pr D) -> exists q, In q (ports pr X) /\ moved_port D X p q;
  ga_port : forall pr q, In q (ports pr X) -> exists D p, In D Ds /\ In p (ports pr D) /\ moved_port D X p q;
  ga_type : forall t, In t (df_types X) -> exists D u, In D Ds /\ In u (df_types D) /\ same_type D X u t
}.
Lemma gathers_one D : linked D -> gathers [D] D.
Proof.
  intros L. constructor; auto.
  - intros E [<- |[]]. exact L.
  - intros E pr p [<- |[]] I. exists p. split; [exact I|]. eapply moved_port_refl; eauto.
  - intros pr q I. exists D, q. split; [left; reflexivity|]. split; [exact I|]. eapply moved_port_refl; eauto.
  - intros t I. exists D, t. split; [left; reflexivity|]. split; [exact I|]. apply same_type_refl; auto.
Qed.
Lemma gathers_trans Ds Es D D2 X : (forall q, In q Es -> In q [D; D2]) -> gathers Es X -> forall L1 L2, gathers L1 D -> gathers L2 D2 ->
  In D Es -> In D2 Es -> (forall E, In E Ds <-> In E L1 \/ In E L2) -> gathers Ds X.
Proof.
  intros EQ G L1 L2 G1 G2 I1 I2 IFF. constructor.
  - apply G.
  - intros E I. apply IFF in I as [I|I]; [apply (ga_from _ _ G1)|apply (ga_from _ _ G2)]; exact I.
  - intros E pr p I IP. apply IFF in I as [I|I].
    + destruct (ga_has _ _ G1 E pr p I IP) as (q & IQ & M). destruct (ga_has _ _ G D pr q I1 IQ) as (r & IR & M'). exists r. split; [exact IR|].
      eapply moved_port_trans; [|exact M|exact M']. apply (ln_names _ (ga_linked _ _ G1)).
    + destruct (ga_has _ _ G2 E pr p I IP) as (q & IQ & M). destruct (ga_has _ _ G D2 pr q I2 IQ) as (r & IR & M'). exists r. split; [exact IR|].
      eapply moved_port_trans; [|exact M|exact M']. apply (ln_names _ (ga_linked _ _ G2)).
  - intros pr q I. destruct (ga_port _ _ G pr q I) as (E & p & IE & IP & M). apply EQ in IE as [<- |[<- |[]]].
    + destruct (ga_port _ _ G1 pr p IP) as (E & r & IE & IR & M'). exists E, r. split; [apply IFF; auto|]. split; [exact IR|].
      eapply moved_port_trans; [|exact M'|exact M]. apply (ln_names _ (ga_linked _ _ G1)).
    + destruct (ga_port _ _ G2 pr p IP) as (E & r & IE & IR & M'). exists E, r. split; [apply IFF; auto|]. split; [exact IR|].
      eapply moved_port_trans; [|exact M'|exact M]. apply (ln_names _ (ga_linked _ _ G2)).
  - intros t I. destruct (ga_type _ _ G t I) as (E & u & IE & IU & M). apply EQ in IE as [<- |[<- |[]]].
    + destruct (ga_type _ _ G1 u IU) as (E & v & IE & IV & M'). exists E, v. split; [apply IFF; auto|]. split; [exact IV|].
      eapply same_type_trans; [|exact M'|exact M]. apply (ln_names _ (ga_linked _ _ G1)).
    + destruct (ga_type _ _ G2 u IU) as (E & v & IE & IV & M'). exists E, v. split; [apply IFF; auto|]. split; [exact IV|].
      eapply same_type_trans; [|exact M'|exact M]. apply (ln_names _ (ga_linked _ _ G2)).
Qed.
Lemma merged_gathers D D2 X : linked D -> linked D2 -> linked X -> merged D D2 X -> gathers [D; D2] X.
Proof.
  intros L L2 LX M. destruct (mg_types _ _ _ M) as (ts & TE & TS). destruct (mg_ports _ _ _ M) as (new & PE & _ & NEW).
  assert (type_names X = type_names D ++ map td_name ts) as TN by (unfold type_names; rewrite TE; apply map_app).
  assert (forall pr p, In p (ports pr D) -> moved_port D X p p) as OLD.
  { intros pr p I. destruct (moved_port_refl pr D p L I) as (A & B & C & E). split; [exact A|]. split; [exact B|]. split; [|exact E].
    intros R. rewrite TN. apply moved_more. auto. }
  constructor.
  - exact LX.
  - intros E [<- |[<- |[]]]; assumption.
  - intros E pr p [<- |[<- |[]]] I.
    + exists p. split; [rewrite PE; apply in_or_app; auto|]. eapply OLD. exact I.
    + exact (mg_all _ _ _ M pr p I).
  - intros pr q I. rewrite PE in I. apply in_app_or in I as [I|I].
    + exists D, q. split; [left; reflexivity|]. split; [exact I|]. eapply OLD. exact I.
    + destruct (NEW pr q I) as (_ & p & IP & MP & _). exists D2, p. split; [right; left; reflexivity|]. auto.
  - intros t I. rewrite TE in I. apply in_app_or in I as [I|I].
    + exists D, t. split; [left; reflexivity|]. split; [exact I|]. destruct (same_type_refl D t L I) as (A & B & C). split; [exact A|]. split; [exact B|].
      rewrite TN. apply moved_more. exact C.
    + destruct (TS t I) as (_ & _ & i & u & _ & _ & _ & NU & ST). apply nth_error_In in NU as IU. exists D2, u. split; [right; left; reflexivity|]. auto.
Qed.
Lemma gathers_moved Ds Es X Y : gathers Ds X -> gathers Es Y -> incl Ds Es -> ports_in (moved_port X Y) X Y.
Proof.
  intros G G' IN pr q I. destruct (ga_port _ _ G pr q I) as (D & p & ID & IP & M). destruct (ga_has _ _ G' D pr p (IN D ID) IP) as (r & IR & M').
  exists r. split; [exact IR|]. eapply moved_port_trans; [|apply moved_port_sym; exact M|exact M']. apply (ln_names _ (ga_from _ _ G D ID)).
Qed.
Lemma gathers_types Ds X Y : gathers Ds X -> gathers Ds Y -> (forall D E, In D Ds -> In E Ds -> types_agree D E) -> types_agree X Y.
Proof.
  intros G G' AG t u IT IU N. destruct (ga_type _ _ G t IT) as (D & a & ID & IA & M). destruct (ga_type _ _ G' u IU) as (E & b & IE & IB & M').
  pose proof (ga_from _ _ G D ID) as LD. pose proof (ga_from _ _ G E IE) as LE.
  assert (td_name a = td_name b) as NA by (destruct M as (<- & _); destruct M' as (<- & _); exact N).
  pose proof (AG D E ID IE a b IA IB NA) as ST. eapply same_type_trans; [apply (ln_names _ LE)|apply same_type_sym; exact M'|].
  eapply same_type_trans; [apply (ln_names _ LD)|exact ST|exact M].
Qed.
Lemma agree_self D : linked D -> types_agree D D.
Proof.
  intros L t u IT IU N. assert (t = u) as -> by (apply (names_nodup td_name (df_types D)); [apply (ln_names _ L)|auto|auto|exact N]). apply same_type_refl; auto.
Qed.
Lemma agree_sym D E : types_agree D E -> types_agree E D.
Proof. intros A t u IT IU N. apply same_type_sym. apply A; auto. Qed.

(** ** Expanding *)
Scheme expands_mind := Induction for expands Sort Prop with expands_all_mind := Induction for expands_all Sort Prop.
Lemma expands_exists D : linked D -> forall i a, below i a -> (i <= length (df_types D))%nat -> exists e, expands D a e.
Proof.
  intros L i. induction i as [i IH] using (well_founded_induction lt_wf). intros a B LE. revert a B.
  apply (below_mind i (fun a _ => exists e, expands D a e) (fun l _ => exists m, expands_all D l m)).
  - intros. eexists. constructor.
  - intros n j J. destruct (nth_error (df_types D) j) as [t|] eqn:T; [|apply nth_error_None in T; lia].
    destruct (IH j J (td_elem t) (ln_below _ L j t T)) as (e & X); [lia|]. eexists. econstructor; eauto.
  - intros n l _ (m & X). eexists. constructor. exact X.
  - eexists. constructor.
  - intros a l _ (e & X) _ (m & Y). eexists. constructor; eauto.
Qed.
Lemma expands_moved X Y : types_agree Y X -> forall a e, expands X a e -> forall b, moved (type_names X) (type_names Y) a b -> expands Y b e.
Proof.
  intros AG. apply (expands_mind X (fun a e _ => forall b, moved (type_names X) (type_names Y) a b -> expands Y b e)
    (fun l m _ => forall k, moveds (type_names X) (type_names Y) l k -> expands_all Y k m)).
  - intros n c lo hi k b M. inversion M; subst. constructor.
  - intros n i t e T E IH b M. inversion M as [|? i' j nm A B|]; subst. assert (i' = i) as -> by lia.
    unfold type_names in A, B. rewrite nth_error_map in A, B. rewrite T in A. destruct (nth_error (df_types Y) j) as [u|] eqn:U; [|discriminate].
    cbn [option_map] in A, B. eapply xp_ref; [exact U|]. apply IH. apply (AG u t); [eapply nth_error_In; exact U|eapply nth_error_In; exact T|congruence].
  - intros n l m E IH b M. inversion M; subst. constructor. auto.
  - intros k M. inversion M; subst. constructor.
  - intros a e l m E IH Es IHs k M. inversion M; subst. constructor; auto.
Qed.
Lemma moved_data pr X Y p q : linked X -> types_agree Y X -> In p (ports pr X) -> moved_port X Y p q -> same_data X Y p q.
Proof.
  intros L AG I M. pose proof (moved_port_ref _ _ _ _ M) as R. destruct M as (A & B & C & E). split; [exact A|]. split; [exact B|]. split; [exact R|]. split; [|exact E].
  intros IR. destruct (ln_ports _ L p (in_ports _ _ _ I)) as (G & _). destruct (G IR) as (BL & _). destruct (expands_exists X L _ _ BL) as (e & X0); [lia|].
  exists e. split; [exact X0|]. eapply expands_moved; eauto.
Qed.
