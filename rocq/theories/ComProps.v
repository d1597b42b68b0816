(** Property C74: what the generated Com layer does. *)
From Coq Require Import ZifyBool ZifyNat Lia Permutation.
From Verif Require Import Py PyLemmas TypesModel CompilerModel VmModel TypesSpec TypesProofs
  TextModel SigModel AttrModel NodeModel NodeDataModel NodeDataSpec
  GenModel GenSpec GenProofs GenProofs2 GenProofs3 GenProofs4 GenProofs5 GenProps
  GenFilesModel GenFilesSpec GenFilesProofs GenFilesProps AutosarModel ComModel ComSpec ComProofs.
Ltac Zify.zify_post_hook ::= Z.div_mod_to_equations.

(** ** Sending and receiving *)

Lemma last_cons {A} (x y : A) l : last (x :: l) y = last l x.
Proof.
  revert x y. induction l as [|z l IH]; intros x y; [reflexivity|]. change (last (x :: z :: l) y) with (last (z :: l) y). rewrite (IH z y), (IH z x). reflexivity.
Qed.
Lemma nth_app_left {A B} (R : A -> B -> Prop) l m n i x : Forall2 R l m -> nth_error l i = Some x -> exists y, nth_error (m ++ n) i = Some y /\ R x y.
Proof.
  intros F. revert i. induction F as [|a b l m X F IH]; intros [|i] E; try discriminate; cbn [nth_error app] in *; [injection E as <-; eauto|auto].
Qed.
Lemma nth_app_right {A B} (R : A -> B -> Prop) l m (k : list A) n i x : Forall2 R l m -> length k = length n -> nth_error l i = Some x -> exists y, nth_error (n ++ m) (length k + i) = Some y /\ R x y.
Proof.
  intros F L E. rewrite L, nth_error_app2, Nat.add_comm, Nat.add_sub by lia.
  revert i E. induction F as [|a b l m X F IH]; intros [|i] E; try discriminate; cbn [nth_error] in *; [injection E as <-; eauto|auto].
Qed.
Lemma static_eqb f g : str_eqb (static_name f) (static_name g) = true <-> cm_port f ++ lit "_" ++ cm_elem f = cm_port g ++ lit "_" ++ cm_elem g.
Proof. rewrite str_eqb_eq. unfold static_name. split; [intros E; apply app_inv_head in E; exact E|intros ->; reflexivity]. Qed.

(** Whoever calls the senders and receivers of a component, in any order: the output
    data of the node always say the value sent last to every port, the Write function
    of a port is called exactly for the values that differ from the one before, other
    ports keep their data, and a receiver gives what the input data say. *)
Theorem com_delivers W0 comp W1 g fuel sfx callbacks direct synced W' nd' c ts rs :
  proper comp -> new_com W0 comp = Ok (W1, g) ->
  generate fuel sfx W1 (cg_node g) None callbacks direct synced = Ok (W', nd', c) ->
  Forall2 (port_cable W') (n_provide nd') ts -> Forall2 (port_cable W') (n_require nd') rs ->
  (forall f i t, In f (cc_send comp) -> port_at W' (n_provide nd') ts (cm_port f) i t -> sender_fits f t) ->
  Forall receiver_fits (cc_receive comp) ->
  (forall f h, In f (cc_send comp) -> In h (cc_send comp) ->
     (cm_port f ++ lit "_" ++ cm_elem f = cm_port h ++ lit "_" ++ cm_elem h <-> cm_port f = cm_port h)) ->
  forall uses s, in_step sfx comp W' nd' ts s -> Forall (good_use sfx comp W' nd' ts rs) uses ->
  exists s' ys, com_play (cg_funs g) (c_writes c) (c_reads c) uses s = Some (s', ys) /\
    in_step sfx comp W' nd' ts s' /\ Forall2 (result_of comp W' nd' rs) uses ys /\
    (forall f i t x, In f (cc_send comp) -> port_at W' (n_provide nd') ts (cm_port f) i t -> cs_vars s (static_name f) = Some x ->
       part_of ts (cs_out s') i = image t (last (sent_to (cc_send comp) (cm_port f) uses) x) /\
       written_to (cc_name comp) (cm_port f) (cs_log s') =
         written_to (cc_name comp) (cm_port f) (cs_log s) ++ changes x (sent_to (cc_send comp) (cm_port f) uses)) /\
    (forall i, (forall f t, In f (cc_send comp) -> ~ port_at W' (n_provide nd') ts (cm_port f) i t) ->
       part_of ts (cs_out s') i = part_of ts (cs_out s) i).
Proof.
  intros PR NC G FP FR SF RF NM.
  destruct (com_ports _ _ _ _ _ _ _ _ _ _ _ _ (pr_sides _ PR) NC G) as (Nc & _ & PP & PQ).
  destruct (com_code _ _ _ _ (pr_sides _ PR) NC) as (sends & receives & -> & CS & CR). 
  assert (NoDup (text_names W' (n_provide nd'))) as ND1 by (eapply Permutation_NoDup; [apply Permutation_sym, perm_names; exact PP|apply PR]).
  assert (NoDup (text_names W' (n_require nd'))) as ND2 by (eapply Permutation_NoDup; [apply Permutation_sym, perm_names; exact PQ|apply PR]).
  pose proof (text_names_distinct _ _ ND1) as NP1. pose proof (text_names_distinct _ _ ND2) as NP2.
  induction uses as [|u uses IH]; intros s IS GU.
  - exists s, []. split; [reflexivity|]. split; [exact IS|]. split; [constructor|]. split; [|auto].
    intros f i t x I P V. cbn [sent_to flat_map last changes]. rewrite app_nil_r. split; [|reflexivity].
    destruct (proj2 IS f i t I P) as (x' & V' & _ & Im). rewrite V in V'. injection V' as <-. symmetry. exact Im.
  - inversion GU as [|? ? Gu GU']; subst. cbn [com_play]. destruct Gu as [f i t Nf P Sx | k f i t Ek Nf P Sx Bi Li].
    + pose proof (nth_error_In _ _ Nf) as If. destruct (nth_app_left _ _ _ receives _ _ CS Nf) as (b & Nb & Eb & ty0 & p0 & a0 & r0 & Pa & Cb).
      rewrite Nb. cbn [obind]. rewrite Eb. pose proof (SF f i t If P) as (Cx & ty & a & Pa' & Na). rewrite Pa' in Pa. injection Pa as <- <- <- <-. rewrite Pa', Cb.
      destruct IS as [Lo IS]. destruct (IS f i t If P) as (x0 & V0 & S0 & I0).
      destruct (write_fact _ _ _ _ _ _ _ _ _ _ _ _ _ _ G FP ND1 P) as (w & Nw & Pw & X). rewrite Nc in Nw. specialize (X (cs_out s) (u_arg u) Lo Sx).
      assert (is_number t = true -> exists z z0, u_arg u = CInt z /\ x0 = CInt z0) as Num.
      { intros It. destruct t; try discriminate. destruct (u_arg u), x0; cbn [shape] in Sx, S0; try contradiction. eauto. }
      destruct (send_step (c_writes c) (c_reads c) (u_input u) (cc_name comp) f t ty a s (u_arg u) x0 i ts w (SF f i t If P) Pa' Nw Pw X Num V0 I0 Lo)
        as (s1 & R & A1 & V1 & L1 & P1 & O1 & K1).
      rewrite R. cbn [obind snd fst].
      assert (in_step sfx comp W' nd' ts s1) as IS1.
      { split; [exact L1|]. intros h j u' Ih Ph. rewrite V1. destruct (str_eqb (static_name h) (static_name f)) eqn:Q.
        - apply static_eqb, (NM h f Ih If) in Q. rewrite Q in Ph. destruct (port_at_fun _ _ _ _ _ _ _ _ NP1 P Ph) as [<- <-]. exists (u_arg u). auto.
        - destruct (IS h j u' Ih Ph) as (y & Vy & Sy & Iy). exists y. split; [exact Vy|]. split; [exact Sy|]. rewrite O1; [exact Iy|].
          intros ->. assert (str_eqb (static_name h) (static_name f) = true); [|congruence].
          apply static_eqb. apply (NM h f Ih If). exact (port_at_name _ _ _ _ _ _ _ _ Ph P). }
      destruct (IH s1 IS1 GU') as (s' & ys & Pl & IS' & RY & HF & HO). rewrite Pl. cbn [obind fst snd]. exists s', (cs_arg s1 :: ys).
      split; [reflexivity|]. split; [exact IS'|]. split.
      { constructor; [|exact RY]. split; [intros; exact A1|]. intros k' f' i' t' Ek'. rewrite Ek' in Nf. 
        assert (nth_error (cc_send comp) (length (cc_send comp) + k') = None) as NN by (apply nth_error_None; lia). congruence. }
      split.
      * intros h j u' x Ih Ph Vx. cbn [sent_to flat_map]. rewrite Nf. destruct (str_eqb (cm_port f) (cm_port h)) eqn:Q.
        -- apply str_eqb_eq in Q. cbn [app]. rewrite last_cons.
           assert (str_eqb (static_name h) (static_name f) = true) as Q2 by (apply static_eqb, (NM h f Ih If); congruence).
           assert (static_name h = static_name f) as Q3 by (apply str_eqb_eq; exact Q2). rewrite Q3, V0 in Vx. injection Vx as <-.
           specialize (HF h j u' (u_arg u) Ih Ph). rewrite V1, Q2 in HF. destruct (HF eq_refl) as [H1 H2]. split; [exact H1|]. fold (sent_to (cc_send comp) (cm_port h) uses) in *.
           rewrite H2, K1. cbn [changes]. unfold written_to. rewrite flat_map_app, <- app_assoc. f_equal.
           destruct (same_val x0 (u_arg u)) eqn:SV; cbn [flat_map app].
           ++ apply same_val_eq in SV as ->. reflexivity.
           ++ cbn [fst snd]. rewrite Q, str_eqb_refl. reflexivity.
        -- cbn [app]. assert (str_eqb (static_name h) (static_name f) = false) as Q2.
           { destruct (str_eqb (static_name h) (static_name f)) eqn:E; [|reflexivity]. apply static_eqb, (NM h f Ih If) in E. rewrite E, str_eqb_refl in Q. discriminate. }
           specialize (HF h j u' x Ih Ph). rewrite V1, Q2 in HF. destruct (HF Vx) as [H1 H2]. split; [exact H1|]. rewrite H2, K1. f_equal.
           unfold written_to. rewrite flat_map_app. destruct (same_val x0 (u_arg u)); cbn [flat_map app]; [apply app_nil_r|]. cbn [fst snd].
           destruct (str_eqb _ _) eqn:E in |- *; [|apply app_nil_r]. apply str_eqb_eq in E. do 3 apply app_inv_head in E. rewrite E, str_eqb_refl in Q. discriminate.
      * intros j NJ. rewrite (HO j NJ). apply O1. intros ->. exact (NJ f t If P).
    + rewrite Ek. assert (length (cc_send comp) = length sends) as LS by (clear - CS; induction CS; cbn [length]; congruence).
      destruct (nth_app_right _ _ _ (cc_send comp) sends _ _ CR LS Nf) as (b & Nb & Eb & ty0 & p0 & a0 & r0 & Pa & Cb). rewrite Nb. cbn [obind]. rewrite Eb.
      rewrite Forall_forall in RF. destruct (RF f (nth_error_In _ _ Nf)) as (ty & a & Pa'). rewrite Pa' in Pa. injection Pa as <- <- <- <-. rewrite Pa', Cb.
      destruct (read_fact _ _ _ _ _ _ _ _ _ _ _ _ _ _ G FR ND2 ND1 P) as (Nw & r & Nr & Pr & X). rewrite Nc in Nw, Nr. destruct (X _ _ Bi Li Sx) as (m & Cm & Vm).
      rewrite (receive_step _ _ _ _ _ _ _ s _ _ _ Pa' Nw Nr Pr Cm). cbn [obind snd fst cs_arg].
      set (s1 := mk_comst (cs_vars s) (cs_out s) (m_val m) (cs_log s)). 
      destruct (IH s1 IS GU') as (s' & ys & Pl & IS' & RY & HF & HO). rewrite Pl. cbn [obind fst snd]. exists s', (m_val m :: ys).
      assert (nth_error (cc_send comp) (u_fun u) = None) as NN by (apply nth_error_None; lia).
      split; [reflexivity|]. split; [exact IS'|]. split.
      { constructor; [|exact RY]. split; [intros f' Nf'; congruence|]. intros k' f' i' t' Ek' Nf' P'. assert (k' = k) as -> by lia. rewrite Nf in Nf'. injection Nf' as <-.
        destruct (port_at_fun _ _ _ _ _ _ _ _ NP2 P P') as [<- <-]. exact Vm. }
      split; [|exact HO]. intros h j u' x Ih Ph Vx. cbn [sent_to flat_map]. rewrite NN. exact (HF h j u' x Ih Ph Vx).
Qed.
Print Assumptions com_delivers.

(** ** The two files *)

(** The header declares the functions that the source defines; the source includes the
    header; there is one static variable for every variable name, of the type and with
    the initial value of the first sender that uses it, before all functions. *)
Theorem com_files W0 comp W1 g guard file : new_com W0 comp = Ok (W1, g) ->
  let '(g', header) := generate_header guard file g in
  let source := generate_source g' in
  declared header = map proto_text (map cm_proto (cc_send comp ++ cc_receive comp)) /\ defined source = declared header /\
  In (lit "#include """ ++ file ++ lit """") source /\
  exists vs pre post, source = pre ++ map (fun v => static_line (cv_type v) (cv_name v) (cv_init v)) vs ++ post /\
    defined pre = [] /\ NoDup (map cv_name vs) /\
    Sorted.StronglySorted (fun v w => NodeSpec.str_le (cv_name v) (cv_name w)) vs /\
    (forall f, In f (cc_send comp) -> In (static_name f) (map cv_name vs)) /\
    (forall v, In v vs -> exists f, first_user (cc_send comp) (cv_name v) f /\ cv_type v = cm_type f /\ cm_init f = Ok (cv_init v)).
Proof.
  intros NC. cbn [generate_header]. cbv zeta.
  assert (map fst (cg_funs g) = map cm_proto (cc_send comp ++ cc_receive comp)) as EP.
  { unfold new_com in NC. apply bind_ok in NC as ([Wa na] & Ei & NC). apply bind_ok in NC as ([Wb nb] & Em & NC).
    apply bind_ok in NC as ([vars sends] & Es & NC). apply bind_ok in NC as (rec & Er & NC). injection NC as <- <-. cbn [cg_funs]. rewrite !map_app. f_equal.
    - clear - Es. revert vars sends Es. generalize (@nil comvar). induction (cc_send comp) as [|f l IH]; intros v0 vars sends Es; cbn [send_bodies] in Es; [injection Es as <- <-; reflexivity|].
      apply bind_ok in Es as ([v1 b] & Eb & E). apply bind_ok in E as ([v2 bs'] & Er & E). injection E as <- <-. cbn [map fst]. f_equal. exact (IH _ _ _ Er).
    - clear - Er. unfold receive_bodies in Er. revert rec Er. induction (cc_receive comp) as [|f l IH]; intros rec Er; cbn [map_res] in Er; [injection Er as <-; reflexivity|].
      apply bind_ok in Er as (b & Eb & E). apply bind_ok in E as (bs' & Er & E). injection E as <-. apply bind_ok in Eb as (b' & _ & Q). injection Q as <-. cbn [map fst]. f_equal. exact (IH _ Er). }
  assert (declared (snd (generate_header guard file g)) = map proto_text (map fst (cg_funs g))) as ED.
  { cbn [generate_header snd]. change (lit "_H") with (lit "_" ++ [72]). rewrite app_assoc, declared_guarded, !declared_app.
    rewrite <- (map_map fst proto_line), declared_protos. reflexivity. }
  cbn [generate_header snd] in ED. rewrite ED. split; [rewrite EP; reflexivity|].
  set (g' := mk_comgen (cg_node g) (cg_vars g) (cg_funs g) (Some file)).
  set (pre := heading "INCLUDES" ++ [lit "#include <string.h>"; include (opt_text (cg_header g')); include (lit "ApxNode_" ++ opt_text (n_name (cg_node g')) ++ lit ".h"); []]
    ++ heading "CONSTANTS AND DATA TYPES" ++ [[]] ++ heading "LOCAL FUNCTION PROTOTYPES" ++ [[]] ++ heading "LOCAL VARIABLES").
  set (post := [[]] ++ heading "GLOBAL FUNCTIONS" ++ flat_map com_fun_lines (cg_funs g')).
  assert (generate_source g' = pre ++ map var_line (sorted_vars (cg_vars g)) ++ post) as ES.
  { unfold generate_source, pre, post. rewrite <- !app_assoc. reflexivity. }
  assert (Forall calm pre) as CP.
  { unfold pre. repeat (apply Forall_app; split); try apply calm_heading; repeat constructor; unfold calm; discriminate. }
  assert (seg (generate_source g') (map proto_text (map fst (cg_funs g)))) as SG.
  { rewrite ES. apply seg_skip; [exact CP|]. apply seg_skip.
    - apply Forall_forall. intros x I. apply in_map_iff in I as (v & <- & _). unfold calm. discriminate.
    - unfold post. apply seg_skip; [repeat constructor; unfold calm; discriminate|]. apply seg_skip; [apply calm_heading|]. rewrite map_map. apply com_funs_seg. }
  split.
  { destruct (SG [] ltac:(intros x; discriminate)) as [_ D]. rewrite app_nil_r in D. rewrite D. cbn [defined]. apply app_nil_r. }
  split.
  { rewrite ES. apply in_or_app. left. unfold pre. apply in_or_app. right. right. left. reflexivity. }
  exists (sorted_vars (cg_vars g)), pre, post. split; [exact ES|]. split.
  { rewrite <- (app_nil_r pre). rewrite defined_calm; [reflexivity|exact CP|intros x; discriminate]. }
  destruct (com_vars _ _ _ _ NC) as (N & I & V). rewrite sorted_vars_isort. destruct (FinalizeProofs.isort_spec cv_name (cg_vars g)) as (P & S & _).
  split; [exact (Permutation_NoDup (Permutation_map cv_name P) N)|]. split; [exact S|]. split.
  - intros f J. exact (Permutation_in _ (Permutation_map cv_name P) (I f J)).
  - intros v J. exact (V v (Permutation_in _ (Permutation_sym P) J)).
Qed.
Print Assumptions com_files.

(** ** Linking *)

Lemma in_prefixed (a b c x : str) l : In (a ++ b ++ lit "_" ++ x) (map (fun x => c ++ b ++ lit "_" ++ x) l) -> a = c -> In x l.
Proof. intros I ->. apply in_map_iff in I as (y & E & I). do 3 apply app_inv_head in E. subst y. exact I. Qed.

(** The functions that the code calls are there exactly if senders are for require
    ports and receivers for provide ports. *)
Theorem com_links W0 comp W1 g fuel sfx callbacks direct synced W' nd' c :
  right_sides comp -> NoDup (map ap_name (cc_provide comp)) -> NoDup (map ap_name (cc_require comp)) ->
  new_com W0 comp = Ok (W1, g) ->
  generate fuel sfx W1 (cg_node g) None callbacks direct synced = Ok (W', nd', c) ->
  ((forall x, In x (all_called (cg_funs g)) -> In x (map cf_name (c_writes c ++ c_reads c))) <->
   (forall f, In f (cc_send comp) -> In (cm_port f) (map ap_name (cc_require comp))) /\
   (forall f, In f (cc_receive comp) -> In (cm_port f) (map ap_name (cc_provide comp)))).
Proof.
  intros RS N1 N2 NC G. destruct (com_ports _ _ _ _ _ _ _ _ _ _ _ _ RS NC G) as (Nc & _ & PP & PQ). destruct (com_code _ _ _ _ RS NC) as (sends & receives & -> & CS & CR).
  apply perm_names in PP. apply perm_names in PQ.
  assert (NoDup (text_names W' (n_provide nd'))) as ND1 by (eapply Permutation_NoDup; [apply Permutation_sym; exact PP|exact N2]).
  assert (NoDup (text_names W' (n_require nd'))) as ND2 by (eapply Permutation_NoDup; [apply Permutation_sym; exact PQ|exact N1]).
  apply generate_inv in G as (Wf & nm & ins & outs & text & cbs & _ & _ & _ & G). rewrite (gd_name _ _ _ _ _ _ _ _ _ _ _ _ G) in Nc. subst nm.
  pose proof (fun_names _ _ _ _ _ _ _ _ _ _ (gd_outs _ _ _ _ _ _ _ _ _ _ _ _ G) ND1 (gd_writes _ _ _ _ _ _ _ _ _ _ _ _ G)) as FW.
  pose proof (fun_names _ _ _ _ _ _ _ _ _ _ (gd_ins _ _ _ _ _ _ _ _ _ _ _ _ G) ND2 (gd_reads _ _ _ _ _ _ _ _ _ _ _ _ G)) as FR.
  rewrite map_app, FW, FR. clear FW FR.
  assert (forall x, In (lit "ApxNode_Write_" ++ cc_name comp ++ lit "_" ++ x)
    (map (fun x => lit "ApxNode_" ++ lit "Write_" ++ cc_name comp ++ lit "_" ++ x) (text_names W' (n_provide nd')) ++
     map (fun x => lit "ApxNode_" ++ lit "Read_" ++ cc_name comp ++ lit "_" ++ x) (text_names W' (n_require nd'))) <-> In x (map ap_name (cc_require comp))) as XW.
  { intros x. rewrite in_app_iff. split.
    - intros [I|I]; [|apply in_map_iff in I as (y & E & _); discriminate]. apply (Permutation_in _ PP).
      exact (in_prefixed (lit "ApxNode_Write_") _ (lit "ApxNode_Write_") _ _ I eq_refl).
    - intros I. left. apply in_map_iff. exists x. split; [reflexivity|]. exact (Permutation_in _ (Permutation_sym PP) I). }
  assert (forall x, In (lit "ApxNode_Read_" ++ cc_name comp ++ lit "_" ++ x)
    (map (fun x => lit "ApxNode_" ++ lit "Write_" ++ cc_name comp ++ lit "_" ++ x) (text_names W' (n_provide nd')) ++
     map (fun x => lit "ApxNode_" ++ lit "Read_" ++ cc_name comp ++ lit "_" ++ x) (text_names W' (n_require nd'))) <-> In x (map ap_name (cc_provide comp))) as XR.
  { intros x. rewrite in_app_iff. split.
    - intros [I|I]; [apply in_map_iff in I as (y & E & _); discriminate|]. apply (Permutation_in _ PQ).
      exact (in_prefixed (lit "ApxNode_Read_") _ (lit "ApxNode_Read_") _ _ I eq_refl).
    - intros I. right. apply in_map_iff. exists x. split; [reflexivity|]. exact (Permutation_in _ (Permutation_sym PQ) I). }
  unfold all_called. rewrite flat_map_app. split.
  - intros H. split; intros f I.
    + apply XW, H, in_or_app. left. apply in_flat_map. destruct (In_nth_error _ _ I) as (i & Ni). destruct (nth_app_left _ _ _ [] _ _ CS Ni) as (b & Nb & _ & ty & p & a & r & _ & Cb).
      rewrite app_nil_r in Nb. exists b. split; [exact (nth_error_In _ _ Nb)|]. rewrite Cb. unfold send_code. destruct (cm_complex f); cbn; auto.
    + apply XR, H, in_or_app. right. apply in_flat_map. destruct (In_nth_error _ _ I) as (i & Ni). destruct (nth_app_left _ _ _ [] _ _ CR Ni) as (b & Nb & _ & ty & p & a & r & _ & Cb).
      rewrite app_nil_r in Nb. exists b. split; [exact (nth_error_In _ _ Nb)|]. rewrite Cb. cbn. auto.
  - intros [HS HR] x I. apply in_app_or in I as [I|I]; apply in_flat_map in I as (b & Ib & Ix).
    + assert (exists f, In f (cc_send comp) /\ has_code (send_code (cc_name comp)) f b) as (f & If & _ & ty & p & a & r & _ & Cb).
      { clear - CS Ib. induction CS as [|f b' l m X F IH]; [destruct Ib|]. destruct Ib as [<-|Ib]; [exists f; split; [left; reflexivity|exact X]|]. destruct (IH Ib) as (h & Ih & Hh). exists h. split; [right; exact Ih|exact Hh]. }
      rewrite Cb in Ix. assert (x = lit "ApxNode_Write_" ++ cc_name comp ++ lit "_" ++ cm_port f) as ->; [|apply XW, HS, If].
      unfold send_code in Ix. destruct (cm_complex f); cbn in Ix; destruct Ix as [<-|[]]; reflexivity.
    + assert (exists f, In f (cc_receive comp) /\ has_code (receive_code (cc_name comp)) f b) as (f & If & _ & ty & p & a & r & _ & Cb).
      { clear - CR Ib. induction CR as [|f b' l m X F IH]; [destruct Ib|]. destruct Ib as [<-|Ib]; [exists f; split; [left; reflexivity|exact X]|]. destruct (IH Ib) as (h & Ih & Hh). exists h. split; [right; exact Ih|exact Hh]. }
      rewrite Cb in Ix. assert (x = lit "ApxNode_Read_" ++ cc_name comp ++ lit "_" ++ cm_port f) as ->; [|apply XR, HR, If].
      cbn in Ix. destruct Ix as [<-|[]]; reflexivity.
Qed.
Print Assumptions com_links.

(** ** Examples *)

Definition sender (name port elem ty : string) (complex : bool) (init : string) : comfunc :=
  mk_comfunc (mk_cproto (lit "Std_ReturnType") false (lit name) [(Some (lit ty), complex, lit "value")]) (lit port) (lit elem) (lit ty) complex (Ok (lit init)).
Definition receiver (name port elem ty : string) (complex : bool) : comfunc :=
  mk_comfunc (mk_cproto (lit "Std_ReturnType") false (lit name) [(Some (lit ty), true, lit "value")]) (lit port) (lit elem) (lit ty) complex (Ok (lit "0")).
Definition ex_com : component :=
  mk_component (lit "Com")
    [mk_aport true (lit "Level") (lit "Level_T") (AInt 0 255) None (Some (KInt 255))]
    [mk_aport false (lit "Speed") (lit "Speed_T") (AInt 0 65535) None (Some (KInt 65535));
     mk_aport false (lit "Limits") (lit "Limits_T") (ARec [(lit "Low_RE", AInt 0 255); (lit "High_RE", AInt 0 65535)]) None (Some (KRec [KInt 1; KInt 2]))]
    [sender "Com_SendSpeed" "Speed" "Speed" "Speed_T" false "65535u"; sender "Com_SendLimits" "Limits" "Limits" "Limits_T" true "{1u, 2u}";
     sender "Com_SendSpeedAgain" "Speed" "Speed" "Speed_T" false "0u"]
    [receiver "Com_ReceiveLevel" "Level" "Level" "Level_T" false].

Definition com_of (c : component) : res (comgen * world * node * cfile) :=
  do '(W, g) <- new_com empty_world c; do '(W', nd, f) <- generate 100 (lit "_RE") W (cg_node g) None None [] true; Ok (g, W', nd, f).
Definition vars_of (l : list (string * cval)) (x : str) : option cval :=
  match find (fun p => str_eqb (lit (fst p)) x) l with Some p => Some (snd p) | None => None end.
(** The output data, the values written and the values returned. *)
Definition played (c : component) (vars : list (string * cval)) (uses : list use) : option (bytes * list (str * cval) * list cval) :=
  match com_of c with
  | Ok (g, _, _, f) =>
    option_map (fun p => (cs_out (fst p), cs_log (fst p), snd p)) (com_play (cg_funs g) (c_writes f) (c_reads f) uses (mk_comst (vars_of vars) (c_outinit f) (CInt 0) []))
  | Err _ => None
  end.

Definition limits (x y : Z) : cval := CStruct [(lit "Low_RE", CInt x); (lit "High_RE", CInt y)].
Definition ex_vars : list (string * cval) := [("m_Speed_Speed"%string, CInt 65535); ("m_Limits_Limits"%string, limits 1 2)].
Definition ex_uses : list use :=
  [mk_use 0 (CInt 65535) []; mk_use 2 (CInt 258) []; mk_use 1 (limits 7 513) []; mk_use 0 (CInt 258) []; mk_use 3 (CInt 0) [9]; mk_use 1 (limits 7 513) []].

Example ex_played : played ex_com ex_vars ex_uses =
  Some ([7; 1; 2; 2; 1], [(lit "ApxNode_Write_Com_Speed", CInt 258); (lit "ApxNode_Write_Com_Limits", limits 7 513)],
        [CInt 65535; CInt 258; limits 7 513; CInt 258; CInt 9; limits 7 513]).
Proof. vm_compute. reflexivity. Qed.

(** Everything that [com_delivers] asks for is true there. *)
Example ex_delivers : exists W1 g W' nd' c,
  new_com empty_world ex_com = Ok (W1, g) /\ generate 100 (lit "_RE") W1 (cg_node g) None None [] true = Ok (W', nd', c) /\ proper ex_com /\
  let ts := [TRec [(lit "Low", TInt U8); (lit "High", TInt U16)]; TInt U16] in let rs := [TInt U8] in
  Forall2 (port_cable W') (n_provide nd') ts /\ Forall2 (port_cable W') (n_require nd') rs /\
  (forall f i t, In f (cc_send ex_com) -> port_at W' (n_provide nd') ts (cm_port f) i t -> sender_fits f t) /\
  Forall receiver_fits (cc_receive ex_com) /\
  (forall f h, In f (cc_send ex_com) -> In h (cc_send ex_com) ->
     (cm_port f ++ lit "_" ++ cm_elem f = cm_port h ++ lit "_" ++ cm_elem h <-> cm_port f = cm_port h)) /\
  in_step (lit "_RE") ex_com W' nd' ts (mk_comst (vars_of ex_vars) (c_outinit c) (CInt 0) []) /\
  Forall (good_use (lit "_RE") ex_com W' nd' ts rs) ex_uses.
Proof.
  do 5 eexists. split; [vm_compute; reflexivity|]. split; [vm_compute; reflexivity|]. split; [|cbv zeta; split; [|split; [|split; [|split; [|split; [|split]]]]]].

  - constructor.
    + split; repeat constructor.
    + repeat constructor; cbn [In]; intuition discriminate.
    + repeat constructor; cbn [In]; intuition discriminate.
    + intros f [<-|[<-|[<-|[]]]]; vm_compute; auto.
    + intros f [<-|[]]; vm_compute; auto.
  - apply port_type_sound. vm_compute. reflexivity.
  - apply port_type_sound. vm_compute. reflexivity.
  - intros f i t If (o & No & Nn & Nt). destruct i as [|[|i]]; [..|destruct i; discriminate No].
    + injection No as <-. injection Nt as <-. destruct If as [<-|[<-|[<-|[]]]]; try discriminate Nn. split; [reflexivity|]. do 2 eexists. split; [reflexivity|discriminate].
    + injection No as <-. injection Nt as <-. destruct If as [<-|[<-|[<-|[]]]]; try discriminate Nn; (split; [reflexivity|]; do 2 eexists; split; [reflexivity|discriminate]).
  - repeat constructor. unfold receiver_fits. do 2 eexists. reflexivity.
  - intros f h If Ih. destruct If as [<-|[<-|[<-|[]]]], Ih as [<-|[<-|[<-|[]]]]; vm_compute; intuition discriminate.
  - split; [reflexivity|]. intros f i t If (o & No & Nn & Nt). destruct i as [|[|i]]; [..|destruct i; discriminate No].
    + injection No as <-. injection Nt as <-. destruct If as [<-|[<-|[<-|[]]]]; try discriminate Nn. exists (limits 1 2). split; [reflexivity|]. split; [|vm_compute; reflexivity].
      cbn. repeat split; lia.
    + injection No as <-. injection Nt as <-. destruct If as [<-|[<-|[<-|[]]]]; try discriminate Nn; (exists (CInt 65535); split; [reflexivity|]; split; [cbn; lia|vm_compute; reflexivity]).
  - assert (forall x, 0 <= x <= 65535 -> shape (lit "_RE") (TInt U16) (CInt x)) as S1 by (intros; cbn; lia).
    assert (shape (lit "_RE") (TRec [(lit "Low", TInt U8); (lit "High", TInt U16)]) (limits 7 513)) as S2 by (cbn; repeat split; lia).
    repeat constructor.
    + eapply (good_send _ _ _ _ _ _ _ _ 1%nat); [reflexivity|eexists; split; [reflexivity|]; split; reflexivity|apply S1; lia].
    + eapply (good_send _ _ _ _ _ _ _ _ 1%nat); [reflexivity|eexists; split; [reflexivity|]; split; reflexivity|apply S1; lia].
    + eapply (good_send _ _ _ _ _ _ _ _ 0%nat); [reflexivity|eexists; split; [reflexivity|]; split; reflexivity|exact S2].
    + eapply (good_send _ _ _ _ _ _ _ _ 1%nat); [reflexivity|eexists; split; [reflexivity|]; split; reflexivity|apply S1; lia].
    + eapply (good_receive _ _ _ _ _ _ _ 0 _ 0%nat); [reflexivity|reflexivity|eexists; split; [reflexivity|]; split; reflexivity|cbn; lia|repeat constructor; lia|reflexivity].
    + eapply (good_send _ _ _ _ _ _ _ _ 0%nat); [reflexivity|eexists; split; [reflexivity|]; split; reflexivity|exact S2].
Qed.

(** Two senders share a variable if port and element of the one make the same text as
    those of the other; what the second one sends is lost then. *)
Definition ex_shared : component :=
  mk_component (lit "Com") []
    [mk_aport false (lit "a_b") (lit "T") (AInt 0 255) None (Some (KInt 0)); mk_aport false (lit "a") (lit "T") (AInt 0 255) None (Some (KInt 0))]
    [sender "Send1" "a_b" "c" "T" false "0u"; sender "Send2" "a" "b_c" "T" false "0u"] [].
Theorem shared_variable_refuted : proper ex_shared /\
  played ex_shared [("m_a_b_c"%string, CInt 0)] [mk_use 0 (CInt 5) []; mk_use 1 (CInt 5) []] =
    Some ([0; 5], [(lit "ApxNode_Write_Com_a_b", CInt 5)], [CInt 5; CInt 5]).
Proof.
  split; [|vm_compute; reflexivity]. constructor.
  - split; repeat constructor.
  - constructor.
  - repeat constructor; cbn [In]; intuition discriminate.
  - intros f [<-|[<-|[]]]; vm_compute; auto.
  - intros f [].
Qed.
Print Assumptions shared_variable_refuted.

(** The variable starts as the init value of the function, the output data as that of
    the port: if they differ, the first value sent may be lost. *)
Definition ex_apart : component :=
  mk_component (lit "Com") [] [mk_aport false (lit "a") (lit "T") (AInt 0 255) None (Some (KInt 7))] [sender "Send" "a" "e" "T" false "0u"] [].
Theorem init_apart_refuted : proper ex_apart /\
  played ex_apart [("m_a_e"%string, CInt 0)] [mk_use 0 (CInt 0) []] = Some ([7], [], [CInt 0]).
Proof.
  split; [|vm_compute; reflexivity]. constructor.
  - split; repeat constructor.
  - constructor.
  - repeat constructor; cbn [In]; intuition discriminate.
  - intros f [<-|[]]; vm_compute; auto.
  - intros f [].
Qed.
Print Assumptions init_apart_refuted.

(** A sender for a provide port calls a function that there is not. *)
Definition ex_wrong_side : component :=
  mk_component (lit "Com") [mk_aport true (lit "a") (lit "T") (AInt 0 255) None (Some (KInt 7))] [] [sender "Send" "a" "e" "T" false "0u"] [].
Example ex_not_linked : exists g W nd c, com_of ex_wrong_side = Ok (g, W, nd, c) /\
  all_called (cg_funs g) = [lit "ApxNode_Write_Com_a"] /\ map cf_name (c_writes c ++ c_reads c) = [lit "ApxNode_Read_Com_a"].
Proof. do 4 eexists. split; [vm_compute; reflexivity|]. split; vm_compute; reflexivity. Qed.
Example ex_linked : exists g W nd c, com_of ex_com = Ok (g, W, nd, c) /\
  all_called (cg_funs g) = map lit ["ApxNode_Write_Com_Speed"; "ApxNode_Write_Com_Limits"; "ApxNode_Write_Com_Speed"; "ApxNode_Read_Com_Level"]%string /\
  map cf_name (c_writes c ++ c_reads c) = map lit ["ApxNode_Write_Com_Limits"; "ApxNode_Write_Com_Speed"; "ApxNode_Read_Com_Level"]%string.
Proof. do 4 eexists. split; [vm_compute; reflexivity|]. split; vm_compute; reflexivity. Qed.

(** The source of a generator that has not made its header includes a file "None". *)
Theorem source_without_header_refuted : exists W g, new_com empty_world ex_com = Ok (W, g) /\
  In (lit "#include ""None""") (generate_source g).
Proof.
  destruct (new_com empty_world ex_com) as [[W g]|] eqn:E; [|vm_compute in E; discriminate]. exists W, g. split; [reflexivity|].
  unfold generate_source. assert (cg_header g = None) as ->; [|apply in_or_app; right; right; left; reflexivity].
  unfold new_com in E. apply bind_ok in E as ([Wa na] & _ & E). apply bind_ok in E as ([Wb nb] & _ & E).
  apply bind_ok in E as ([vars sends] & _ & E). apply bind_ok in E as (rec & _ & E). injection E as <- <-. reflexivity.
Qed.
Print Assumptions source_without_header_refuted.

Definition com_text (c : component) : str :=
  match new_com empty_world c with
  | Ok (W, g) => let '(g', h) := generate_header (lit "COM") (lit "Com.h") g in printed (h ++ generate_source g')
  | Err _ => []
  end.
Example ex_com_text : com_text ex_com = lit "#ifndef COM_H
#define COM_H

//////////////////////////////////////////////////////////////////////////////
// INCLUDES
//////////////////////////////////////////////////////////////////////////////
#include ""Rte_Type.h""

//////////////////////////////////////////////////////////////////////////////
// CONSTANTS AND DATA TYPES
//////////////////////////////////////////////////////////////////////////////

//////////////////////////////////////////////////////////////////////////////
// GLOBAL FUNCTIONS
//////////////////////////////////////////////////////////////////////////////
Std_ReturnType Com_SendSpeed(Speed_T value);
Std_ReturnType Com_SendLimits(Limits_T *value);
Std_ReturnType Com_SendSpeedAgain(Speed_T value);
Std_ReturnType Com_ReceiveLevel(Level_T *value);

#endif //COM_H
//////////////////////////////////////////////////////////////////////////////
// INCLUDES
//////////////////////////////////////////////////////////////////////////////
#include <string.h>
#include ""Com.h""
#include ""ApxNode_Com.h""

//////////////////////////////////////////////////////////////////////////////
// CONSTANTS AND DATA TYPES
//////////////////////////////////////////////////////////////////////////////

//////////////////////////////////////////////////////////////////////////////
// LOCAL FUNCTION PROTOTYPES
//////////////////////////////////////////////////////////////////////////////

//////////////////////////////////////////////////////////////////////////////
// LOCAL VARIABLES
//////////////////////////////////////////////////////////////////////////////
static Limits_T m_Limits_Limits = {1u, 2u};
static Speed_T m_Speed_Speed = 65535u;

//////////////////////////////////////////////////////////////////////////////
// GLOBAL FUNCTIONS
//////////////////////////////////////////////////////////////////////////////

Std_ReturnType Com_SendSpeed(Speed_T value)
{
   if (value != m_Speed_Speed)
   {
      m_Speed_Speed = value;
      ApxNode_Write_Com_Speed(m_Speed_Speed);
   }
   return E_OK;
}

Std_ReturnType Com_SendLimits(Limits_T *value)
{
   if (memcmp(value, &m_Limits_Limits, sizeof(m_Limits_Limits)) != 0)
   {
      memcpy(&m_Limits_Limits, value, sizeof(m_Limits_Limits));
      ApxNode_Write_Com_Limits(&m_Limits_Limits);
   }
   return E_OK;
}

Std_ReturnType Com_SendSpeedAgain(Speed_T value)
{
   if (value != m_Speed_Speed)
   {
      m_Speed_Speed = value;
      ApxNode_Write_Com_Speed(m_Speed_Speed);
   }
   return E_OK;
}

Std_ReturnType Com_ReceiveLevel(Level_T *value)
{
   ApxNode_Read_Com_Level(value);
   return E_OK;
}
".
Proof. vm_compute. reflexivity. Qed.
