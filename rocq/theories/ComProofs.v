(** Lemmas about the Com layer generator. *)
From Coq Require Import ZifyBool ZifyNat Lia Permutation.
From Verif Require Import Py PyLemmas TypesModel CompilerModel VmModel TypesSpec TypesProofs
  TextModel SigModel AttrModel NodeModel NodeDataModel NodeDataSpec
  GenModel GenSpec GenProofs GenProofs2 GenProofs3 GenProofs4 GenProofs5 GenProps
  GenFilesModel GenFilesSpec GenFilesProofs GenFilesProps AutosarModel ComModel ComSpec.
From Verif Require FinalizeProofs MirrorProofs.
Ltac Zify.zify_post_hook ::= Z.div_mod_to_equations.

(** ** The ports of the node *)

Lemma resolve_port_name W types p p' : resolve_port W types p = Ok p' -> pt_name p' = pt_name p.
Proof.
  unfold resolve_port. destruct (is_reference (pt_elem p)); intros E; [|congruence].
  apply bind_ok in E as ([e d] & _ & E). injection E as <-. reflexivity.
Qed.
Lemma set_port_names W o p ports : pt_name p = pt_name (w_ports W o) -> port_names (set_port W o p) ports = port_names W ports.
Proof.
  intros N. unfold port_names. apply map_ext. intros x. cbn [set_port w_ports]. unfold upd_nat. destruct (Nat.eqb_spec x o) as [->|]; auto.
Qed.
Lemma resolve_ports_names types ports : forall l W W', resolve_ports W types l = Ok W' -> port_names W' ports = port_names W ports /\ w_nports W' = w_nports W.
Proof.
  induction l as [|o l IH]; intros W W' E; cbn [resolve_ports] in E; [injection E as <-; auto|].
  apply bind_ok in E as (p & Ep & E). apply IH in E as [-> ->]. split; [|reflexivity]. apply set_port_names. exact (resolve_port_name _ _ _ _ Ep).
Qed.
Lemma make_port_name pr nm sig a p : make_port pr nm sig a = Ok p -> pt_name p = nm /\ pt_provide p = pr.
Proof. unfold make_port. intros E. apply bind_ok in E as (e & _ & E). apply bind_ok in E as (b & _ & E). injection E as <-. auto. Qed.

(** All ports of the node exist. *)
Definition ports_in (W : world) (nd : node) : Prop := forall o, In o (n_require nd ++ n_provide nd) -> (o < w_nports W)%nat.

Lemma names_old W p ports : (forall o, In o ports -> (o < w_nports W)%nat) -> port_names (fst (new_port W p)) ports = port_names W ports.
Proof.
  intros B. unfold port_names. apply map_ext_in. intros o I. cbn [new_port fst w_ports]. unfold upd_nat.
  destruct (Nat.eqb_spec o (w_nports W)) as [->|]; [specialize (B _ I); lia|reflexivity].
Qed.
Lemma add_one_names W nd p W' nd' : ports_in W nd -> add_autosar_port W nd p = Ok (W', nd') ->
  ports_in W' nd' /\ n_name nd' = n_name nd /\
  port_names W' (n_provide nd') = port_names W (n_provide nd) ++ (if ap_provide p then [Some (ap_name p)] else []) /\
  port_names W' (n_require nd') = port_names W (n_require nd) ++ (if ap_provide p then [] else [Some (ap_name p)]).
Proof.
  intros B E. unfold add_autosar_port in E. apply bind_ok in E as ([[W1 nd1] o] & Et & E). apply bind_ok in E as (a & _ & E).
  apply bind_ok in E as (sig & _ & E). apply bind_ok in E as (q & Eq & E).
  assert (w_nports W1 = w_nports W /\ w_ports W1 = w_ports W /\ n_require nd1 = n_require nd /\ n_provide nd1 = n_provide nd /\ n_name nd1 = n_name nd) as (P1 & P2 & P3 & P4 & P5).
  { destruct (map_find (Some (ap_tname p)) (n_map nd)); [injection Et as <- <- <-; auto|].
    apply bind_ok in Et as (d & _ & Et). cbn [new_type] in Et. injection Et as <- <- <-. auto. }
  destruct (make_port_name _ _ _ _ _ Eq) as [Nq Pq].
  cbn [new_port] in E. unfold add_port in E. cbn [w_ports] in E.
  set (W2 := mk_world (w_types W1) (w_ntypes W1) (upd_nat (w_ports W1) (w_nports W1) q) (S (w_nports W1))) in *.
  assert (upd_nat (w_ports W1) (w_nports W1) q (w_nports W1) = q) as U by (unfold upd_nat; rewrite Nat.eqb_refl; reflexivity).
  rewrite U in E. apply bind_ok in E as (p' & Ep & E). injection E as <- Hn.
  pose proof (resolve_port_name _ _ _ _ Ep) as Np. cbn [with_pid pt_name] in Np.
  assert (forall l, port_names (set_port W2 (w_nports W1) p') l = port_names W2 l) as SP.
  { intros l. apply set_port_names. rewrite Np. cbn [W2 w_ports]. rewrite U. reflexivity. }
  assert (forall l, (forall o, In o l -> (o < w_nports W)%nat) -> port_names W2 l = port_names W l) as OL.
  { intros l Bl. change W2 with (fst (new_port W1 q)). rewrite names_old by (intros; rewrite P1; auto). unfold port_names. rewrite P2. reflexivity. }
  assert (port_names W2 [w_nports W1] = [Some (ap_name p)]) as NW.
  { unfold port_names. cbn [map W2 w_ports]. rewrite U, Nq. reflexivity. }
  assert (w_nports (set_port W2 (w_nports W1) p') = S (w_nports W)) as CN by (cbn [set_port W2 w_nports]; lia).
  assert (forall l m, port_names W2 (l ++ m) = port_names W2 l ++ port_names W2 m) as NA by (intros; apply map_app).
  unfold ports_in in *. rewrite CN. rewrite Pq in Hn. rewrite <- P5. 
  destruct (ap_provide p); subst nd'; cbn [n_require n_provide n_name]; rewrite P3, P4, ?SP, ?NA, ?NW, ?OL, ?app_nil_r by (intros o' I; apply B, in_or_app; auto); (split; [|auto]).
  - intros x I. apply in_app_or in I as [I|I]; [specialize (B x (in_or_app _ _ _ (or_introl I))); lia|].
    apply in_app_or in I as [I|[<-|[]]]; [specialize (B x (in_or_app _ _ _ (or_intror I))); lia|lia].
  - intros x I. rewrite <- app_assoc in I. apply in_app_or in I as [I|I]; [specialize (B x (in_or_app _ _ _ (or_introl I))); lia|].
    apply in_app_or in I as [[<-|[]]|I]; [lia|specialize (B x (in_or_app _ _ _ (or_intror I))); lia].
Qed.
Lemma add_all_names : forall l W nd W' nd', ports_in W nd -> add_autosar_ports W nd l = Ok (W', nd') ->
  ports_in W' nd' /\ n_name nd' = n_name nd /\
  port_names W' (n_provide nd') = port_names W (n_provide nd) ++ map (fun p => Some (ap_name p)) (filter ap_provide l) /\
  port_names W' (n_require nd') = port_names W (n_require nd) ++ map (fun p => Some (ap_name p)) (filter (fun p => negb (ap_provide p)) l).
Proof.
  induction l as [|p l IH]; intros W nd W' nd' B E; cbn [add_autosar_ports] in E.
  - injection E as <- <-. cbn [filter map]. rewrite !app_nil_r. auto.
  - apply bind_ok in E as ([W1 nd1] & E1 & E). destruct (add_one_names _ _ _ _ _ B E1) as (B1 & N1 & A1 & A2).
    destruct (IH _ _ _ _ B1 E) as (B2 & N2 & C1 & C2). split; [exact B2|]. split; [congruence|]. rewrite C1, C2, A1, A2.
    cbn [filter]. destruct (ap_provide p); cbn [negb map app]; rewrite ?app_nil_r, <- ?app_assoc; auto.
Qed.
Lemma filter_all {A} (f : A -> bool) l : Forall (fun x => f x = true) l -> filter f l = l /\ filter (fun x => negb (f x)) l = [].
Proof. induction 1 as [|x l X F [IH1 IH2]]; cbn [filter]; [auto|]. rewrite X, IH1. cbn [negb]. auto. Qed.
Lemma filter_none {A} (f : A -> bool) l : Forall (fun x => f x = false) l -> filter f l = [] /\ filter (fun x => negb (f x)) l = l.
Proof. induction 1 as [|x l X F [IH1 IH2]]; cbn [filter]; [auto|]. rewrite X, IH2. cbn [negb]. auto. Qed.

Lemma import_names W name provide require W' nd : Forall (fun p => ap_provide p = true) provide -> Forall (fun p => ap_provide p = false) require ->
  import_swc W name provide require = Ok (W', nd) ->
  ports_in W' nd /\ n_name nd = Some name /\
  port_names W' (n_provide nd) = map (fun p => Some (ap_name p)) provide /\ port_names W' (n_require nd) = map (fun p => Some (ap_name p)) require.
Proof.
  intros FP FR E. unfold import_swc in E. apply bind_ok in E as ([W1 nd1] & E1 & E). apply bind_ok in E as (W2 & E2 & E). injection E as <- <-.
  destruct (fun B => add_all_names _ _ _ _ _ B E1) as (B & N & C1 & C2); [intros o []|].
  assert (forall l, port_names W2 l = port_names W1 l) as RN by (intros l; exact (proj1 (resolve_ports_names _ l _ _ _ E2))).
  pose proof (proj2 (resolve_ports_names _ [] _ _ _ E2)) as RC.
  unfold ports_in. rewrite !RN, RC, C1, C2, !filter_app.
  rewrite (proj1 (filter_all _ _ FP)), (proj2 (filter_all _ _ FP)), (proj1 (filter_none _ _ FR)), (proj2 (filter_none _ _ FR)), app_nil_r.
  cbn [new_node n_provide n_require port_names map app]. auto.
Qed.

Lemma map_res_names W l : forall ps, map_res (fun o => mirror_port (w_types W) (w_ports W o)) l = Ok ps -> map pt_name ps = port_names W l /\ length ps = length l.
Proof.
  induction l as [|o l IH]; intros ps E; cbn [map_res] in E; [injection E as <-; auto|].
  apply bind_ok in E as (p & Ep & E). apply bind_ok in E as (r & Er & E). injection E as <-. destruct (IH _ Er) as [IH1 IH2].
  cbn [map port_names length]. unfold mirror_port, copy_port in Ep. apply bind_ok in Ep as (sig & _ & Ep). rewrite (proj1 (make_port_name _ _ _ _ _ Ep)), IH1, IH2. auto.
Qed.
Lemma new_ports_names W l W' os : new_ports W l = (W', os) -> port_names W' os = map pt_name l.
Proof.
  intros E. destruct (MirrorProofs.new_ports_spec _ _ _ _ E) as (-> & _ & _ & _ & _ & G). unfold port_names.
  assert (forall n, (forall i p, nth_error l i = Some p -> w_ports W' (n + i)%nat = p) -> map (fun o => pt_name (w_ports W' o)) (seq n (length l)) = map pt_name l) as X.
  { clear. induction l as [|p l IH]; intros n G; cbn [length seq map]; [reflexivity|]. f_equal.
    - rewrite <- (G 0%nat p eq_refl), Nat.add_0_r. reflexivity.
    - apply IH. intros i q Q. rewrite <- (G (S i) q Q). f_equal. lia. }
  apply X, G.
Qed.
Lemma mirror_names W nd W' nd' : mirror W nd None = Ok (W', nd') ->
  n_name nd' = n_name nd /\ port_names W' (n_provide nd') = port_names W (n_require nd) /\ port_names W' (n_require nd') = port_names W (n_provide nd).
Proof.
  unfold mirror. intros E. apply bind_ok in E as (rp & Er & E). apply bind_ok in E as (pp & Ep & E).
  destruct (new_ports (copy_types W) rp) as [W2 rs] eqn:N1. destruct (new_ports W2 pp) as [W3 ps] eqn:N2. apply bind_ok in E as (W4 & E4 & E). injection E as <- <-.
  assert (forall l, port_names W4 l = port_names W3 l) as RN by (intros l; exact (proj1 (resolve_ports_names _ l _ _ _ E4))).
  cbn [n_name n_provide n_require]. split; [reflexivity|]. rewrite !RN. split.
  - rewrite (new_ports_names _ _ _ _ N2). exact (proj1 (map_res_names _ _ _ Ep)).
  - rewrite <- (proj1 (map_res_names _ _ _ Er)), <- (new_ports_names _ _ _ _ N1).
    destruct (MirrorProofs.new_ports_spec _ _ _ _ N1) as (-> & _ & _ & C & _ & _). destruct (MirrorProofs.new_ports_spec _ _ _ _ N2) as (_ & _ & _ & _ & G & _).
    unfold port_names. apply map_ext_in. intros o I. apply in_seq in I. rewrite G by lia. reflexivity.
Qed.

Lemma isort_perm {A} (key : A -> str) l : Permutation (FinalizeProofs.isort key l) l.
Proof. symmetry. apply FinalizeProofs.isort_spec. Qed.
Lemma number_types_ports f : forall l W i, w_ports (number_types f W i l) = w_ports W.
Proof. induction l as [|o l IH]; intros W i; cbn [number_types]; [reflexivity|]. rewrite IH. reflexivity. Qed.
Lemma finalize_names W nd W' nd' : finalize true false W nd = Ok (W', nd') ->
  Permutation (port_names W' (n_provide nd')) (port_names W (n_provide nd)) /\ Permutation (port_names W' (n_require nd')) (port_names W (n_require nd)).
Proof.
  unfold finalize. destruct (n_final nd); intros E; [injection E as <- <-; split; reflexivity|].
  apply bind_ok in E as (nd1 & Es & E). apply bind_ok in E as (W1 & Er & E). injection E as <- <-. cbn [n_provide n_require].
  unfold sort_elements in Es. apply bind_ok in Es as (ts & _ & Es). apply bind_ok in Es as (rs & Rs & Es). apply bind_ok in Es as (ps & Ps & Es). injection Es as <-.
  cbn [n_provide n_require n_types] in *. apply FinalizeProofs.sorted_by_ok in Rs as ->. apply FinalizeProofs.sorted_by_ok in Ps as ->.
  assert (forall l, port_names (set_type_ids W1 (mk_node (n_name nd) (n_final nd) ts (FinalizeProofs.isort (fun o : nat => opt_text (pt_name (w_ports W o))) (n_require nd))
    (FinalizeProofs.isort (fun o : nat => opt_text (pt_name (w_ports W o))) (n_provide nd)) (n_map nd))) l = port_names W l) as X.
  { intros l. rewrite <- (proj1 (resolve_ports_names _ l _ _ _ Er)). unfold port_names, set_type_ids. rewrite number_types_ports. reflexivity. }
  rewrite !X. split; apply Permutation_map, isort_perm.
Qed.

Lemma com_ports W0 comp W1 g fuel sfx callbacks direct synced W' nd' c : right_sides comp -> new_com W0 comp = Ok (W1, g) ->
  generate fuel sfx W1 (cg_node g) None callbacks direct synced = Ok (W', nd', c) ->
  c_name c = cc_name comp /\ n_name (cg_node g) = Some (cc_name comp) /\
  Permutation (port_names W' (n_provide nd')) (map Some (map ap_name (cc_require comp))) /\
  Permutation (port_names W' (n_require nd')) (map Some (map ap_name (cc_provide comp))).
Proof.
  intros PR NC G. unfold new_com in NC. apply bind_ok in NC as ([Wa na] & Ei & NC). apply bind_ok in NC as ([Wb nb] & Em & NC).
  apply bind_ok in NC as ([vars sends] & _ & NC). apply bind_ok in NC as (rec & _ & NC). injection NC as <- <-. cbn [cg_node] in *.
  destruct (import_names _ _ _ _ _ _ (proj1 PR) (proj2 PR) Ei) as (_ & N1 & P1 & R1).
  destruct (mirror_names _ _ _ _ Em) as (N2 & P2 & R2).
  apply generate_inv in G as (Wf & nm & ins & outs & text & cbs & Ef & SW & En & G).
  destruct (finalize_names _ _ _ _ Ef) as [P3 R3].
  assert (forall l, port_names W' l = port_names Wf l) as S by (intros l; unfold port_names; apply map_ext; intros o; rewrite (proj2 SW); reflexivity).
  rewrite N2, N1 in En. injection En as <-.
  split; [exact (gd_name _ _ _ _ _ _ _ _ _ _ _ _ G)|]. split; [congruence|]. rewrite !S, !map_map, <- P1, <- R1, <- P2, <- R2. auto.
Qed.

(** ** The code *)

Definition send_code (node : str) (f : comfunc) (a : str) : list comstmt :=
  [CIf (if cm_complex f then CDifferMem a (static_name f) else CDiffer a (static_name f))
     [if cm_complex f then CCopy (static_name f) a else CAssign (static_name f) a;
      CCall (lit "ApxNode_Write_" ++ node ++ lit "_" ++ cm_port f) (cm_complex f) (static_name f)]; CReturn].
Definition receive_code (node : str) (f : comfunc) (a : str) : list comstmt :=
  [CCall (lit "ApxNode_Read_" ++ node ++ lit "_" ++ cm_port f) false a; CReturn].
Definition has_code (code : comfunc -> str -> list comstmt) (f : comfunc) (b : cproto * list comstmt) : Prop :=
  fst b = cm_proto f /\ exists ty p a r, cp_params (cm_proto f) = (ty, p, a) :: r /\ snd b = code f a.

Lemma arg_name_ok f a : arg_name f = Ok a -> exists ty p r, cp_params (cm_proto f) = (ty, p, a) :: r.
Proof. unfold arg_name. destruct (cp_params (cm_proto f)) as [|[[ty p] n] r]; intros E; [discriminate|]. injection E as <-. eauto. Qed.
Lemma local_var_name vars f vars' v : local_var vars f = Ok (vars', v) -> cv_name v = static_name f.
Proof.
  unfold local_var. destruct (find _ vars) as [w|] eqn:F; intros E.
  - injection E as <- <-. apply find_some in F as [_ F]. apply str_eqb_eq in F. exact F.
  - apply bind_ok in E as (t & _ & E). injection E as <- <-. reflexivity.
Qed.
Lemma send_bodies_code node : forall l vars vars' bs, send_bodies (Some node) vars l = Ok (vars', bs) -> Forall2 (has_code (send_code node)) l bs.
Proof.
  induction l as [|f l IH]; intros vars vars' bs E; cbn [send_bodies] in E; [injection E as <- <-; constructor|].
  apply bind_ok in E as ([v1 b] & Eb & E). apply bind_ok in E as ([v2 bs'] & Er & E). injection E as <- <-. constructor; [|exact (IH _ _ _ Er)].
  unfold send_body in Eb. apply bind_ok in Eb as ([v3 v] & Ev & Eb). apply bind_ok in Eb as (a & Ea & Eb). injection Eb as <- <-.
  split; [reflexivity|]. destruct (arg_name_ok _ _ Ea) as (ty & p & r & C). exists ty, p, a, r. split; [exact C|]. cbn [snd]. rewrite (local_var_name _ _ _ _ Ev). reflexivity.
Qed.
Lemma receive_bodies_code node : forall l bs, receive_bodies (Some node) l = Ok bs -> Forall2 (has_code (receive_code node)) l bs.
Proof.
  unfold receive_bodies. induction l as [|f l IH]; intros bs E; cbn [map_res] in E; [injection E as <-; constructor|].
  apply bind_ok in E as (b & Eb & E). apply bind_ok in E as (bs' & Er & E). injection E as <-. constructor; [|exact (IH _ Er)].
  apply bind_ok in Eb as (b' & Eb & Q). injection Q as <-. unfold receive_body in Eb. apply bind_ok in Eb as (a & Ea & Eb). injection Eb as <-.
  split; [reflexivity|]. destruct (arg_name_ok _ _ Ea) as (ty & p & r & C). exists ty, p, a, r. auto.
Qed.
Lemma com_code W0 comp W1 g : right_sides comp -> new_com W0 comp = Ok (W1, g) ->
  exists sends receives, cg_funs g = sends ++ receives /\ Forall2 (has_code (send_code (cc_name comp))) (cc_send comp) sends /\
    Forall2 (has_code (receive_code (cc_name comp))) (cc_receive comp) receives.
Proof.
  intros PR NC. unfold new_com in NC. apply bind_ok in NC as ([Wa na] & Ei & NC). apply bind_ok in NC as ([Wb nb] & Em & NC).
  apply bind_ok in NC as ([vars sends] & Es & NC). apply bind_ok in NC as (rec & Er & NC). injection NC as <- <-. cbn [cg_funs].
  destruct (import_names _ _ _ _ _ _ (proj1 PR) (proj2 PR) Ei) as (_ & N1 & _). destruct (mirror_names _ _ _ _ Em) as (N2 & _).
  rewrite N2, N1 in *. exists sends, rec. split; [reflexivity|]. split; [exact (send_bodies_code _ _ _ _ _ Es)|exact (receive_bodies_code _ _ _ Er)].
Qed.

(** ** Comparing values *)

Lemma same_val_eq : forall a b, same_val a b = true <-> a = b.
Proof.
  fix IH 1. intros [x|l|fs] [y|m|gs]; cbn [same_val]; try (split; [discriminate|congruence]).
  - rewrite Z.eqb_eq. split; congruence.
  - rewrite str_eqb_eq. split; congruence.
  - revert gs. induction fs as [|[k x] fs IHf]; intros [|[h y] gs]; try (split; [discriminate|congruence]); [split; auto|].
    rewrite !andb_true_iff, str_eqb_eq, IH, IHf. split; [intros [[-> ->] E]; injection E as ->; reflexivity|]. intros E. injection E as -> -> ->. auto.
Qed.

(** ** The functions of the node *)

Lemma named_nth fs i f : NoDup (map cf_name fs) -> nth_error fs i = Some f -> named fs (cf_name f) = Some f.
Proof.
  intros N E. unfold named. enough (filter (fun g => str_eqb (cf_name g) (cf_name f)) fs = [f]) as -> by reflexivity.
  revert i N E. induction fs as [|g fs IH]; intros [|i] N E; try discriminate; cbn [nth_error] in E; cbn [map] in N; inversion N as [|? ? N1 N2]; subst; cbn [filter].
  - injection E as ->. rewrite str_eqb_refl. f_equal. clear - N1. induction fs as [|h fs IH]; [reflexivity|]. cbn [filter].
    destruct (str_eqb (cf_name h) (cf_name f)) eqn:Q; [apply str_eqb_eq in Q; destruct N1; left; exact Q|]. apply IH. intros I. apply N1. right. exact I.
  - destruct (str_eqb (cf_name g) (cf_name f)) eqn:Q.
    + apply str_eqb_eq in Q. destruct N1. rewrite Q. apply in_map. exact (nth_error_In _ _ E).
    + exact (IH _ N2 E).
Qed.
Lemma named_none fs s : ~ In s (map cf_name fs) -> named fs s = None.
Proof.
  intros N. unfold named. enough (filter (fun g => str_eqb (cf_name g) s) fs = []) as -> by reflexivity.
  induction fs as [|g fs IH]; [reflexivity|]. cbn [filter]. destruct (str_eqb (cf_name g) s) eqn:Q; [apply str_eqb_eq in Q; destruct N; left; exact Q|].
  apply IH. intros I. apply N. right. exact I.
Qed.

Lemma perm_names W ports l : Permutation (port_names W ports) (map Some l) -> Permutation (text_names W ports) l.
Proof.
  intros P. unfold text_names, port_names in *. rewrite <- (map_map (fun o => pt_name (w_ports W o)) opt_text).
  apply (Permutation_map opt_text) in P. rewrite (map_map Some opt_text) in P. cbn [opt_text] in P. rewrite map_id in P. exact P.
Qed.
Lemma perm_port_at W ports ts l name : Permutation (port_names W ports) (map Some l) -> length ports = length ts -> In name l ->
  exists i t, port_at W ports ts name i t.
Proof.
  intros P L I. assert (In (Some name) (port_names W ports)) as J.
  { apply (Permutation_in _ (Permutation_sym P)). apply in_map. exact I. }
  apply in_map_iff in J as (o & E & J). apply In_nth_error in J as (i & J). assert (i < length ts)%nat as Li by (rewrite <- L; apply nth_error_Some; congruence).
  apply nth_error_Some in Li. destruct (nth_error ts i) as [t|] eqn:Et; [|congruence]. exists i, t, o. auto.
Qed.
Lemma port_at_fun W ports ts name i t j u : NoDup (port_names W ports) -> port_at W ports ts name i t -> port_at W ports ts name j u -> i = j /\ t = u.
Proof.
  intros N (o & A & B & C) (p & D & E & F). assert (i = j) as ->; [|split; congruence].
  apply (proj1 (NoDup_nth_error _) N); [unfold port_names; rewrite map_length; apply nth_error_Some; congruence|].
  unfold port_names. rewrite (map_nth_error _ _ _ A), (map_nth_error _ _ _ D), B, E. reflexivity.
Qed.
Lemma port_at_name W ports ts name1 name2 i t u : port_at W ports ts name1 i t -> port_at W ports ts name2 i u -> name1 = name2.
Proof. intros (o & A & B & _) (p & C & D & _). congruence. Qed.

Lemma fun_names op fuel nm W ports sigs H sfx direct fs : signals fuel op nm W 0 ports sigs -> NoDup (text_names W ports) ->
  gen_funcs H sfx op direct sigs sigs = Ok fs ->
  map cf_name fs = map (fun x => lit "ApxNode_" ++ (match op with Pack => lit "Write_" | Unpack => lit "Read_" end) ++ nm ++ lit "_" ++ x) (text_names W ports).
Proof.
  intros G N E. rewrite <- (signal_funcs _ _ _ _ _ _ _ G). refine (gen_funcs_all _ _ _ _ _ _ _ _ (fun x I => I) E).
  rewrite (signals_names _ _ _ _ _ _ _ G). exact (text_names_distinct _ _ N).
Qed.
Lemma nodup_prefixed (a b c : str) (l : list str) : NoDup l -> NoDup (map (fun x => a ++ b ++ c ++ lit "_" ++ x) l).
Proof. apply nodup_map. intros x y X. do 4 apply app_inv_head in X. exact X. Qed.

Lemma write_fact fuel sfx W nd callbacks direct synced W' nd' c ts name i t :
  generate fuel sfx W nd None callbacks direct synced = Ok (W', nd', c) -> Forall2 (port_cable W') (n_provide nd') ts ->
  NoDup (text_names W' (n_provide nd')) -> port_at W' (n_provide nd') ts name i t ->
  exists w, named (c_writes c) (lit "ApxNode_Write_" ++ c_name c ++ lit "_" ++ name) = Some w /\ cf_pointer w = negb (is_number t) /\
    forall buf x, len buf = total ts -> shape sfx t x ->
    exists m, call w buf x = Some m /\ len (m_buf m) = total ts /\ part_of ts (m_buf m) i = image t x /\
      (forall j, j <> i -> part_of ts (m_buf m) j = part_of ts buf j) /\ m_val m = x.
Proof.
  intros G F ND (o & No & Nn & Nt). pose proof (text_names_distinct _ _ ND) as ND'.
  destruct (write_function _ _ _ _ _ _ _ _ _ _ _ _ _ _ _ G F ND' No Nt) as (_ & w & Nw & En & X).
  pose proof G as G0. apply generate_inv in G0 as (W1 & nm & ins & outs & text & cbs & _ & _ & _ & G0).
  destruct (call_facts _ _ _ _ _ _ _ _ _ _ _ _ _ (gd_outs _ _ _ _ _ _ _ _ _ _ _ _ G0) F ND' (gd_writes _ _ _ _ _ _ _ _ _ _ _ _ G0) No Nt)
    as (_ & _ & _ & _ & d & p & body & n & ty & _ & _ & Ep & Nf & _).
  exists w. rewrite Nn in En. cbn [opt_text] in En. split.
  - rewrite <- En. refine (named_nth _ _ _ _ Nw). rewrite (fun_names _ _ _ _ _ _ _ _ _ _ (gd_outs _ _ _ _ _ _ _ _ _ _ _ _ G0) ND (gd_writes _ _ _ _ _ _ _ _ _ _ _ _ G0)).
    apply nodup_prefixed, ND.
  - split; [rewrite Nw in Nf; injection Nf as ->; cbn [cf_pointer]; rewrite Ep; destruct t; reflexivity|].
    intros buf x L S. destruct (X buf x L S) as (m & d' & C & A & B & D & _ & V & _). exists m. auto.
Qed.
Lemma read_fact fuel sfx W nd callbacks direct synced W' nd' c rs name i t :
  generate fuel sfx W nd None callbacks direct synced = Ok (W', nd', c) -> Forall2 (port_cable W') (n_require nd') rs ->
  NoDup (text_names W' (n_require nd')) -> NoDup (text_names W' (n_provide nd')) -> port_at W' (n_require nd') rs name i t ->
  named (c_writes c) (lit "ApxNode_Read_" ++ c_name c ++ lit "_" ++ name) = None /\
  exists r, named (c_reads c) (lit "ApxNode_Read_" ++ c_name c ++ lit "_" ++ name) = Some r /\ cf_pointer r = true /\
    forall buf old, bytes_ok buf -> len buf = total rs -> shape sfx t old ->
    exists m, call r buf old = Some m /\ m_val m = loaded t old (part_of rs buf i).
Proof.
  intros G F ND NP (o & No & Nn & Nt). pose proof (text_names_distinct _ _ ND) as ND'.
  destruct (read_function _ _ _ _ _ _ _ _ _ _ _ _ _ _ _ G F ND' No Nt) as (_ & r & Nr & En & X).
  pose proof G as G0. apply generate_inv in G0 as (W1 & nm & ins & outs & text & cbs & _ & _ & _ & G0).
  destruct (call_facts _ _ _ _ _ _ _ _ _ _ _ _ _ (gd_ins _ _ _ _ _ _ _ _ _ _ _ _ G0) F ND' (gd_reads _ _ _ _ _ _ _ _ _ _ _ _ G0) No Nt)
    as (_ & _ & _ & _ & d & p & body & n & ty & _ & _ & Ep & Nf & _).
  split.
  - apply named_none. rewrite (fun_names _ _ _ _ _ _ _ _ _ _ (gd_outs _ _ _ _ _ _ _ _ _ _ _ _ G0) NP (gd_writes _ _ _ _ _ _ _ _ _ _ _ _ G0)).
    intros I. apply in_map_iff in I as (x & E & _). discriminate.
  - exists r. rewrite Nn in En. cbn [opt_text] in En. split.
    + rewrite <- En. refine (named_nth _ _ _ _ Nr). rewrite (fun_names _ _ _ _ _ _ _ _ _ _ (gd_ins _ _ _ _ _ _ _ _ _ _ _ _ G0) ND (gd_reads _ _ _ _ _ _ _ _ _ _ _ _ G0)).
      apply nodup_prefixed, ND.
    + split; [rewrite Nr in Nf; injection Nf as ->; exact Ep|].
      intros buf old B L S. destruct (X buf old B L S) as (m & C & _ & V & _). exists m. auto.
Qed.

(** ** One call *)

Lemma send_step writes reads input node f t ty a st x x0 i ts w :
  sender_fits f t -> cp_params (cm_proto f) = [(ty, cm_complex f, a)] ->
  named writes (lit "ApxNode_Write_" ++ node ++ lit "_" ++ cm_port f) = Some w -> cf_pointer w = negb (is_number t) ->
  (exists m, call w (cs_out st) x = Some m /\ len (m_buf m) = total ts /\ part_of ts (m_buf m) i = image t x /\
      (forall j, j <> i -> part_of ts (m_buf m) j = part_of ts (cs_out st) j) /\ m_val m = x) ->
  (is_number t = true -> exists z z0, x = CInt z /\ x0 = CInt z0) ->
  cs_vars st (static_name f) = Some x0 -> image t x0 = part_of ts (cs_out st) i -> len (cs_out st) = total ts ->
  exists st', com_run writes reads input (cm_complex f) a (send_code node f a) (mk_comst (cs_vars st) (cs_out st) x (cs_log st)) = Some (st', true) /\
    cs_arg st' = x /\ (forall y, cs_vars st' y = if str_eqb y (static_name f) then Some x else cs_vars st y) /\
    len (cs_out st') = total ts /\ part_of ts (cs_out st') i = image t x /\
    (forall j, j <> i -> part_of ts (cs_out st') j = part_of ts (cs_out st) j) /\
    cs_log st' = cs_log st ++ (if same_val x0 x then [] else [(lit "ApxNode_Write_" ++ node ++ lit "_" ++ cm_port f, x)]).
Proof.
  intros (Cx & ty' & a' & Pa & Na) Pb Nw Pw (m & Cm & Lm & Pm & Om & Vm) Num Vs Im Lo. rewrite Pb in Pa. injection Pa as <- <-.
  assert (str_eqb a a = true) as Raa by apply str_eqb_refl. 
  assert (str_eqb (static_name f) (static_name f) = true) as Rss by apply str_eqb_refl.
  assert (str_eqb (static_name f) a = false) as Nsa by (destruct (str_eqb (static_name f) a) eqn:Q; [apply str_eqb_eq in Q; congruence|reflexivity]).
  assert (same_val x0 x = true -> exists st', com_run writes reads input (cm_complex f) a (send_code node f a) (mk_comst (cs_vars st) (cs_out st) x (cs_log st)) = Some (st', true) /\
    st' = mk_comst (cs_vars st) (cs_out st) x (cs_log st)) as Same.
  { intros Q. apply same_val_eq in Q as ->. assert (same_val x x = true) as Rx by (apply same_val_eq; reflexivity). eexists. split; [|reflexivity].
    unfold send_code. cbn [com_run com_exec]. destruct (cm_complex f) eqn:Cf; cbn [holds].
    - unfold by_pointer, variable. rewrite Raa, Nsa. cbn [cs_vars cs_arg]. rewrite Vs. cbn [obind]. rewrite Rx. reflexivity.
    - unfold by_value. rewrite Raa, Nsa. cbn [cs_vars cs_arg]. rewrite Vs. destruct (is_number t); [|discriminate]. destruct (Num eq_refl) as (z & z0 & -> & _).
      rewrite Z.eqb_refl. reflexivity. }
  destruct (same_val x0 x) eqn:Q.
  - destruct (Same eq_refl) as (st' & R & ->). apply same_val_eq in Q as ->. eexists. split; [exact R|]. cbn [cs_arg cs_vars cs_out cs_log]. rewrite app_nil_r.
    split; [reflexivity|]. split.
    { intros y. destruct (str_eqb y (static_name f)) eqn:E; [apply str_eqb_eq in E as ->; exact Vs|reflexivity]. }
    auto.
  - clear Same. assert (same_val x x0 = false) as Q' by (destruct (same_val x x0) eqn:E; [apply same_val_eq in E as ->; rewrite (proj2 (same_val_eq x0 x0) eq_refl) in Q; discriminate|reflexivity]).
    set (st0 := mk_comst (cs_vars st) (cs_out st) x (cs_log st)).
    assert (cm_complex f = true -> com_exec writes reads input true a (CCopy (static_name f) a) st0 = Some (set_var st0 (static_name f) x, false)) as E1.
    { intros _. cbn [com_exec]. unfold variable, by_pointer. rewrite Nsa, Raa. cbn [st0 cs_vars cs_arg]. rewrite Vs. reflexivity. }
    assert (cm_complex f = false -> com_exec writes reads input false a (CAssign (static_name f) a) st0 = Some (set_var st0 (static_name f) x, false)) as E2.
    { intros Cf. rewrite Cf in Cx. cbn [com_exec]. unfold variable, by_value. rewrite Nsa, Raa. cbn [st0 cs_vars cs_arg]. rewrite Vs.
      destruct (is_number t); [|discriminate]. destruct (Num eq_refl) as (z & z0 & -> & _). reflexivity. }
    unfold send_code. destruct (cm_complex f) eqn:Cf.
    + cbn [com_run]. cbn [com_exec holds]. unfold by_pointer, variable. rewrite Raa, Nsa. cbn [st0 cs_vars cs_arg]. fold st0. rewrite Vs. cbn [obind]. rewrite Q'. cbn [negb].
      rewrite ?(E1 eq_refl). cbn [obind snd fst].
      unfold call_node. rewrite Nw. unfold variable. rewrite Nsa. cbn [set_var cs_vars]. rewrite Rss. cbn [obind]. rewrite Pw, <- Cx. cbn [Bool.eqb set_var cs_out st0]. rewrite Cm.
      cbn [obind snd fst]. eexists. split; [reflexivity|]. cbn [set_var cs_arg cs_vars cs_out cs_log]. rewrite Vm.
      split; [reflexivity|]. split; [intros y; destruct (str_eqb y (static_name f)); reflexivity|]. auto.
    + destruct (is_number t) eqn:It; [|discriminate]. destruct (Num eq_refl) as (z & z0 & Ez & Ez0).
      cbn [com_run]. cbn [com_exec holds]. unfold by_value at 1 2. rewrite Raa, Nsa. cbn [st0 cs_vars cs_arg]. fold st0. rewrite Vs, Ez, Ez0. rewrite Ez, Ez0 in Q'. cbn [same_val] in Q'. rewrite Q'. cbn [negb obind].
      rewrite <- ?Ez. cbn [com_exec] in E2. rewrite (E2 eq_refl). cbn [obind snd fst].
      unfold call_node. rewrite Nw. unfold by_value. rewrite Nsa. cbn [set_var cs_vars]. rewrite Rss. cbn [obind]. rewrite Pw. cbn [Bool.eqb negb set_var cs_out st0]. rewrite Cm.
      cbn [obind snd fst]. eexists. split; [reflexivity|]. cbn [set_var cs_arg cs_vars cs_out cs_log st0]. auto 10.
Qed.

Lemma receive_step writes reads input node f ty a st x r m :
  cp_params (cm_proto f) = [(ty, true, a)] ->
  named writes (lit "ApxNode_Read_" ++ node ++ lit "_" ++ cm_port f) = None ->
  named reads (lit "ApxNode_Read_" ++ node ++ lit "_" ++ cm_port f) = Some r -> cf_pointer r = true -> call r input x = Some m ->
  com_run writes reads input true a (receive_code node f a) (mk_comst (cs_vars st) (cs_out st) x (cs_log st)) =
    Some (mk_comst (cs_vars st) (cs_out st) (m_val m) (cs_log st), true).
Proof.
  intros Pa Nw Nr Pr C. unfold receive_code. cbn [com_run com_exec]. unfold call_node. rewrite Nw, Nr. cbn [obind].
  unfold by_pointer. rewrite str_eqb_refl. cbn [obind cs_arg]. rewrite Pr, C. reflexivity.
Qed.

(** ** Variables *)

Definition good_vars (P : list comfunc) (vars : list comvar) : Prop :=
  NoDup (map cv_name vars) /\ (forall f, In f P -> In (static_name f) (map cv_name vars)) /\
  (forall v, In v vars -> exists f, first_user P (cv_name v) f /\ cv_type v = cm_type f /\ cm_init f = Ok (cv_init v)).
Lemma first_user_more P Q n f : first_user P n f -> first_user (P ++ Q) n f.
Proof. intros (b & a & -> & N & F). exists b, (a ++ Q). rewrite <- app_assoc. auto. Qed.
Lemma local_var_good P vars f vars' v : good_vars P vars -> local_var vars f = Ok (vars', v) -> good_vars (P ++ [f]) vars'.
Proof.
  intros (N & I & V) E. unfold local_var in E. destruct (find _ vars) as [w|] eqn:F.
  - injection E as <- <-. apply find_some in F as [Iw Ew]. apply str_eqb_eq in Ew. split; [exact N|]. split.
    + intros h Ih. apply in_app_or in Ih as [Ih|[<-|[]]]; [auto|]. change (static_name f) with (var_name f). rewrite <- Ew. apply in_map, Iw.
    + intros x Ix. destruct (V x Ix) as (h & Fh & Th). exists h. split; [apply first_user_more, Fh|exact Th].
  - apply bind_ok in E as (t & Et & E). injection E as <- <-. pose proof (find_none _ _ F) as FN.
    assert (~ In (static_name f) (map cv_name vars)) as NI.
    { intros J. apply in_map_iff in J as (x & Ex & Ix). specialize (FN x Ix). cbv beta in FN. rewrite Ex in FN. change (var_name f) with (static_name f) in FN. rewrite str_eqb_refl in FN. discriminate. }
    split; [|split].
    + rewrite map_app. apply (Permutation_NoDup (l := static_name f :: map cv_name vars)); [apply Permutation_cons_append|]. constructor; assumption.
    + intros h Ih. rewrite map_app. apply in_or_app. apply in_app_or in Ih as [Ih|[<-|[]]]; [left; auto|right; left; reflexivity].
    + intros x Ix. apply in_app_or in Ix as [Ix|[<-|[]]].
      * destruct (V x Ix) as (h & Fh & Th). exists h. split; [apply first_user_more, Fh|exact Th].
      * exists f. split; [|auto]. exists P, []. split; [reflexivity|]. split; [reflexivity|]. apply Forall_forall. intros h Ih E. apply NI. cbn [cv_name] in E.
        change (var_name f) with (static_name f) in E. rewrite <- E. auto.
Qed.
Lemma send_bodies_good node : forall l P vars vars' bs, good_vars P vars -> send_bodies node vars l = Ok (vars', bs) -> good_vars (P ++ l) vars'.
Proof.
  induction l as [|f l IH]; intros P vars vars' bs G E; cbn [send_bodies] in E; [injection E as <- <-; rewrite app_nil_r; exact G|].
  apply bind_ok in E as ([v1 b] & Eb & E). apply bind_ok in E as ([v2 bs'] & Er & E). injection E as <- <-.
  unfold send_body in Eb. apply bind_ok in Eb as ([v3 v] & Ev & Eb). apply bind_ok in Eb as (a & Ea & Eb). injection Eb as <- <-.
  change (f :: l) with ([f] ++ l). rewrite app_assoc. exact (IH _ _ _ _ (local_var_good _ _ _ _ _ G Ev) Er).
Qed.
Lemma com_vars W0 comp W1 g : new_com W0 comp = Ok (W1, g) -> good_vars (cc_send comp) (cg_vars g).
Proof.
  intros NC. unfold new_com in NC. apply bind_ok in NC as ([Wa na] & Ei & NC). apply bind_ok in NC as ([Wb nb] & Em & NC).
  apply bind_ok in NC as ([vars sends] & Es & NC). apply bind_ok in NC as (rec & Er & NC). injection NC as <- <-. cbn [cg_vars].
  refine (send_bodies_good _ _ [] _ _ _ _ Es). split; [constructor|]. split; intros x [].
Qed.
Lemma sorted_vars_isort l : sorted_vars l = FinalizeProofs.isort cv_name l.
Proof.
  unfold sorted_vars, FinalizeProofs.isort. rewrite <- fold_left_rev_right. induction (rev l) as [|x r IH]; [reflexivity|]. cbn [fold_right]. rewrite IH.
  assert (forall m, insert_name cv_name x m = FinalizeProofs.insert cv_name x m) as H; [|apply H].
  induction m as [|y m IHm]; cbn [insert_name FinalizeProofs.insert]; [reflexivity|]. rewrite IHm. reflexivity.
Qed.

(** ** Lines *)

Lemma calm_com : forall s n, Forall calm (com_lines (S n) s).
Proof.
  fix IH 1. intros s n. destruct s as [c body|a b|a b|f r x|]; cbn [com_lines]; try (constructor; [apply calm_stmt|constructor]).
  rewrite !Forall_app. split; [repeat constructor; apply calm_line|]. split; [|repeat constructor; apply calm_line].
  induction body as [|s body IHb]; cbn [flat_map]; [constructor|]. rewrite Forall_app. split; [|exact IHb]. change (S n + 3)%nat with (S (n + 3)). apply IH.
Qed.
Lemma proto_not_brace f : str_eqb (proto_text f) [123] = false.
Proof.
  destruct (str_eqb (proto_text f) [123]) eqn:E; [|reflexivity]. apply str_eqb_eq in E. unfold proto_text in E. rewrite !app_assoc in E.
  change (lit ")") with [41] in E. apply (f_equal (@rev Z)) in E. rewrite rev_unit in E. discriminate.
Qed.
Lemma com_funs_seg fs : seg (flat_map com_fun_lines fs) (map (fun f => proto_text (fst f)) fs).
Proof.
  induction fs as [|f fs IH]; [exact seg_nil|]. cbn [flat_map map]. apply (seg_app _ _ [proto_text (fst f)]); [|exact IH].
  intros rest H. split; [intros x X; injection X as <-; unfold calm; discriminate|]. unfold com_fun_lines. cbn [app].
  change (defined ([] :: proto_text (fst f) :: lit "{" :: (flat_map (com_lines 3) (snd f) ++ [lit "}"]) ++ rest)) with
    (if str_eqb (proto_text (fst f)) [123] then [] :: defined (proto_text (fst f) :: lit "{" :: (flat_map (com_lines 3) (snd f) ++ [lit "}"]) ++ rest)
     else proto_text (fst f) :: defined (lit "{" :: (flat_map (com_lines 3) (snd f) ++ [lit "}"]) ++ rest)).
  rewrite proto_not_brace. f_equal. rewrite defined_cons.
  - apply defined_calm; [|exact H]. rewrite Forall_app. split; [apply calm_flat; intros s; apply calm_com|repeat constructor; unfold calm; discriminate].
  - intros y. apply head_calm; [|exact H]. rewrite Forall_app. split; [apply calm_flat; intros s; apply calm_com|repeat constructor; unfold calm; discriminate].
Qed.
