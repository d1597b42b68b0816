(** Lemmas about calls on nodes that raise. *)
From Coq Require Import ZifyBool ZifyNat Lia.
From Coq Require Import Permutation.
From Verif Require Import Py PyLemmas TypesModel TextModel SigModel AttrModel NodeModel ParserModel NodeLeftModel.
From Verif Require Import SigSpec NodeSpec ParserSpec MergeSpec NodeLeftSpec.
From Verif Require Import TextProofs SigProofs NodeProofs ElemTextProofs ParserProofs LoadProofs MirrorProofs FinalizeProofs ExtendProofs.
Ltac Zify.zify_post_hook ::= Z.div_mod_to_equations.

(** ** The calls of the model *)

(** The last part of a call is what the model says, and so is the rest if it returns. *)
Definition as_model {A} (l : left A) (r : res (world * node * A)) : Prop :=
  match r with
  | Ok (W, nd, a) => l = (W, nd, Ok a)
  | Err x => exists W nd, l = (W, nd, Err x)
  end.

Definition pair_of (r : res delem) (p : delem * option exn) : Prop :=
  match r with Ok e => p = (e, None) | Err x => snd p = Some x end.
Fixpoint lefts (H : theap) (l : list nat) (es : list delem) : list delem * option exn :=
  match es with
  | [] => ([], None)
  | e :: r =>
    match resolve_left H l e with
    | (e', Some x) => (e' :: r, Some x)
    | (e', None) => let '(r', x) := lefts H l r in (e' :: r', x)
    end
  end.
Lemma resolve_left_rec H l n es : resolve_left H l (DRec n es) = let '(es', x) := lefts H l es in (DRec n es', x).
Proof.
  cbn [resolve_left]. match goal with |- (let '(_, _) := ?f es in _) = _ => assert (f es = lefts H l es) as ->; [|reflexivity] end.
  induction es as [|e es IH]; [reflexivity|]. cbn [lefts]. rewrite <- IH. reflexivity.
Qed.
Lemma resolve_left_as H l e : pair_of (resolve_type H (Some l) e) (resolve_left H l e).
Proof.
  induction e as [|n es IH|n [i|s|o]] using delem_ind2; try reflexivity; cycle 1.
  - cbn [resolve_type resolve_left]. destruct (index l i); reflexivity.
  - cbn [resolve_type resolve_left]. destruct (find_type H s l); reflexivity.
  - rewrite resolve_type_rec, resolve_left_rec.
    assert (match resolve_types_list H (Some l) es with Ok es' => lefts H l es = (es', None) | Err x => snd (lefts H l es) = Some x end) as X.
    { induction IH as [|e es He _ IH]; [reflexivity|]. cbn [resolve_types_list lefts]. destruct (resolve_type H (Some l) e) as [e'|x]; cbn [pair_of bind] in *.
      - rewrite He. destruct (resolve_types_list H (Some l) es) as [es'|x]; cbn [bind].
        + rewrite IH. reflexivity.
        + destruct (lefts H l es) as [es' y]. cbn [snd] in *. exact IH.
      - destruct (resolve_left H l e) as [e' y]. cbn [snd] in He. subst y. reflexivity. }
    destruct (resolve_types_list H (Some l) es) as [es'|x]; cbn [bind pair_of].
    + rewrite X. reflexivity.
    + destruct (lefts H l es) as [es' y]. exact X.
Qed.
Lemma resolve_sig_left_as H l e :
  match resolve_sig H l e with
  | Ok (e', _) => resolve_sig_left H l e = (e', None)
  | Err x => snd (resolve_sig_left H l e) = Some x
  end.
Proof.
  unfold resolve_sig, resolve_sig_left. pose proof (resolve_left_as H l e) as X. destruct (resolve_type H (Some l) e) as [e'|x]; cbn [pair_of bind] in *.
  - rewrite X. destruct (resolve_data_element H e'); reflexivity.
  - destruct (resolve_left H l e) as [e' y]. cbn [snd] in X. subst y. reflexivity.
Qed.
Lemma add_type_left_as W nd o : as_model (add_type_left W nd o) (add_type W nd o).
Proof.
  unfold add_type_left, add_type. destruct (map_find (dt_name (w_types W o)) (n_map nd)) as [o'|].
  - destruct (verify_equal _ _); cbn [bind as_model]; eauto.
  - pose proof (resolve_sig_left_as (w_types W) (n_types nd) (dt_elem (w_types W o))) as X.
    destruct (resolve_sig _ _ _) as [[e d]|x]; cbn [bind as_model].
    + rewrite X. reflexivity.
    + destruct (resolve_sig_left _ _ _) as [e y]. cbn [snd] in X. subst y. eauto.
Qed.
Lemma resolve_port_left_as W types p :
  match resolve_port W types p with
  | Ok p' => resolve_port_left W types p = (p', None)
  | Err x => snd (resolve_port_left W types p) = Some x
  end.
Proof.
  unfold resolve_port, resolve_port_left. destruct (is_reference (pt_elem p)); [|reflexivity].
  pose proof (resolve_sig_left_as (w_types W) types (pt_elem p)) as X.
  destruct (resolve_sig _ _ _) as [[e d]|x]; cbn [bind].
  - rewrite X. reflexivity.
  - destruct (resolve_sig_left _ _ _) as [e y]. exact X.
Qed.
Definition with_tt (r : res (world * node)) : res (world * node * unit) := do '(W, nd) <- r; Ok (W, nd, tt).
Lemma add_port_left_as W nd o : as_model (add_port_left W nd o) (with_tt (add_port W nd o)).
Proof.
  unfold add_port_left, add_port, with_tt. cbv zeta.
  match goal with |- context [resolve_port ?W ?t ?p] => pose proof (resolve_port_left_as W t p) as X; destruct (resolve_port W t p) as [p'|x]; cbn [bind as_model] end.
  - rewrite X. reflexivity.
  - destruct (resolve_port_left _ _ _) as [p' y]. cbn [snd] in X. subst y. eauto.
Qed.
Lemma append_text_left_as W nd item : as_model (append_text_left W nd item) (with_tt (append_text W nd item)).
Proof.
  unfold append_text_left, append_text, with_tt. destruct (split_line item) as [parts|]; [|cbn; eauto].
  destruct (negb (len parts =? 4)); [cbn; eauto|].
  assert (forall pr, as_model match decl parts with
    | Err x => (W, nd, Err x)
    | Ok (n, s, a) => match make_port pr n s a with
      | Err x => (W, nd, Err x)
      | Ok p => let '(W, o) := new_port W p in add_port_left W nd o end end
    (do '(W, nd) <- apply_port pr W nd parts; Ok (W, nd, tt))) as X.
  { intros pr. unfold apply_port. destruct (decl parts) as [[[n s] a]|x]; cbn [bind]; [|cbn; eauto].
    destruct (make_port pr n s a) as [p|x]; cbn [bind]; [|cbn; eauto]. destruct (new_port W p) as [W1 o]. apply add_port_left_as. }
  cbv zeta. destruct (opt_eqb _ (Some [82])); [apply X|]. destruct (opt_eqb _ (Some [80])); [apply X|]. cbn. eauto.
Qed.

Definition left_step (k : nat) (acc : left unit) (e : delem) : left unit :=
  match acc with
  | (W, nd, Err x) => (W, nd, Err x)
  | (W, nd, Ok _) =>
    match e with
    | DRef _ (RObj o') =>
      match add_type_from_left k W nd o' with
      | (W, nd, Ok _) => (W, nd, Ok tt)
      | (W, nd, Err x) => (W, nd, Err x)
      end
    | DRef _ _ => (W, nd, Err ValueError)
    | _ => (W, nd, Ok tt)
    end
  end.
Lemma left_step_err k es W nd x : fold_left (left_step k) es (W, nd, Err x) = (W, nd, Err x).
Proof. induction es as [|e es IH]; [reflexivity|]. exact IH. Qed.
Lemma members_left_as k (IH : forall W nd o, as_model (add_type_from_left k W nd o) (add_type_from k W nd o)) : forall es W nd,
  as_model (fold_left (left_step k) es (W, nd, Ok tt)) (with_tt (fold_left (member_step k) es (Ok (W, nd)))).
Proof.
  induction es as [|e es IHl]; intros W nd; [reflexivity|]. cbn [fold_left].
  assert (as_model (left_step k (W, nd, Ok tt) e) (with_tt (member_step k (Ok (W, nd)) e))) as X.
  { destruct e as [| |n [i|s|o]]; try reflexivity; try (cbn; eauto; fail). cbn [left_step member_step bind]. pose proof (IH W nd o) as Y.
    destruct (add_type_from k W nd o) as [[[W1 nd1] o1]|x]; cbn [as_model bind with_tt] in *.
    - rewrite Y. reflexivity.
    - destruct Y as (W1 & nd1 & ->). eauto. }
  destruct (member_step k (Ok (W, nd)) e) as [[W1 nd1]|x]; cbn [with_tt bind as_model] in X.
  - rewrite X. apply IHl.
  - destruct X as (W1 & nd1 & ->). rewrite left_step_err, member_err. cbn. eauto.
Qed.
Lemma add_type_from_left_as k : forall W nd o, as_model (add_type_from_left k W nd o) (add_type_from k W nd o).
Proof.
  induction k as [|k IH]; intros W nd o; [cbn; eauto|]. cbn [add_type_from_left add_type_from].
  set (m := match dt_elem (w_types W o) with DPrim _ _ _ _ _ => (W, nd, Ok tt) | DRec _ es => _ | DRef _ _ => _ end).
  set (r := match dt_elem (w_types W o) with DPrim _ _ _ _ _ => Ok (W, nd) | DRec _ es => _ | DRef _ _ => _ end).
  assert (as_model m (with_tt r)) as X.
  { unfold m, r. destruct (dt_elem (w_types W o)) as [|n es|]; [reflexivity| |cbn; eauto]. apply (members_left_as k IH). }
  destruct r as [[W1 nd1]|x]; cbn [with_tt bind as_model] in X.
  - rewrite X. cbn [bind]. destruct (clone_type _ _) as [d|x]; cbn [bind as_model]; [|eauto]. destruct (new_type W1 d) as [W2 o'].
    pose proof (add_type_left_as W2 nd1 o') as Y. destruct (add_type W2 nd1 o') as [[[W3 nd3] o3]|x]; cbn [as_model bind] in *.
    + rewrite Y. reflexivity.
    + destruct Y as (W3 & nd3 & ->). eauto.
  - destruct X as (W1 & nd1 & ->). cbn. eauto.
Qed.
Lemma add_port_from_left_as k W nd po : as_model (add_port_from_left k W nd po) (add_port_from k W nd po).
Proof.
  unfold add_port_from_left, add_port_from. cbv zeta. destruct (check_duplicate _ _ _) as [[o|]|x]; cbn [bind as_model]; [reflexivity| |eauto].
  destruct (clone_port _ _) as [p'|x]; cbn [bind as_model]; [|eauto].
  match goal with |- as_model (let '(_, _) := ?m in _) (bind ?r _) => set (M := m); set (R := r) end.
  assert (as_model M R) as X.
  { unfold M, R. destruct (pt_elem (w_ports W po)) as [| |n [i|s|o]]; try reflexivity; try (cbn; eauto; fail).
    destruct (node_find W nd (dt_name (w_types W o))) as [[o'|o']|].
    - destruct (verify_equal _ _); cbn; eauto.
    - destruct (verify_equal _ _); cbn; eauto.
    - pose proof (add_type_from_left_as k W nd o) as Y. destruct (add_type_from k W nd o) as [[[W1 nd1] o1]|x]; cbn [as_model bind] in *.
      + rewrite Y. reflexivity.
      + destruct Y as (W1 & nd1 & ->). eauto. }
  destruct R as [[[W1 nd1] q]|x]; cbn [as_model bind] in *.
  - rewrite X. destruct (new_port W1 q) as [W2 o]. pose proof (add_port_left_as W2 nd1 o) as Y. unfold with_tt in Y.
    destruct (add_port W2 nd1 o) as [[W3 nd3]|x]; cbn [as_model bind] in *.
    + rewrite Y. reflexivity.
    + destruct Y as (W3 & nd3 & ->). eauto.
  - destruct X as (W1 & nd1 & ->). eauto.
Qed.
Lemma add_ports_from_left_as k : forall l W nd, as_model (add_ports_from_left k W nd l) (with_tt (add_ports_from k W nd l)).
Proof.
  induction l as [|po l IH]; intros W nd; [reflexivity|]. cbn [add_ports_from_left add_ports_from]. pose proof (add_port_from_left_as k W nd po) as X.
  destruct (add_port_from k W nd po) as [[[W1 nd1] o]|x]; cbn [as_model bind with_tt] in *.
  - rewrite X. apply IH.
  - destruct X as (W1 & nd1 & ->). eauto.
Qed.

Lemma resolve_ports_left_as types : forall l W,
  match resolve_ports W types l with
  | Ok W' => resolve_ports_left W types l = (W', None)
  | Err x => snd (resolve_ports_left W types l) = Some x
  end.
Proof.
  induction l as [|o l IH]; intros W; [reflexivity|]. cbn [resolve_ports resolve_ports_left]. pose proof (resolve_port_left_as W types (w_ports W o)) as X.
  destruct (resolve_port W types (w_ports W o)) as [p|x]; cbn [bind].
  - rewrite X. apply IH.
  - destruct (resolve_port_left _ _ _) as [p y]. cbn [snd] in X. subst y. reflexivity.
Qed.
Lemma sort_left_as W nd b :
  match sort_elements W nd b with
  | Ok nd' => sort_left W nd b = (nd', None)
  | Err x => snd (sort_left W nd b) = Some x
  end.
Proof.
  unfold sort_elements, sort_left. destruct (sorted_by _ (n_types nd)) as [ts|x]; cbn [bind]; [|reflexivity]. destruct b; [|reflexivity].
  cbn [n_require n_provide n_name n_final n_map]. destruct (sorted_by _ (n_require nd)) as [rs|x]; cbn [bind]; [|reflexivity].
  destruct (sorted_by _ (n_provide nd)) as [ps|x]; reflexivity.
Qed.
Lemma finalize_left_as sort compact W nd : as_model (finalize_left sort compact W nd) (with_tt (finalize sort compact W nd)).
Proof.
  unfold finalize_left, finalize, with_tt. destruct (n_final nd); [reflexivity|]. pose proof (sort_left_as W nd sort) as X.
  destruct (sort_elements W nd sort) as [nd1|x]; cbn [bind as_model].
  - rewrite X. unfold resolve_types. pose proof (resolve_ports_left_as (n_types nd1) (n_require nd1 ++ n_provide nd1) W) as Y.
    destruct (resolve_ports _ _ _) as [W1|x]; cbn [bind as_model].
    + rewrite Y. reflexivity.
    + destruct (resolve_ports_left _ _ _) as [W1 y]. cbn [snd] in Y. subst y. eauto.
  - destruct (sort_left W nd sort) as [nd1 y]. cbn [snd] in X. subst y. eauto.
Qed.

(** ** What a refused declaration leaves *)

Scheme bound_mind := Induction for bound Sort Prop with bounds_mind := Induction for bounds Sort Prop.

Section Bound.
  Variables (H : theap) (types : list nat) (names : list (option str)).
  Hypothesis F : Forall2 (fun o nm => dt_name (H o) = nm) types names.

  Lemma bounds_refl es : bounds types names es es.
  Proof. induction es; constructor; [constructor|assumption]. Qed.
  Lemma resolve_left_bound e : bound types names e (fst (resolve_left H types e)).
  Proof.
    induction e as [|n es IH|n [i|s|o]] using delem_ind2; try constructor.
    - rewrite resolve_left_rec. assert (bounds types names es (fst (lefts H types es))) as X.
      { induction IH as [|e es He _ IH]; [constructor|]. cbn [lefts]. destruct (resolve_left H types e) as [e' [x|]]; cbn [fst] in *.
        - constructor; [exact He|apply bounds_refl].
        - destruct (lefts H types es) as [es' y]. constructor; assumption. }
      destruct (lefts H types es) as [es' x]. constructor. exact X.
    - cbn [resolve_left]. destruct (index types i) as [o|x] eqn:E; [|constructor]. cbn [fst].
      destruct (index_range _ _ _ E) as (k & K & [-> | ->]); [apply bd_index|apply bd_back]; exact K.
    - cbn [resolve_left]. destruct (find_type H s types) as [o|] eqn:E; [|constructor]. cbn [fst].
      destruct (find_named _ _ _ _ _ F E) as (i & I & N). eapply bd_name; eauto.
  Qed.
  Lemma resolve_sig_left_bound e : bound types names e (fst (resolve_sig_left H types e)).
  Proof.
    unfold resolve_sig_left. pose proof (resolve_left_bound e) as B. destruct (resolve_left H types e) as [e' [x|]]; [exact B|].
    destruct (resolve_data_element H e'); exact B.
  Qed.
End Bound.

Lemma with_elem_same d : with_elem d (dt_elem d) = d.
Proof. destruct d. reflexivity. Qed.
Lemma only_type_refl o W : only_type o W W.
Proof. repeat split. Qed.
Lemma only_type_set o W d : only_type o W (set_type W o d).
Proof. repeat split. intros x N. cbn [set_type w_types]. apply upd_other. exact N. Qed.
Lemma only_port_set o W p : only_port o W (set_port W o p).
Proof. repeat split. intros x N. cbn [set_port w_ports]. apply upd_other. exact N. Qed.

Lemma refused_type W nd D o W' nd' x : represents W nd D -> add_type_left W nd o = (W', nd', Err x) ->
  nd' = nd /\ only_type o W W' /\ exists e, w_types W' o = with_elem (w_types W o) e /\ bound (n_types nd) (type_names D) (dt_elem (w_types W o)) e.
Proof.
  intros R E. unfold add_type_left in E. destruct (map_find (dt_name (w_types W o)) (n_map nd)) as [o'|].
  - destruct (verify_equal _ _); [discriminate|]. injection E as <- <- _. split; [reflexivity|]. split; [apply only_type_refl|].
    exists (dt_elem (w_types W o)). split; [symmetry; apply with_elem_same|constructor].
  - pose proof (resolve_sig_left_bound _ _ _ (rep_names _ _ _ R) (dt_elem (w_types W o))) as B.
    destruct (resolve_sig_left _ _ _) as [e [y|]]; [|discriminate]. injection E as <- <- _. split; [reflexivity|]. split; [apply only_type_set|].
    exists e. split; [cbn [set_type w_types]; apply upd_same|exact B].
Qed.
Lemma resolve_port_left_bound W nd D p : represents W nd D -> exists e, fst (resolve_port_left W (n_types nd) p) = with_pelem p e /\
  bound (n_types nd) (type_names D) (pt_elem p) e.
Proof.
  intros R. unfold resolve_port_left. destruct (is_reference (pt_elem p)).
  - pose proof (resolve_sig_left_bound _ _ _ (rep_names _ _ _ R) (pt_elem p)) as B. destruct (resolve_sig_left _ _ _) as [e x]. exists e. auto.
  - exists (pt_elem p). split; [destruct p; reflexivity|constructor].
Qed.
Lemma refused_port W nd D o W' nd' x : represents W nd D -> add_port_left W nd o = (W', nd', Err x) ->
  nd' = nd /\ only_port o W W' /\ exists e,
    w_ports W' o = with_pelem (with_pid (w_ports W o) (Some (len (if pt_provide (w_ports W o) then n_provide nd else n_require nd)))) e /\
    bound (n_types nd) (type_names D) (pt_elem (w_ports W o)) e.
Proof.
  intros R E. unfold add_port_left in E. cbv zeta in E.
  match type of E with (let '(_, _) := resolve_port_left _ _ ?p in _) = _ => destruct (resolve_port_left_bound W nd D p R) as (e & EE & B) end.
  destruct (resolve_port_left _ _ _) as [p' [y|]]; [|discriminate]. injection E as <- <- _. split; [reflexivity|]. split; [apply only_port_set|].
  exists e. split; [|exact B]. cbn [set_port w_ports]. rewrite upd_same. exact EE.
Qed.
Lemma rep_only_type W W' o nd D : represents W nd D -> ~ In o (n_types nd) -> only_type o W W' -> represents W' nd D.
Proof.
  intros R N (A & B & C & E). eapply rep_frame; [exact R| | |lia|lia].
  - intros x X. apply C. congruence.
  - intros x _. apply E.
Qed.
Lemma rep_only_port W W' o nd D : represents W nd D -> ~ In o (n_provide nd ++ n_require nd) -> only_port o W W' -> represents W' nd D.
Proof.
  intros R N (A & B & C & E). eapply rep_frame; [exact R| | |lia|lia].
  - intros x _. apply C.
  - intros x X. apply E. congruence.
Qed.
Lemma tags_only_type W W' o nd : untagged W nd \/ tagged W nd -> ~ In o (n_types nd) -> only_type o W W' -> same_tags W nd W' nd.
Proof.
  intros [U|T] N (_ & _ & C & _); [left|right]; split; auto.
  - intros x X. rewrite C by congruence. auto.
  - intros i x X. rewrite C; [auto|]. intros ->. apply N. eapply nth_error_In; eauto.
Qed.
Lemma tags_only_port W W' o nd : untagged W nd \/ tagged W nd -> only_port o W W' -> same_tags W nd W' nd.
Proof.
  intros [U|T] (_ & _ & C & _); [left|right]; split; auto.
  - intros x X. rewrite C. auto.
  - intros i x X. rewrite C. auto.
Qed.

(** ** Trying again *)

Lemma stands_fun types : forall e a, stands types e a -> forall e', stands types e' a -> e = e'.
Proof.
  apply (stands_mind types (fun e a _ => forall e', stands types e' a -> e = e') (fun es l _ => forall es', stands_all types es' l -> es = es')).
  - intros. inversion H. reflexivity.
  - intros n o i N e' S1. inversion S1; subst. match goal with X : Z.of_nat _ = Z.of_nat _ |- _ => apply Nat2Z.inj in X; subst end. congruence.
  - intros n es l _ IH e' S1. inversion S1; subst. f_equal. apply IH. assumption.
  - intros es' S1. inversion S1. reflexivity.
  - intros e a es l _ IH _ IHs es' S1. inversion S1; subst. f_equal; [apply IH|apply IHs]; assumption.
Qed.
Section Retry.
  Variables (H : theap) (types more : list nat) (names more_names : list (option str)).
  Hypothesis F : Forall2 (fun o nm => dt_name (H o) = nm) (types ++ more) (names ++ more_names).
  Hypothesis N : NoDup (names ++ more_names).
  Hypothesis LN : length types = length names.

  Lemma bound_later : forall e e', bound types names e e' -> forward e -> forall a, refers (names ++ more_names) e a ->
    exists x, resolve_type H (Some (types ++ more)) e' = Ok x /\ stands (types ++ more) x a.
  Proof.
    apply (bound_mind types names
      (fun e e' _ => forward e -> forall a, refers (names ++ more_names) e a -> exists x, resolve_type H (Some (types ++ more)) e' = Ok x /\ stands (types ++ more) x a)
      (fun es es' _ => Forall forward es -> forall l, refers_all (names ++ more_names) es l ->
         exists xs, resolve_types_list H (Some (types ++ more)) es' = Ok xs /\ stands_all (types ++ more) xs l)).
    - intros e _ a RF. exact (linkable H _ _ F N e a RF).
    - intros n i o I _ a RF. eexists. split; [reflexivity|].
      assert (i < length types)%nat as LI by (apply nth_error_Some; congruence).
      inversion RF as [| |n' j J EJ|n' j J EJ|]; subst.
      + match goal with X : Z.of_nat _ = Z.of_nat _ |- _ => apply Nat2Z.inj in X; subst end. constructor. rewrite nth_error_app1; assumption.
      + exfalso. unfold len in *. lia.
    - intros n i o I FW a RF. exfalso. inversion FW; subst. assert (i < length types)%nat as LI by (apply nth_error_Some; congruence). unfold len in *. lia.
    - intros n s i o I IN _ a RF. eexists. split; [reflexivity|].
      assert (i < length types)%nat as LI by (apply nth_error_Some; congruence).
      inversion RF as [|n' s' j J| | |]; subst. constructor.
      assert (nth_error (names ++ more_names) i = Some (Some s)) as IN' by (rewrite nth_error_app1 by lia; exact IN).
      assert (i = j) as <-.
      { rewrite NoDup_nth_error in N. apply N; [|congruence]. apply nth_error_Some. congruence. }
      rewrite nth_error_app1; assumption.
    - intros n es es' _ IH FW a RF. inversion FW; subst. inversion RF; subst. destruct (IH ltac:(assumption) _ ltac:(eassumption)) as (xs & E & S1).
      rewrite resolve_type_rec, E. eexists. split; [reflexivity|constructor; exact S1].
    - intros _ l RF. inversion RF; subst. exists []. split; [reflexivity|constructor].
    - intros e e' es es' _ IH _ IHs FW l RF. inversion FW; subst. inversion RF; subst. destruct (IH ltac:(assumption) _ ltac:(eassumption)) as (x & E & S1).
      destruct (IHs ltac:(assumption) _ ltac:(eassumption)) as (xs & Es & S2). cbn [resolve_types_list]. rewrite E, Es. eexists. split; [reflexivity|constructor; assumption].
  Qed.
End Retry.

Lemma bound_is_ref types names e e' : bound types names e e' -> is_ref e <-> is_ref e'.
Proof. intros B. inversion B; cbn; tauto. Qed.

Definition grew (nd : node) (D : ndef) (nd2 : node) (D2 : ndef) : Prop :=
  (exists more, n_types nd2 = n_types nd ++ more) /\ (exists ts, df_types D2 = df_types D ++ ts).
Lemma retried W nd D nd2 D2 W2 e e' a : represents W nd D -> represents W2 nd2 D2 -> linked D2 -> grew nd D nd2 D2 ->
  bound (n_types nd) (type_names D) e e' -> forward e -> refers (type_names D2) e a -> reaches (df_types D2) 10 a ->
  exists x d, resolve_sig (w_types W2) (n_types nd2) e' = Ok (x, d) /\ resolve_type (w_types W2) (Some (n_types nd2)) e = Ok x /\ stands (n_types nd2) x a.
Proof.
  intros R R2 L2 ((more & G1) & (ts & G2)) B FW RF RC.
  assert (type_names D2 = type_names D ++ map td_name ts) as GN by (unfold type_names; rewrite G2; apply map_app).
  pose proof (rep_names _ _ _ R2) as F. pose proof (ln_names _ L2) as N.
  destruct (linkable _ _ _ F N _ _ RF) as (y & EY & SY). rewrite G1, GN in F. rewrite GN in N, RF.
  assert (length (n_types nd) = length (type_names D)) as LN by (eapply Forall2_len; apply rep_names; exact R).
  destruct (bound_later _ _ _ _ _ F N LN _ _ B FW _ RF) as (x & EX & SX). rewrite <- G1 in *.
  pose proof (stands_fun _ _ _ SX _ SY). subst y.
  destruct (proj2 (follow _ _ _ (rp_types _ _ _ R2) 10 _ _ SX) RC) as (d & RD).
  exists x, d. split; [|split; assumption]. unfold resolve_sig. rewrite EX. cbn [bind]. unfold resolve_data_element, MAX_RECURSE_DEPTH. rewrite RD. reflexivity.
Qed.

(** The world with the object as it was before the first try. *)
Lemma retry_type W nd D o W1 nd1 x W2 nd2 D2 a : represents W nd D -> add_type_left W nd o = (W1, nd1, Err x) ->
  as_parsed (dt_elem (w_types W o)) -> forward (dt_elem (w_types W o)) ->
  represents W2 nd2 D2 -> linked D2 -> grew nd D nd2 D2 -> w_types W2 o = w_types W1 o -> (o < w_ntypes W2)%nat -> ~ In o (n_types nd2) ->
  ~ In (dt_name (w_types W o)) (type_names D2) -> refers (type_names D2) (dt_elem (w_types W o)) a -> reaches (df_types D2) 10 a ->
  exists W3 nd3, add_type W2 nd2 o = Ok (W3, nd3, o) /\ only_type o W2 W3 /\
    represents W3 nd3 (plus_type D2 (mk_tdef (dt_name (w_types W o)) a (dt_attr (w_types W o)))).
Proof.
  intros R E AP FW R2 L2 G W2o OB ON NI RF RC. destruct (refused_type _ _ _ _ _ _ _ R E) as (_ & _ & e & EO & B).
  destruct (retried _ _ _ _ _ _ _ _ _ R R2 L2 G B FW RF RC) as (y & d & RS & RT & ST).
  set (d0 := w_types W o) in *. set (Wp := set_type W2 o d0).
  assert (w_types Wp o = d0) as WO by (unfold Wp; cbn [set_type w_types]; apply upd_same).
  pose proof (rep_only_type _ Wp _ _ _ R2 ON (only_type_set o W2 d0)) as Rp.
  destruct (add_type_ok Wp nd2 D2 o a Rp L2) as (W3 & nd3 & E3); [rewrite WO; exact NI|rewrite WO; exact RF|exact RC|].
  assert (OBp : (o < w_ntypes Wp)%nat) by exact OB.
  destruct (add_type_step Wp nd2 D2 o W3 nd3 o Rp L2 OBp ON) as [(I & _)|(a' & e' & _ & RF' & _ & _ & -> & -> & R3)]; [rewrite WO; exact AP|exact E3|rewrite WO in I; contradiction|].
  rewrite WO in *. assert (a' = a) as -> by (eapply refers_fun; [apply (ln_names _ L2)|exact RF'|exact RF]).
  unfold add_type. rewrite W2o, EO. cbn [with_elem dt_name dt_elem].
  rewrite (proj2 (rep_map_none _ _ _ _ R2) NI), RS. cbn [bind]. eexists _, _. split; [reflexivity|]. split; [apply only_type_set|].
  eapply rep_frame; [exact R3| | | |]; cbn [set_type w_types w_ports w_ntypes w_nports Wp n_types]; auto.
  intros z Z. unfold upd_nat. destruct (Nat.eqb z o) eqn:ZO; [|reflexivity].
  (* both are the declaration with its references bound *)
  assert (e' = y) as ->; [|reflexivity].
  pose proof (rp_types _ _ _ R3) as F3. cbn [n_types plus_type df_types] in F3. apply Forall2_app_inv_l in F3 as (l1 & l2 & F31 & F32 & EQ).
  apply Forall2_len in F31. pose proof (Forall2_len _ _ _ (rp_types _ _ _ R2)) as LL. inversion F32 as [|? t ? ? (_ & _ & S3) F33]; subst. inversion F33; subst.
  apply app_inj_tail in EQ as [_ <-]. cbn [set_type w_types] in S3. rewrite upd_same in S3. cbn [with_elem dt_elem td_elem] in S3.
  eapply stands_fun; [exact S3|]. apply stands_more. exact ST.
Qed.
Lemma retry_port W nd D o W1 nd1 x W2 nd2 D2 a : represents W nd D -> add_port_left W nd o = (W1, nd1, Err x) ->
  forward (pt_elem (w_ports W o)) ->
  represents W2 nd2 D2 -> linked D2 -> grew nd D nd2 D2 -> w_ports W2 o = w_ports W1 o -> (o < w_nports W2)%nat -> ~ In o (n_provide nd2 ++ n_require nd2) ->
  is_ref (pt_elem (w_ports W o)) -> refers (type_names D2) (pt_elem (w_ports W o)) a -> reaches (df_types D2) 10 a ->
  exists W3 nd3, add_port W2 nd2 o = Ok (W3, nd3) /\ only_port o W2 W3 /\ (numbered W2 nd2 -> numbered W3 nd3) /\
    represents W3 nd3 (plus_port (pt_provide (w_ports W o)) D2 (mk_pdef (pt_name (w_ports W o)) a (pt_attr (w_ports W o)))).
Proof.
  intros R E FW R2 L2 G W2o OB ON IR RF RC. destruct (refused_port _ _ _ _ _ _ _ R E) as (_ & _ & e & EO & B).
  destruct (retried _ _ _ _ _ _ _ _ _ R R2 L2 G B FW RF RC) as (y & d & RS & RT & ST).
  apply (bound_is_ref _ _ _ _ B) in IR. pose proof IR as IRb. apply is_ref_bool in IRb.
  unfold add_port. rewrite W2o, EO. cbn [with_pelem with_pid pt_provide pt_elem pt_name pt_attr pt_id].
  unfold resolve_port. cbn [with_pelem with_pid pt_elem]. rewrite IRb, RS. cbn [bind with_pelem with_pid pt_provide pt_elem pt_name pt_attr pt_id].
  set (pr := pt_provide (w_ports W o)). eexists _, _. split; [reflexivity|]. split; [apply only_port_set|].
  match goal with |- context [set_port W2 o ?q] => set (p' := q) end.
  assert (port_stands (n_types nd2) (pt_elem p') a) as PS.
  { change (pt_elem p') with y. assert (is_ref y) as IY.
    { apply (stands_ref _ _ _ ST). apply (refers_ref _ _ _ RF). apply (bound_is_ref _ _ _ _ B). exact IR. }
    destruct y as [| |n r]; try contradiction. constructor. exact ST. }
  split.
  - intros NU. exact (numbered_add W2 nd2 o p' NU ON eq_refl).
  - exact (add_port_rep W2 nd2 D2 o p' a R2 OB ON PS).
Qed.

(** ** Going on after refused texts *)

Lemma wle_only_port o W W' : (w_nports W <= o)%nat -> forall W1, wle W W1 -> only_port o W1 W' -> wle W W'.
Proof.
  intros LO W1 (A & B & C & D) (A' & B' & C' & D'). split; [lia|]. split; [lia|]. split; intros x X.
  - rewrite C'. auto.
  - rewrite D' by lia. auto.
Qed.
Lemma sound_wle W W' nd D : wle W W' -> sound W nd D -> sound W' nd D.
Proof.
  intros L (R & A & (N1 & N2) & U). pose proof (rep_wle _ _ _ _ L R) as R'. destruct L as (_ & _ & T & P).
  split; [exact R'|]. split; [exact A|]. split; [split|].
  - intros i o O. rewrite P; [auto|]. apply (rp_pbelow _ _ _ R). apply in_or_app. left. eapply nth_error_In; eauto.
  - intros i o O. rewrite P; [auto|]. apply (rp_pbelow _ _ _ R). apply in_or_app. right. eapply nth_error_In; eauto.
  - intros o O. rewrite T by (apply (rp_tbelow _ _ _ R); exact O). auto.
Qed.
Lemma refused_text W nd D item W' nd' x : represents W nd D -> append_text_left W nd item = (W', nd', Err x) -> nd' = nd /\ wle W W'.
Proof.
  intros R E. unfold append_text_left in E. destruct (split_line item) as [parts|]; [|injection E as <- <- _; auto using wle_refl].
  destruct (negb (len parts =? 4)); [injection E as <- <- _; auto using wle_refl|]. cbv zeta in E.
  assert (forall pr, match decl parts with
    | Err x => (W, nd, Err x)
    | Ok (n, s, a) => match make_port pr n s a with
      | Err x => (W, nd, Err x)
      | Ok p => let '(W, o) := new_port W p in add_port_left W nd o end end = (W', nd', Err x) -> nd' = nd /\ wle W W') as X.
  { intros pr EE. destruct (decl parts) as [[[n s] a]|y]; [|injection EE as <- <- _; auto using wle_refl].
    destruct (make_port pr n s a) as [p|y]; [|injection EE as <- <- _; auto using wle_refl]. destruct (new_port W p) as [W1 o] eqn:NP.
    destruct (new_port_wle _ _ _ _ NP) as (WL & ON & _ & _). pose proof (rep_wle _ _ _ _ WL R) as R1.
    destruct (refused_port _ _ _ _ _ _ _ R1 EE) as (-> & OP & _). split; [reflexivity|]. eapply wle_only_port; [|exact WL|exact OP]. lia. }
  destruct (opt_eqb _ (Some [82])); [apply (X _ E)|]. destruct (opt_eqb _ (Some [80])); [apply (X _ E)|]. injection E as <- <- _. auto using wle_refl.
Qed.
Lemma append_ok W nd D item pr n s attr D' : sound W nd D -> ~ In 10 item ->
  line_says item (Some [Some [if pr : bool then 80 else 82]; n; Some s; attr]) -> declares_port pr D n s attr D' ->
  exists W' nd', append_text W nd item = Ok (W', nd') /\ sound W' nd' D'.
Proof.
  intros S0 N10 SY DP. apply line_says_split in SY. unfold append_text. rewrite SY. cbn [negb].
  destruct (apply_port_ok pr W nd D _ n s attr D' S0 (decl_of (Some [if pr then 80 else 82]) n s attr) DP) as (W' & nd' & E & S'). exists W', nd'. split; [|exact S'].
  destruct pr; exact E.
Qed.

(** ** A merge that is refused *)

Lemma wle_only_type o W W1 W' : (w_ntypes W <= o)%nat -> wle W W1 -> only_type o W1 W' -> wle W W'.
Proof.
  intros LO (A & B & C & D) (A' & B' & C' & D'). split; [lia|]. split; [lia|]. split; intros x X.
  - rewrite C' by lia. auto.
  - rewrite D'. auto.
Qed.
Lemma grown_refused D2 need i W nd D W1 nd1 ts d W2 o W3 : grown D2 need i W nd D W1 nd1 ts -> new_type W1 d = (W2, o) -> only_type o W2 W3 ->
  grown D2 need i W nd D W3 nd1 ts.
Proof.
  intros (IN & WL & NP & PO & PV & PR & FR) NT OT. destruct (new_type_wle _ _ _ _ NT) as (WL1 & ON & _ & _ & NP1).
  assert (forall x, w_ports W2 x = w_ports W1 x) as PO1 by (intros x; unfold new_type in NT; injection NT as <- _; reflexivity).
  assert (wle W1 W3) as WL3 by (eapply wle_only_type; [|exact WL1|exact OT]; lia). destruct OT as (_ & A & _ & B).
  split; [eapply inv_wle; eauto|]. split; [eapply wle_trans; eauto|]. split; [congruence|]. split; [intros x; rewrite B, PO1; apply PO|]. auto.
Qed.

Section LeftType.
  Variables (other : node) (D2 : ndef) (need : nat -> Prop).
  Hypothesis closed : forall i t j, need i -> nth_error (df_types D2) i = Some t -> points (td_elem t) j -> need j.

  Definition left_adds (k : nat) : Prop := forall W nd D o i t2 W' nd' x,
    inv W nd D -> src W other D2 -> nth_error (n_types other) i = Some o -> nth_error (df_types D2) i = Some t2 -> need i ->
    add_type_from_left k W nd o = (W', nd', Err x) -> exists ts, grown D2 need (S i) W nd D W' nd' ts.

  Lemma members_left k i : left_adds k -> forall es l, stands_all (n_types other) es l -> belows i l -> (forall a j, In a l -> points a j -> need j) ->
    forall W nd D W' nd' x, inv W nd D -> src W other D2 -> fold_left (left_step k) es (W, nd, Ok tt) = (W', nd', Err x) ->
    exists ts, grown D2 need i W nd D W' nd' ts.
  Proof.
    intros IH es l SA. induction SA as [|e a es l ST SA IHl]; intros B NE W nd D W' nd' x IN SR E; [discriminate E|].
    inversion B as [|? ? B1 B2]; subst. cbn [fold_left] in E.
    assert (exists W1 nd1 r, left_step k (W, nd, Ok tt) e = (W1, nd1, r) /\ exists ts, grown D2 need i W nd D W1 nd1 ts) as (W1 & nd1 & r & M & ts1 & G1).
    { cbn [left_step]. inversion ST as [n c lo hi y E1|n o j N E1|n es' l' SA' E1]; subst.
      - eexists _, _, _. split; [reflexivity|]. exists []. apply grown_refl. exact IN.
      - inversion B1 as [|n' j' J|]; subst. match goal with X : Z.of_nat _ = Z.of_nat _ |- _ => apply Nat2Z.inj in X; subst end.
        destruct SR as (R & SR'). destruct (Forall2_nth _ _ _ _ _ (rp_types _ _ _ R) N) as (u & U & _).
        destruct (add_type_from_left k W nd o) as [[W2 nd2] [o2|y]] eqn:AT.
        + pose proof (add_type_from_left_as k W nd o) as X. rewrite AT in X. destruct (add_type_from k W nd o) as [[[W3 nd3] o3]|z] eqn:AM; cbn [as_model] in X.
          * injection X as <- <- <-. destruct (add_type_from_adds other D2 need closed k W nd D o j u W2 nd2 o2 IN (conj R SR') N U (NE _ j (or_introl eq_refl) (pn_ref _ j)) AM) as (ts & G & _).
            eexists _, _, _. split; [reflexivity|]. exists ts. eapply grown_upto; [|exact G]. lia.
          * destruct X as (W3 & nd3 & X). discriminate X.
        + destruct (IH W nd D o j u W2 nd2 y IN (conj R SR') N U (NE _ j (or_introl eq_refl) (pn_ref _ j)) AT) as (ts & G).
          eexists _, _, _. split; [reflexivity|]. exists ts. eapply grown_upto; [|exact G]. lia.
      - eexists _, _, _. split; [reflexivity|]. exists []. apply grown_refl. exact IN. }
    rewrite M in E. destruct r as [[]|y].
    - destruct (IHl B2 (fun a j I => NE a j (or_intror I)) W1 nd1 (plus_types D ts1) W' nd' x) as (ts2 & G2); [apply G1|eapply src_wle; [apply G1|exact SR]|exact E|].
      exists (ts1 ++ ts2). eapply grown_trans; eauto.
    - rewrite left_step_err in E. injection E as <- <- _. eauto.
  Qed.
  Lemma add_type_from_left_adds k : left_adds k.
  Proof.
    induction k as [|k IH]; intros W nd D o i t2 W' nd' x IN SR O T NR E.
    { injection E as <- <- _. exists []. apply grown_refl. exact IN. }
    cbn [add_type_from_left] in E.
    match type of E with (let '(_, _) := ?m in _) = _ => set (M := m) in E end.
    assert (exists Wm ndm r, M = (Wm, ndm, r) /\ exists ts, grown D2 need i W nd D Wm ndm ts) as (Wm & ndm & r & EM & ts & G).
    { unfold M. pose proof SR as SR0. destruct SR as (R & L & SR'). destruct (Forall2_nth _ _ _ _ _ (rp_types _ _ _ R) O) as (t' & T' & _ & _ & ST).
      assert (t' = t2) by congruence. subst t'. pose proof (ln_below _ L i t2 T) as B. destruct (dt_elem (w_types W o)) as [| n es|].
      - eexists _, _, _. split; [reflexivity|]. exists []. apply grown_refl. exact IN.
      - inversion ST as [| |n' es' l SA EL EA]; subst. rewrite <- EA in B. inversion B; subst. fold (left_step k).
        assert (forall a j, In a l -> points a j -> need j) as NE by (intros a j IA PA; eapply closed; [exact NR|exact T|]; rewrite <- EA; eapply pn_rec; eauto).
        destruct (fold_left (left_step k) es (W, nd, Ok tt)) as [[Wm ndm] [[]|y]] eqn:FL.
        + pose proof (members_left_as k (add_type_from_left_as k) es W nd) as X. rewrite FL in X.
          destruct (fold_left (member_step k) es (Ok (W, nd))) as [[W3 nd3]|z] eqn:FM; cbn [as_model with_tt bind] in X.
          * injection X as <- <-. eexists _, _, _. split; [reflexivity|].
            eapply (members_added other D2 need closed k i (add_type_from_adds other D2 need closed k)) with (es := es) (W := W) (nd := nd); eauto.
          * destruct X as (W3 & nd3 & X). discriminate X.
        + eexists _, _, _. split; [reflexivity|]. eapply (members_left k i IH) with (es := es); eauto.
      - eexists _, _, _. split; [reflexivity|]. exists []. apply grown_refl. exact IN. }
    rewrite EM in E. exists ts. eapply grown_upto; [apply Nat.le_succ_diag_r|]. destruct r as [[]|y]; [|injection E as <- <- _; exact G].
    destruct (clone_type (w_types Wm) (w_types Wm o)) as [d|y] eqn:CL; [|injection E as <- <- _; exact G].
    destruct (new_type Wm d) as [W1 on] eqn:NT. destruct (add_type_left W1 ndm on) as [[W2 nd2] [o2|y]] eqn:AT; [discriminate E|]. injection E as <- <- _.
    destruct (new_type_wle _ _ _ _ NT) as (WL1 & _). pose proof G as ((Rm & _) & _).
    destruct (refused_type _ _ _ _ _ _ _ (rep_wle _ _ _ _ WL1 Rm) AT) as (-> & OT & _). eapply grown_refused; eauto.
  Qed.
End LeftType.

(** What is left of a port that was refused: perhaps some types. *)
Definition only_types (D2 : ndef) (need : nat -> Prop) (W : world) (nd : node) (D : ndef) (W' : world) (nd' : node) (ts : list tdef) : Prop :=
  inv W' nd' (plus_types D ts) /\ wle W W' /\ (numbered W nd -> numbered W' nd') /\
  forall t, In t ts -> exists i t2, need i /\ nth_error (df_types D2) i = Some t2 /\ same_type D2 (plus_types D ts) t2 t.
Lemma numbered_wle W W' nd D nd' : represents W nd D -> wle W W' -> n_provide nd' = n_provide nd -> n_require nd' = n_require nd ->
  numbered W nd -> numbered W' nd'.
Proof.
  intros R (_ & _ & _ & P) EP ER (N1 & N2). split; intros i o O.
  - rewrite EP in O. rewrite P; [auto|]. apply (rp_pbelow _ _ _ R). apply in_or_app. left. eapply nth_error_In; eauto.
  - rewrite ER in O. rewrite P; [auto|]. apply (rp_pbelow _ _ _ R). apply in_or_app. right. eapply nth_error_In; eauto.
Qed.
Lemma only_types_refl D2 need W nd D : inv W nd D -> only_types D2 need W nd D W nd [].
Proof. intros IN. split; [rewrite plus_types_nil; exact IN|]. split; [apply wle_refl|]. split; [auto|intros t []]. Qed.
Lemma only_types_grown D2 need i W nd D W' nd' ts : inv W nd D -> grown D2 need i W nd D W' nd' ts -> only_types D2 need W nd D W' nd' ts.
Proof.
  intros IN (IN' & WL & _ & _ & PV & PR & FR). split; [exact IN'|]. split; [exact WL|]. split; [eapply numbered_wle; eauto; apply IN|].
  rewrite Forall_forall in FR. intros t I. destruct (FR t I) as (j & u & _ & U & S1 & N). exists j, u. auto.
Qed.
Lemma refused_port_from fuel W nd D other D2 pr po p2 W' nd' x : inv W nd D -> src W other D2 ->
  In po (n_provide other ++ n_require other) -> In p2 (ports pr D2) -> port_is W (n_types other) pr po p2 ->
  add_port_from_left fuel W nd po = (W', nd', Err x) -> exists ts, only_types D2 (needs D2 (pd_elem p2)) W nd D W' nd' ts.
Proof.
  intros IN SR IPO IP2 PI E. unfold add_port_from_left in E. cbv zeta in E. pose proof (only_types_refl D2 (needs D2 (pd_elem p2)) W nd D IN) as SAME.
  destruct (check_duplicate _ _ _) as [[o|]|y]; [discriminate E| |injection E as <- <- _; eauto].
  destruct (clone_port _ _) as [p'|y]; [|injection E as <- <- _; eauto].
  match type of E with (let '(_, _) := ?m in _) = _ => set (M := m) in E end.
  assert (exists W1 nd1 r, M = (W1, nd1, r) /\ exists ts, only_types D2 (needs D2 (pd_elem p2)) W nd D W1 nd1 ts) as (W1 & nd1 & r & EM & ts & OT).
  { unfold M. destruct PI as (_ & _ & _ & PS). destruct (pt_elem (w_ports W po)) as [| |n [i|s|oo]]; try (eexists _, _, _; split; [reflexivity|eauto]; fail).
    destruct (node_find W nd _) as [[of|of]|].
    - destruct (verify_equal _ _); eexists _, _, _; split; eauto.
    - destruct (verify_equal _ _); eexists _, _, _; split; eauto.
    - inversion PS as [n' r x' ST E1 E2|x' NR E1 E2]; [|exfalso; apply NR; exact Logic.I]. subst. inversion ST as [|n' o i OO E3 E4|]; subst.
      assert (needs D2 (pd_elem p2) i) as NE2 by (eapply ne_here; symmetry; eassumption).
      pose proof SR as (R2 & _). destruct (Forall2_nth _ _ _ _ _ (rp_types _ _ _ R2) OO) as (t2 & T2 & _).
      destruct (add_type_from_left fuel W nd oo) as [[Wa nda] [oa|y]] eqn:AT.
      + pose proof (add_type_from_left_as fuel W nd oo) as X. rewrite AT in X. destruct (add_type_from fuel W nd oo) as [[[W3 nd3] o3]|z] eqn:AM; cbn [as_model] in X.
        * injection X as <- <- <-. destruct (add_type_from_adds other D2 (needs D2 (pd_elem p2)) (fun i t j => ne_next D2 (pd_elem p2) i t j) fuel W nd D oo i t2 _ _ _ IN SR OO T2 NE2 AM) as (ts & G & _).
          eexists _, _, _. split; [reflexivity|]. exists ts. rewrite ?E4. eapply only_types_grown; eauto.
        * destruct X as (W3 & nd3 & X). discriminate X.
      + destruct (add_type_from_left_adds other D2 (needs D2 (pd_elem p2)) (fun i t j => ne_next D2 (pd_elem p2) i t j) fuel W nd D oo i t2 _ _ _ IN SR OO T2 NE2 AT) as (ts & G).
        eexists _, _, _. split; [reflexivity|]. exists ts. rewrite ?E4. eapply only_types_grown; eauto. }
  rewrite EM in E. exists ts. destruct r as [q|y]; [|injection E as <- <- _; exact OT].
  destruct (new_port W1 q) as [W2 on] eqn:NP. destruct (add_port_left W2 nd1 on) as [[W3 nd3] [[]|y]] eqn:AP; [discriminate E|]. injection E as <- <- _.
  destruct OT as (IN1 & WL & NU & FR). destruct (new_port_wle _ _ _ _ NP) as (WL1 & ON & _).
  destruct (refused_port _ _ _ _ _ _ _ (rep_wle _ _ _ _ WL1 (proj1 IN1)) AP) as (-> & OP & _).
  assert (wle W1 W3) as WL3 by (eapply wle_only_port; [|exact WL1|exact OP]; lia).
  split; [eapply inv_wle; eauto|]. split; [eapply wle_trans; eauto|]. split; [|exact FR]. intros N. eapply (numbered_wle W1); eauto. apply IN1.
Qed.

Lemma joined_more D D2 done last D1 ts : joined D D2 done last D1 ->
  (forall t, In t ts -> exists i t2, needs D2 (pd_elem (snd last)) i /\ nth_error (df_types D2) i = Some t2 /\ same_type D2 (plus_types D1 ts) t2 t) ->
  joined D D2 done last (plus_types D1 ts).
Proof.
  intros [J1 (t0 & J2 & J2') (new & J3 & J3' & J3'') J4] FR. assert (ext D1 (plus_types D1 ts)) as X by (exists ts; reflexivity).
  constructor.
  - exact J1.
  - exists (t0 ++ ts). split; [cbn; rewrite J2; symmetry; apply app_assoc|]. intros t I. apply in_app_or in I as [I|I].
    + destruct (J2' t I) as (p & i & t2 & IP & NE & T2 & S1). exists p, i, t2. split; [exact IP|]. split; [exact NE|]. split; [exact T2|]. eapply ext_same_type; eauto.
    + destruct (FR t I) as (i & t2 & NE & T2 & S1). exists last, i, t2. split; [apply in_or_app; right; left; reflexivity|auto].
  - exists new. split; [intros pr; rewrite <- J3; destruct pr; reflexivity|]. split; [exact J3'|]. intros pr q Q. destruct (J3'' pr q Q) as (A & p & B & C & E).
    split; [exact A|]. exists p. split; [exact B|]. split; [eapply ext_moved_port; eauto|eapply ext_agrees; eauto].
  - intros pr p I. destruct (J4 pr p I) as (q & Q & M). exists q. split; [destruct pr; exact Q|eapply ext_moved_port; eauto].
Qed.
Lemma add_ports_left_split fuel : forall l W nd W' nd' x, add_ports_from_left fuel W nd l = (W', nd', Err x) ->
  exists l1 po l2 W1 nd1, l = l1 ++ po :: l2 /\ add_ports_from fuel W nd l1 = Ok (W1, nd1) /\ add_port_from_left fuel W1 nd1 po = (W', nd', Err x).
Proof.
  induction l as [|po l IH]; intros W nd W' nd' x E; [discriminate E|]. cbn [add_ports_from_left] in E.
  destruct (add_port_from_left fuel W nd po) as [[W1 nd1] [o|y]] eqn:AP.
  - pose proof (add_port_from_left_as fuel W nd po) as X. rewrite AP in X. destruct (add_port_from fuel W nd po) as [[[W3 nd3] o3]|z] eqn:AM; cbn [as_model] in X.
    + injection X as <- <- <-. destruct (IH _ _ _ _ _ E) as (l1 & p & l2 & Wa & nda & -> & E1 & E2). exists (po :: l1), p, l2, Wa, nda.
      split; [reflexivity|]. split; [cbn [add_ports_from]; rewrite AM; exact E1|exact E2].
    + destruct X as (W3 & nd3 & X). discriminate X.
  - injection E as <- <- <-. exists [], po, l, W, nd. auto.
Qed.
Lemma refused_merge fuel W nd D other D2 W' nd' x : inv W nd D -> src W other D2 -> extend_left fuel W nd other = (W', nd', Err x) ->
  exists done p rest D', in_turn D2 = done ++ p :: rest /\ joined D D2 done p D' /\ inv W' nd' D' /\ wle W W' /\ (numbered W nd -> numbered W' nd').
Proof.
  intros IN SR E. unfold extend_left in E. pose proof SR as (R2 & _).
  assert (Forall2 (fun o y => In o (n_provide other ++ n_require other) /\ In (snd y) (ports (fst y) D2) /\ port_is W (n_types other) (fst y) o (snd y))
                  (n_require other ++ n_provide other) (in_turn D2)) as F.
  { apply Forall2_app.
    - apply paired; [exact (rp_require _ _ _ R2)|auto|intros; apply in_or_app; auto].
    - apply paired; [exact (rp_provide _ _ _ R2)|auto|intros; apply in_or_app; auto]. }
  destruct (add_ports_left_split _ _ _ _ _ _ _ E) as (l1 & po & l2 & W1 & nd1 & EL & E1 & E2). rewrite EL in F.
  apply Forall2_app_inv_l in F as (done & m & F1 & F2 & EQ). inversion F2 as [|? [pr p2] ? rest (IPO & IP2 & PI) F3]; subst. cbn [fst snd] in *.
  destruct (add_ports_from_loop fuel other D2 l1 done W nd D W1 nd1 IN SR F1 E1) as (D1 & IN1 & WL & (L1 & L2 & L3 & L4) & NU & _ & _).
  assert (joined D D2 done (pr, p2) D1) as J.
  { constructor; try assumption. destruct L2 as (ts & TE & TS). exists ts. split; [exact TE|]. intros t I. destruct (TS t I) as (pr1 & p1 & i & t2 & IP & _ & NE & T2 & S1).
    exists (pr1, p1), i, t2. split; [apply in_or_app; left; exact IP|auto]. }
  assert (port_is W1 (n_types other) pr po p2) as PI1.
  { unfold port_is in *. destruct WL as (_ & _ & _ & WP). rewrite WP; [exact PI|]. apply (rp_pbelow _ _ _ R2). exact IPO. }
  destruct (refused_port_from fuel W1 nd1 D1 other D2 pr po p2 W' nd' x IN1 (src_wle _ _ _ _ WL SR) IPO IP2 PI1 E2) as (ts & IN' & WL' & NU' & FR).
  exists done, (pr, p2), rest, (plus_types D1 ts). split; [exact EQ|]. split; [apply joined_more; assumption|]. split; [exact IN'|].
  split; [eapply wle_trans; eauto|auto].
Qed.

Lemma append_each_ok W nd D items : Forall (fun s => ~ In 10 s) items -> sound W nd D -> exists W' nd' rs D', append_each W nd items = (W', nd', rs) /\
  length rs = length items /\ accepts D (combine items (map (fun r : res unit => match r with Ok _ => true | Err _ => false end) rs)) D' /\ sound W' nd' D'.
Proof.
  revert W nd D. induction items as [|item items IHi]; intros W nd D F S0.
  { exists W, nd, [], D. split; [reflexivity|]. split; [reflexivity|]. split; [constructor|exact S0]. }
  inversion F as [|? ? N10 F']; subst. pose proof (fun W nd D => IHi W nd D F') as IH.
  cbn [append_each]. destruct (append_text_left W nd item) as [[W1 nd1] [[]|x]] eqn:E.
  - pose proof (append_text_left_as W nd item) as X. rewrite E in X. destruct (append_text W nd item) as [[W2 nd2]|y] eqn:EM; cbn [as_model with_tt bind] in X.
    + injection X as <- <-. destruct (append_inv W nd D item _ _ N10 S0 EM) as (pr & n & s & attr & D1 & SY & DP & S1).
      destruct (IH _ _ _ S1) as (W' & nd' & rs & D' & EE & LE & AC & S'). rewrite EE. exists W', nd', (Ok tt :: rs), D'.
      split; [reflexivity|]. split; [cbn; congruence|]. split; [|exact S']. cbn [map combine]. econstructor; [|exact AC]. exists pr, n, s, attr. auto.
    + destruct X as (W2 & nd2 & X). discriminate X.
  - destruct (refused_text _ _ _ _ _ _ _ (proj1 S0) E) as (-> & WL).
    destruct (IH _ _ _ (sound_wle _ _ _ _ WL S0)) as (W' & nd' & rs & D' & EE & LE & AC & S'). rewrite EE. exists W', nd', (Err x :: rs), D'.
    split; [reflexivity|]. split; [cbn; congruence|]. split; [|exact S']. cbn [map combine]. constructor; [|exact AC].
    intros D1 (pr & n & s & attr & SY & DP). destruct (append_ok W nd D item pr n s attr D1 S0 N10 SY DP) as (W2 & nd2 & EM & _).
    pose proof (append_text_left_as W nd item) as X. rewrite E, EM in X. discriminate X.
Qed.
(** The lines that were taken, alone. *)
Lemma append_taken D l D' : accepts D l D' -> Forall (fun x => ~ In 10 (fst x)) l -> forall W nd, sound W nd D ->
  exists W' nd' rs, append_each W nd (map fst (filter snd l)) = (W', nd', rs) /\ Forall (eq (Ok tt)) rs /\ sound W' nd' D'.
Proof.
  intros AC F. induction AC as [D|D line D1 l D2 (pr & n & s & attr & SY & DP) AC IH|D line l D2 _ AC IH]; intros W nd S0; cbn [filter snd map fst].
  - exists W, nd, []. auto.
  - inversion F; subst. destruct (append_ok W nd D line pr n s attr D1 S0 ltac:(assumption) SY DP) as (W1 & nd1 & EM & S1).
    pose proof (append_text_left_as W nd line) as X. rewrite EM in X. cbn [as_model with_tt bind] in X. cbn [append_each]. rewrite X.
    destruct (IH ltac:(assumption) _ _ S1) as (W' & nd' & rs & E & R & S'). rewrite E. exists W', nd', (Ok tt :: rs). auto.
  - inversion F; subst. apply IH; assumption.
Qed.

(** ** A failing [finalize] *)

Lemma isort_perm {A} (key : A -> str) l : Permutation l (isort key l).
Proof. apply isort_spec. Qed.
Lemma sorted_by_perm name l l' : sorted_by name l = Ok l' -> Permutation l l'.
Proof. intros E. apply sorted_by_ok in E. subst. apply isort_perm. Qed.
Lemma sorted_by_err name l x : sorted_by name l = Err x -> x = TypeError /\ exists o, In o l /\ name o = None.
Proof.
  intros E. unfold sorted_by in E. destruct (2 <=? len l); [|discriminate E]. destruct (existsb _ l) eqn:X; [|discriminate E]. split; [injection E; auto|].
  apply existsb_exists in X as (o & O & N). exists o. split; [exact O|]. destruct (name o); [discriminate N|reflexivity].
Qed.
Definition reordered (nd nd' : node) : Prop :=
  n_name nd' = n_name nd /\ n_final nd' = n_final nd /\ n_map nd' = n_map nd /\
  Permutation (n_types nd) (n_types nd') /\ Permutation (n_require nd) (n_require nd') /\ Permutation (n_provide nd) (n_provide nd').
Lemma sort_left_reordered W nd b : reordered nd (fst (sort_left W nd b)).
Proof.
  unfold sort_left. destruct (sorted_by _ (n_types nd)) as [ts|x] eqn:ET; [|repeat split; reflexivity]. apply sorted_by_perm in ET.
  destruct b; [|repeat split; auto]. cbn [n_require n_provide n_name n_final n_map].
  destruct (sorted_by _ (n_require nd)) as [rs|x] eqn:ER; [|repeat split; auto]. apply sorted_by_perm in ER.
  destruct (sorted_by _ (n_provide nd)) as [ps|x] eqn:EP; [|repeat split; auto]. apply sorted_by_perm in EP. repeat split; auto.
Qed.
Lemma sort_left_err W nd b nd' x : sort_left W nd b = (nd', Some x) -> x = TypeError /\
  ((exists o, In o (n_types nd) /\ dt_name (w_types W o) = None) \/ (b = true /\ exists o, In o (n_provide nd ++ n_require nd) /\ pt_name (w_ports W o) = None)).
Proof.
  intros E. unfold sort_left in E. destruct (sorted_by _ (n_types nd)) as [ts|y] eqn:ET.
  - destruct b; [|discriminate E]. cbn [n_require n_provide n_name n_final n_map] in E. destruct (sorted_by _ (n_require nd)) as [rs|y] eqn:ER.
    + destruct (sorted_by _ (n_provide nd)) as [ps|y] eqn:EP; [discriminate E|]. injection E as _ <-. apply sorted_by_err in EP as (-> & o & O & N).
      split; [reflexivity|]. right. split; [reflexivity|]. exists o. split; [apply in_or_app; auto|exact N].
    + injection E as _ <-. apply sorted_by_err in ER as (-> & o & O & N). split; [reflexivity|]. right. split; [reflexivity|]. exists o. split; [apply in_or_app; auto|exact N].
  - injection E as _ <-. apply sorted_by_err in ET as (-> & o & O & N). split; [reflexivity|]. left. eauto.
Qed.
Lemma refused_finalize sort compact W nd D W' nd' x : represents W nd D -> linked D -> finalize_left sort compact W nd = (W', nd', Err x) ->
  x = TypeError /\ W' = W /\ n_final nd = false /\ reordered nd nd' /\
  ((exists o, In o (n_types nd) /\ dt_name (w_types W o) = None) \/ (sort = true /\ exists o, In o (n_provide nd ++ n_require nd) /\ pt_name (w_ports W o) = None)).
Proof.
  intros R L E. unfold finalize_left in E. destruct (n_final nd) eqn:NF; [discriminate E|].
  pose proof (sort_left_reordered W nd sort) as RO. destruct (sort_left W nd sort) as [nd1 [y|]] eqn:SE; cbn [fst] in RO.
  - injection E as <- <- <-. destruct (sort_left_err _ _ _ _ _ SE) as (-> & C). auto.
  - exfalso. pose proof (sort_left_as W nd sort) as X. rewrite SE in X. destruct RO as (_ & _ & _ & _ & PR & PP).
    destruct (resolve_ports_same (n_types nd1) (n_require nd1 ++ n_provide nd1) W) as (W1 & RE & _).
    { intros o O. apply (rep_resolved W nd D o R L). eapply Permutation_in; [|exact O]. symmetry. apply Permutation_app; assumption. }
    pose proof (resolve_ports_left_as (n_types nd1) (n_require nd1 ++ n_provide nd1) W) as Y. rewrite RE in Y. rewrite Y in E. discriminate E.
Qed.
Lemma map_res_perm {A B} (f : A -> res B) l l' : Permutation l l' -> forall m, map_res f l = Ok m -> exists m', map_res f l' = Ok m' /\ Permutation m m'.
Proof.
  induction 1 as [|x l l' P IH|x y l|l1 l2 l3 _ IH1 _ IH2]; intros m E.
  - injection E as <-. exists []. split; reflexivity.
  - cbn [map_res] in *. inv_bind E. inv_bind E. injection E as <-. rewrite Ha. cbn [bind]. destruct (IH _ Ha0) as (m' & -> & PM). cbn [bind]. eauto.
  - cbn [map_res] in *. inv_bind E. inv_bind E. inv_bind Ha0. injection E as <-. rename a0 into t. inv_bind Ha0. injection Ha0 as <-.
    rewrite Ha1. cbn [bind]. rewrite Ha. cbn [bind]. rewrite Ha2. cbn [bind]. eexists. split; [reflexivity|]. constructor.
  - destruct (IH1 _ E) as (m2 & E2 & P2). destruct (IH2 _ E2) as (m3 & E3 & P3). exists m3. split; [exact E3|]. etransitivity; eauto.
Qed.
Lemma reordered_lines normalized W nd nd' h l : reordered nd nd' -> lines normalized W nd = Ok (h :: l) ->
  exists l', lines normalized W nd' = Ok (h :: l') /\ Permutation l l'.
Proof.
  intros (EN & _ & _ & PT & PR & PP) E. unfold lines in *. cbv zeta in *. inv_bind E. inv_bind E. inv_bind E. injection E as <- <-.
  destruct (map_res_perm _ _ _ PT _ Ha) as (t' & -> & QT). destruct (map_res_perm _ _ _ PP _ Ha0) as (p' & -> & QP). destruct (map_res_perm _ _ _ PR _ Ha1) as (r' & -> & QR).
  cbn [bind]. rewrite EN. eexists. split; [reflexivity|]. repeat apply Permutation_app; assumption.
Qed.
