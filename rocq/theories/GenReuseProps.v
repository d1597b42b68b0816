(** A generator object that is used again.  C82. *)
From Coq Require Import ZifyBool ZifyNat Lia Permutation.
From Verif Require Import Py PyLemmas TypesModel CompilerModel VmModel TypesSpec TypesProofs
  TextModel TextProofs SigModel AttrModel NodeModel RmfModel FileModel NodeDataModel NodeDataProofs ParserModel
  GenModel GenSpec GenProofs3 GenProofs4 GenProofs5 GenTexts GenProps GenFilesModel GenFilesSpec GenFilesProofs GenFilesProps
  GenReuseSpec GenReuseProofs.
Ltac Zify.zify_post_hook ::= Z.div_mod_to_equations.

Lemma by_name_perm l : Permutation (by_name l) l.
Proof. unfold by_name. eapply Permutation_trans; [apply sorted_perm|]. apply Permutation_sym, Permutation_rev. Qed.
Lemma write_state version s sfx W nd nm hc direct synced ins outs st' L :
  write_source version s sfx W nd nm hc direct synced ins outs = (st', Ok L) ->
  g_vars st' = g_vars s /\ g_funs st' = g_funs s /\ (g_pending s = [] -> g_pending st' = []).
Proof.
  unfold write_source. intros E. match type of E with match ?t with _ => _ end = _ => destruct t as [c|e] end; [|discriminate].
  apply pair_ok in E as [<- _]. cbn [g_vars g_funs g_pending]. split; [reflexivity|]. split; [reflexivity|]. intros ->. destruct (g_notify s), hc; reflexivity.
Qed.
Lemma vars_perm st cbs : Permutation (map member_line (all_vars st cbs)) (map member_line (g_vars st) ++ map member_line (all_vars new_gen cbs)).
Proof.
  unfold all_vars. rewrite <- map_app. apply Permutation_map. eapply Permutation_trans; [apply by_name_perm|].
  destruct cbs as [l|]; cbn [grown g_vars new_gen]; [apply Permutation_app_head, Permutation_sym, by_name_perm|rewrite app_nil_r; apply Permutation_refl].
Qed.

Lemma worked_inv st old decls : worked st old decls ->
  g_pending st = [] /\ Permutation old (map member_line (g_vars st)) /\ decls = map proto_text (g_funs st).
Proof.
  induction 1 as [|st old decls version fuel sfx W nd name includes direct synced st' x U (P & M & D) E
                  |st old decls version fuel sfx W nd name includes m direct synced st' W' nd' f cbk U (P & M & D) E HI C].
  - auto.
  - destruct x as [[W' nd'] f]. apply files_ok in E as (nm & W1 & W2 & ins & outs & cbs & fs & En & Ef & Ei & Ec & Eo & Ea & Ew & Es).
    cbn in Ec. injection Ec as <-. cbn [grown] in Ea. rewrite P in Ea. cbn in Ea. injection Ea as <-.
    apply write_state in Ew as (V & F & Q). cbn [ready grown g_vars g_funs g_pending] in *. rewrite V, F, app_nil_r. auto.
  - apply files_ok in E as (nm & W1 & W2 & ins & outs & cbs & fs & En & Ef & Ei & Ec & Eo & Ea & Ew & Es).
    destruct (gen_files_signals _ _ _ _ _ _ _ _ _ _ Ei Eo) as (SW & Gi & Go). apply (input_iff _ _ _ _ _ Gi) in HI.
    apply (write_used _ _ _ _ _ _ _ _ _ _ _ _ _ _ _ P (made_fits _ _ _ Ec) HI) in Ew as ((V & F & Q) & X & _).
    split; [exact Q|]. split.
    + rewrite (X m eq_refl), V. apply Permutation_map, by_name_perm.
    + rewrite Es in C. cbn [f_cbk given] in C. injection C as <-. rewrite declared_cbk, F. reflexivity.
Qed.

(** A generator that has worked so far succeeds exactly if a new one does. *)
Theorem reuse_succeeds version fuel st old decls sfx W nd name includes callbacks direct synced W' nd' :
  worked st old decls -> has_input fuel W' nd' ->
  (exists st' f, generate_files version fuel st sfx W nd name includes callbacks direct synced = (st', Ok (W', nd', f))) <->
  (exists st' g, generate_files version fuel new_gen sfx W nd name includes callbacks direct synced = (st', Ok (W', nd', g))).
Proof.
  intros U HI. apply worked_inv in U as (P & _ & _).
  assert (forall s1 s2 s' f, g_pending s1 = [] -> g_pending s2 = [] ->
    generate_files version fuel s1 sfx W nd name includes callbacks direct synced = (s', Ok (W', nd', f)) ->
    exists s'' g, generate_files version fuel s2 sfx W nd name includes callbacks direct synced = (s'', Ok (W', nd', g))) as X.
  { intros s1 s2 s' f P1 P2 E. apply files_ok in E as (nm & W1 & W2 & ins & outs & cbs & fs & En & Ef & Ei & Ec & Eo & Ea & Ew & Es).
    destruct (gen_files_signals _ _ _ _ _ _ _ _ _ _ Ei Eo) as (SW & Gi & Go). apply (input_iff _ _ _ _ _ Gi) in HI.
    apply (write_used _ _ _ _ _ _ _ _ _ _ _ _ _ _ _ P1 (made_fits _ _ _ Ec) HI) in Ew as (_ & _ & X).
    destruct (X s2 fs P2) as (s'' & L & Ew & _). exists s''. eexists (mk_cfiles _ _ L). apply files_ok.
    exists nm, W1, W2, ins, outs, cbs, fs. do 5 (split; [eassumption|]).
    split; [|split; [exact Ew|reflexivity]]. rewrite <- Ea. destruct cbs as [l|]; cbn [grown g_pending]; rewrite P1, P2; reflexivity. }
  split; intros (s' & f & E); eapply X; try exact E; try exact P; reflexivity.
Qed.
Print Assumptions reuse_succeeds.

(** The files then differ from those of a new one in two places: the union of the
    notification function has the members of the earlier one as well, and the header of
    the callbacks declares the earlier ones first. *)
Theorem reuse_files version fuel st old decls sfx W nd name includes callbacks direct synced st' W' nd' f s W2 n2 g :
  worked st old decls -> has_input fuel W' nd' ->
  generate_files version fuel st sfx W nd name includes callbacks direct synced = (st', Ok (W', nd', f)) ->
  generate_files version fuel new_gen sfx W nd name includes callbacks direct synced = (s, Ok (W2, n2, g)) ->
  f_header f = f_header g /\ outside (f_source f) = outside (f_source g) /\
  (callbacks = None -> f = g) /\
  (callbacks <> None -> Permutation (members (f_source f)) (old ++ members (f_source g)) /\
    exists cf cg, f_cbk f = Some cf /\ f_cbk g = Some cg /\ declared cf = decls ++ declared cg).
Proof.
  intros U HI E E2. apply worked_inv in U as (P & M & D).
  split; [exact (header_history _ _ _ _ _ _ _ _ _ _ _ _ _ _ _ _ _ _ _ _ E E2)|].
  apply files_ok in E as (nm & Wa & Wb & ins & outs & cbs & fs & En & Ef & Ei & Ec & Eo & Ea & Ew & Es).
  apply files_ok in E2 as (nm' & Wa' & Wb' & ins' & outs' & cbs' & fs' & En' & Ef' & Ei' & Ec' & Eo' & Ea' & Ew' & Es').
  assert (nm' = nm) as -> by congruence. rewrite Ef in Ef'. injection Ef' as <- <-. rewrite Ei in Ei'. injection Ei' as <- <-.
  rewrite Ec in Ec'. injection Ec' as <-. rewrite Eo in Eo'. injection Eo' as <- <-.
  assert (fs' = fs) as ->.
  { assert ((fs', @None exn) = (fs, None)) as Q; [rewrite <- Ea, <- Ea'; destruct cbs as [l|]; cbn [grown g_pending new_gen]; rewrite P; reflexivity|congruence]. }
  destruct (gen_files_signals _ _ _ _ _ _ _ _ _ _ Ei Eo) as (SW & Gi & Go). apply (input_iff _ _ _ _ _ Gi) in HI.
  apply (write_used _ _ _ _ _ _ _ _ _ _ _ _ _ _ _ P (made_fits _ _ _ Ec) HI) in Ew as (_ & X & Y).
  destruct (Y new_gen fs eq_refl) as (s2 & L & Z & O & N). rewrite Z in Ew'. apply pair_ok in Ew' as [-> ->].
  apply (write_used version new_gen _ _ _ _ _ _ _ _ _ _ _ _ _ eq_refl (made_fits _ _ _ Ec) HI) in Z as (_ & X' & _).
  split; [exact O|]. split.
  - intros ->. rewrite Es, Es'. cbn [given]. rewrite (N eq_refl). reflexivity.
  - intros C. destruct callbacks as [m|]; [|congruence]. rewrite (X m eq_refl), (X' m eq_refl). split.
    + eapply Permutation_trans; [apply vars_perm|]. apply Permutation_app_tail, Permutation_sym, M.
    + rewrite Es, Es'. cbn [f_cbk given]. eexists. eexists. split; [reflexivity|]. split; [reflexivity|]. rewrite !declared_cbk, D, map_app. reflexivity.
Qed.
Print Assumptions reuse_files.

(** ** Example *)

Definition three_ports : str := lit "APX/1.2
N""P""
R""A""S:=0
R""C""C[4]:={0,0,0,0}
P""X""C:=0
".
Definition first_c : option (list (str * option str)) := Some [(lit "C", Some (lit "c_func"))].
Lemma worked_plain_of st old decls text name : worked st old decls -> (match snd (files_of st text name None) with Ok _ => True | Err _ => False end) ->
  worked (fst (files_of st text name None)) old decls.
Proof.
  unfold files_of. intros U O. destruct (loads empty_world text) as [[W nd]|e]; [|destruct O].
  match goal with |- worked (fst ?t) _ _ => destruct t as [st' [x|e]] eqn:E end; [|destruct O]. exact (worked_plain _ _ _ _ _ _ _ _ _ _ _ _ _ _ U E).
Qed.
Definition declared_of (x : gstate * res (world * node * cfiles)) : list str :=
  match snd x with Ok (_, _, f) => match f_cbk f with Some l => declared l | None => [] end | Err _ => [] end.
Lemma worked_callbacks_of st old decls text name m : worked st old decls ->
  (match snd (files_of st text name (Some m)) with Ok (W', nd', _) => has_input 100 W' nd' | Err _ => False end) ->
  worked (fst (files_of st text name (Some m))) (members (source_of (files_of st text name (Some m)))) (declared_of (files_of st text name (Some m))).
Proof.
  unfold files_of, source_of, declared_of. intros U O. destruct (loads empty_world text) as [[W nd]|e]; [|destruct O].
  match goal with |- worked (fst ?t) _ _ => destruct t as [st' [[[W' nd'] f]|e]] eqn:E end; [|destruct O].
  assert (exists cbk, f_cbk f = Some cbk) as (cbk & C).
  { pose proof E as Q. apply files_ok in Q as (nm & W1 & W2 & ins & outs & cbs & fs & En & Ef & Ei & Ec & Eo & Ea & Ew & Es). rewrite Es. cbn [f_cbk given]. eauto. }
  cbn [fst snd]. rewrite C. eapply worked_callbacks; eassumption.
Qed.

(** Used for a node with a callback for A, then for one without callbacks, then for one
    with a callback for C. *)
Example ex_reuse_files :
  let one := files_of new_gen two_ports None first_a in
  let two := files_of (fst one) three_ports (Some (lit "Q")) None in
  let three := files_of (fst two) three_ports None first_c in
  let fresh := files_of new_gen three_ports None first_c in
  worked (fst two) [lit "      uint8 A;"] [lit "void a_func(uint8 value)"] /\
  members (source_of fresh) = [lit "      uint8 C[4];"] /\
  members (source_of three) = [lit "      uint8 A;"; lit "      uint8 C[4];"] /\
  declared_of three = [lit "void a_func(uint8 value)"; lit "void c_func(uint8 *value)"] /\
  outside (source_of three) = outside (source_of fresh) /\ length (outside (source_of three)) = 141%nat /\
  has_line (source_of three) "      case APX_RX_OFFSET_C:" = true /\ has_line (source_of three) "      case APX_RX_OFFSET_B:" = false.
Proof.
  cbv zeta. split.
  - apply worked_plain_of; [|vm_compute; exact Logic.I].
    refine (worked_callbacks_of new_gen [] [] two_ports None _ worked_new _). vm_compute. left. exists 1. split; reflexivity.
  - vm_compute. repeat split.
Qed.
