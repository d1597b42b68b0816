(** Lemmas about the C generator: the functions of a file. *)
From Coq Require Import ZifyBool ZifyNat Lia Permutation.
From Verif Require Import Py PyLemmas TypesModel CompilerModel VmModel TypesSpec TypesProofs
  VmProofs VmPackProofs VmUnpackProofs TextModel SigModel AttrModel NodeModel RmfModel FileModel NodeDataModel NodeDataSpec NodeDataProofs
  NodeInitProofs VmProps NodeDataProps GenModel GenSpec GenProofs GenProofs2 GenProofs3.
Ltac Zify.zify_post_hook ::= Z.div_mod_to_equations.

Definition made_callbacks (callbacks : option (list (str * option str))) (ins : list siginfo) : res (option (list callback)) :=
  match callbacks with
  | None => Ok None
  | Some m => do l <- create_callbacks m ins; Ok (Some l)
  end.

Record generated (fuel : nat) (sfx : str) (W' : world) (nd' : node) (nm : str) (callbacks : option (list (str * option str)))
    (direct : list str) (c : cfile) (ins outs : list siginfo) (text : str) (cbs : option (list callback)) : Prop := mk_generated {
  gd_ins : signals fuel Unpack nm W' 0 (n_require nd') ins;
  gd_outs : signals fuel Pack nm W' 0 (n_provide nd') outs;
  gd_text : context_dumps false W' [nd'] = Ok text;
  gd_ininit : init_table ins = Ok (c_ininit c);
  gd_outinit : init_table outs = Ok (c_outinit c);
  gd_reads : gen_funcs (w_types W') sfx Unpack direct ins ins = Ok (c_reads c);
  gd_writes : gen_funcs (w_types W') sfx Pack direct outs outs = Ok (c_writes c);
  gd_cbs : made_callbacks callbacks ins = Ok cbs;
  gd_notifier : gen_notifier (w_types W') (sum_lens ins) cbs = Ok (c_notifier c);
  gd_name : c_name c = nm;
  gd_deflen : c_deflen c = len text + 1;
  gd_inlen : c_inlen c = sum_lens ins;
  gd_outlen : c_outlen c = sum_lens outs;
  gd_literal : c_literal c = map literal_line (split_on NEWLINE text);
  gd_lens : c_lens c = map (fun x => (cb_len_define x, si_len (cb_sig x))) (by_len (match cbs with Some l => l | None => [] end));
  gd_offsets : c_offsets c = map (fun x => (cb_offset_define x, si_offset (cb_sig x))) (match cbs with Some l => l | None => [] end)
}.

Lemma generate_inv fuel sfx W nd name callbacks direct synced W' nd' c :
  generate fuel sfx W nd name callbacks direct synced = Ok (W', nd', c) ->
  exists W1 nm ins outs text cbs, finalize true false W nd = Ok (W1, nd') /\ same_world W1 W' /\
    (match name with Some s => Some s | None => n_name nd end) = Some nm /\
    generated fuel sfx W' nd' nm callbacks direct c ins outs text cbs.
Proof.
  unfold generate. intros E.
  apply bind_ok in E as (nm & En & E). apply bind_ok in E as ([W1 nd1] & Ef & E).
  apply bind_ok in E as ([W2 ins] & Ei & E). apply bind_ok in E as (cbs & Ec & E).
  apply bind_ok in E as ([W3 outs] & Eo & E). apply bind_ok in E as (text & Et & E).
  apply bind_ok in E as (oi & Eoi & E). apply bind_ok in E as (ii & Eii & E).
  apply bind_ok in E as (reads & Er & E). apply bind_ok in E as (writes & Ew & E).
  apply bind_ok in E as (nt & Ent & E). injection E as <- <- <-.
  apply gen_signals_inv in Ei as [S1 G1]. apply gen_signals_inv in Eo as [S2 G2].
  exists W1, nm, ins, outs, text, cbs. split; [exact Ef|]. split; [exact (same_world_trans _ _ _ S1 S2)|].
  split; [destruct name, (n_name nd); try discriminate; congruence|].
  constructor; cbn [c_ininit c_outinit c_reads c_writes c_notifier c_name c_deflen c_inlen c_outlen c_literal c_lens c_offsets]; auto.
  - exact (signals_same _ _ _ _ _ (same_world_trans _ _ _ S1 S2) _ _ _ G1).
  - exact (signals_same _ _ _ _ _ S2 _ _ _ G2).
Qed.

(** ** Signals and types *)

Lemma resolve_not_ref H : forall count e d, resolve_loop count H e = Ok d -> is_reference d = false.
Proof.
  induction count as [|count IH]; intros e d R; cbn [resolve_loop] in R.
  - destruct (is_reference e) eqn:Q; [discriminate|]. congruence.
  - destruct e as [nm c lo hi a|nm es|nm [i|s|o]]; try discriminate; try (injection R as <-; reflexivity). exact (IH _ _ R).
Qed.
Lemma resolve_chain_denotes H d t : forall count e, resolve_loop count H e = Ok d -> (exists n, denotes H n d t) -> exists n, denotes H n e t.
Proof.
  induction count as [|count IH]; intros e R D; cbn [resolve_loop] in R.
  - destruct (is_reference e); [discriminate|]. injection R as ->. exact D.
  - destruct e as [nm c lo hi a|nm es|nm [i|s|o]]; try discriminate; try (injection R as <-; exact D).
    destruct (IH _ R D) as [n X]. exists (S n). constructor. exact X.
Qed.
Lemma port_cable_means W o t : port_cable W o t -> means (w_types W) (pt_elem (w_ports W o)) t.
Proof.
  intros (d & R & C). apply (resolve_chain_denotes _ _ _ _ _ R). exact (proj1 (cable_denotes _) _ _ C).
Qed.

Lemma signals_nth fuel op name W : forall ports off sigs i o, signals fuel op name W off ports sigs -> nth_error ports i = Some o ->
  exists s, nth_error sigs i = Some s /\ signal fuel op name W (off + sum_lens (firstn i sigs)) o s.
Proof.
  induction ports as [|p r IH]; intros off [|s l] i o G N; cbn [signals] in *; try contradiction; [destruct i; discriminate|].
  destruct G as [G1 G2]. destruct i as [|i]; cbn [nth_error firstn sum_lens] in *.
  - injection N as <-. exists s. rewrite Z.add_0_r. auto.
  - destruct (IH _ _ _ _ G2 N) as (s' & N' & X). exists s'. split; [exact N'|]. rewrite Z.add_assoc. exact X.
Qed.
Lemma signals_lens fuel op name W : forall ports ts off sigs, signals fuel op name W off ports sigs ->
  Forall2 (port_cable W) ports ts -> map si_len sigs = map tlen ts.
Proof.
  induction ports as [|p r IH]; intros ts off [|s l] G F; cbn [signals] in *; try contradiction; inversion F; subst; [reflexivity|].
  destruct G as [G1 G2]. cbn [map]. f_equal; [|exact (IH _ _ _ G2 H3)].
  apply port_cable_means in H1. exact (means_packLen _ _ _ _ _ H1 (sg_len _ _ _ _ _ _ _ G1)).
Qed.
Lemma sum_lens_total sigs ts : map si_len sigs = map tlen ts -> sum_lens sigs = total ts.
Proof.
  revert ts. induction sigs as [|s l IH]; intros [|t ts] E; try discriminate; [reflexivity|]. cbn [map] in E. injection E as E1 E2.
  cbn [sum_lens]. rewrite E1, (IH _ E2). reflexivity.
Qed.
Lemma sum_lens_firstn sigs ts i : map si_len sigs = map tlen ts -> sum_lens (firstn i sigs) = port_start ts i.
Proof. intros E. apply sum_lens_total. rewrite <- !firstn_map, E. reflexivity. Qed.

Lemma gen_funcs_nth H sfx op direct l : NoDup (map si_name l) -> forall sigs fs i s, (forall x, In x sigs -> In x l) ->
  gen_funcs H sfx op direct l sigs = Ok fs -> nth_error sigs i = Some s ->
  exists body n, nth_error fs i = Some (mk_cfun (si_func s) (si_type s) (si_pointer s) body) /\
    gen_func (0 <? sum_lens l) H sfx op (si_pointer s) (si_target s) (si_offset s)
      (match op, si_name s with Pack, Some nm => existsb (str_eqb nm) direct | _, _ => false end) = Ok (body, n).
Proof.
  intros ND. induction sigs as [|x sigs IH]; intros fs i s I E N; [destruct i; discriminate|]. cbn [gen_funcs] in E.
  rewrite (sig_of_here l x ND (I x (or_introl eq_refl))) in E. cbn [bind] in E.
  apply bind_ok in E as ([body n] & E1 & E). apply bind_ok in E as (fs' & E2 & E). injection E as <-.
  destruct i as [|i]; cbn [nth_error] in *.
  - injection N as <-. exists body, n. auto.
  - exact (IH _ _ _ (fun y J => I y (or_intror J)) E2 N).
Qed.
Lemma gen_funcs_all H sfx op direct l : NoDup (map si_name l) -> forall sigs fs, (forall x, In x sigs -> In x l) ->
  gen_funcs H sfx op direct l sigs = Ok fs -> map cf_name fs = map si_func sigs.
Proof.
  intros ND. induction sigs as [|x sigs IH]; intros fs I E; cbn [gen_funcs] in E; [injection E as <-; reflexivity|].
  rewrite (sig_of_here l x ND (I x (or_introl eq_refl))) in E. cbn [bind] in E.
  apply bind_ok in E as ([body n] & E1 & E). apply bind_ok in E as (fs' & E2 & E). injection E as <-.
  cbn [map cf_name]. f_equal. exact (IH _ (fun y J => I y (or_intror J)) E2).
Qed.

Lemma gen_func_no_buf H sfx op ptr d t off direct r : cable H d t -> gen_func false H sfx op ptr d off direct = Ok r -> False.
Proof.
  intros C E. unfold gen_func in E.
  assert (NUM : forall k nm c lo hi, resolve_data_element H d = Ok (DPrim nm c lo hi None) -> kind_of c = Some k -> small k -> False).
  { intros k nm c lo hi R K S. rewrite (gen_item_num _ _ _ _ _ _ _ _ _ _ _ _ _ R) in E. unfold gen_integer in E. rewrite R in E.
    cbn [bind] in E. rewrite (base_of_kind _ _ _ _ _ _ K S) in E. discriminate E. }
  destruct C as [nm c lo hi k K S|nm c lo hi k n K S N|nm lo hi n N|nm es ms ND CS|nm r' nm' c lo hi k R K S].
  - exact (NUM k nm c lo hi eq_refl K S).
  - rewrite (gen_item_arr _ _ _ _ _ _ _ _ _ _ _ _ _ _ K S) in E. discriminate E.
  - discriminate E.
  - rewrite gen_item_rec in E.
    destruct (proj2 (gen_item_works false H sfx op) _ _ CS (Some ptr) EVal (mk_lvars true None) off eq_refl) as (code & lv' & G & P' & _ & _).
    cbn [lv_loop] in E. rewrite G in E. cbn [bind] in E. rewrite P' in E. discriminate E.
  - exact (NUM k nm' c lo hi R K S).
Qed.

Lemma pointer_by_ref H e d t p : resolve_data_element H e = Ok d -> cable H d t -> isComplexType H e = Ok p -> p = by_ref t.
Proof.
  intros R C E. unfold isComplexType in E. rewrite R in E. cbn [bind] in E. injection E as <-.
  apply resolve_not_ref in R. destruct C; reflexivity.
Qed.

(** ** Port data *)

Lemma total_app a b : total (a ++ b) = total a + total b.
Proof. induction a as [|t a IH]; [reflexivity|]. cbn [app total]. unfold total in *. cbn [fold_right]. lia. Qed.
Lemma port_start_le ts i t : Forall (fun t => 0 <= tlen t) ts -> nth_error ts i = Some t ->
  0 <= port_start ts i /\ port_start ts i + tlen t <= total ts.
Proof.
  intros F N. unfold port_start.
  assert (P : forall l, Forall (fun t => 0 <= tlen t) l -> 0 <= total l).
  { induction 1 as [|x l X L IH]; [unfold total; cbn; lia|]. change (total (x :: l)) with (tlen x + total l). lia. }
  apply nth_error_split in N as (a & b & -> & <-).
  rewrite firstn_app, firstn_all, Nat.sub_diag. cbn [firstn]. rewrite app_nil_r.
  rewrite total_app. change (total (t :: b)) with (tlen t + total b).
  apply Forall_app in F as [F1 F2]. inversion F2; subst. pose proof (P _ F1). pose proof (P _ H2). lia.
Qed.
Lemma port_start_lt ts : Forall (fun t => 0 <= tlen t) ts -> forall i j t, (i < j)%nat -> nth_error ts i = Some t ->
  port_start ts i + tlen t <= port_start ts j.
Proof.
  intros F i j t L N. unfold port_start.
  assert (N' : nth_error (firstn j ts) i = Some t) by (rewrite nth_error_firstn, (proj2 (Nat.ltb_lt i j) L); exact N).
  assert (F' : Forall (fun t => 0 <= tlen t) (firstn j ts)).
  { rewrite <- (firstn_skipn j ts) in F. apply Forall_app in F as [F _]. exact F. }
  pose proof (port_start_le (firstn j ts) i t F' N') as [_ X]. unfold port_start in X.
  rewrite firstn_firstn in X. replace (Nat.min i j) with i in X by lia. exact X.
Qed.

Lemma cut_over_same b a d : 0 <= a -> a + len d <= len b -> cut (over b a d) a (len d) = d.
Proof.
  intros A L. unfold cut, over.
  assert (F : length (firstn (Z.to_nat a) b) = Z.to_nat a) by (rewrite firstn_length; unfold len in *; lia).
  rewrite skipn_app, skipn_all2, F, Nat.sub_diag by lia. cbn [skipn app].
  rewrite to_nat_len, firstn_app, firstn_all, Nat.sub_diag. cbn [firstn]. apply app_nil_r.
Qed.
Lemma cut_over_other b a d x n : 0 <= a -> a + len d <= len b -> 0 <= x -> 0 <= n -> x + n <= a \/ a + len d <= x ->
  cut (over b a d) x n = cut b x n.
Proof.
  intros A L X N O. unfold cut. apply nth_error_ext. intros i.
  destruct (Nat.ltb i (Z.to_nat n)) eqn:I.
  2: { apply Nat.ltb_ge in I. rewrite !(proj2 (nth_error_None _ _)); [reflexivity| |]; rewrite firstn_length; lia. }
  apply Nat.ltb_lt in I.
  rewrite !nth_error_firstn, (proj2 (Nat.ltb_lt _ _) I), !nth_error_skipn. unfold over. pose proof (len_nonneg d).
  assert (F : length (firstn (Z.to_nat a) b) = Z.to_nat a) by (rewrite firstn_length; unfold len in *; lia).
  destruct O as [O|O].
  - rewrite nth_error_app1 by (rewrite F; lia). rewrite nth_error_firstn, (proj2 (Nat.ltb_lt _ _)) by lia. reflexivity.
  - rewrite nth_error_app2 by (rewrite F; unfold len in *; lia). rewrite F, nth_error_app2 by (unfold len in *; lia).
    rewrite nth_error_skipn. f_equal. unfold len in *. lia.
Qed.

(** ** The node data of the same node *)

Lemma create_side_agrees fuel op name d nd ports W sigs W' s fo : signals fuel op name W 0 ports sigs ->
  create_side fuel d W nd ports = Ok (W', s, fo) ->
  same_world W W' /\ s_init s = concat (map si_init sigs) /\
  s_map s = map (fun x => mk_portmap (si_offset (fst x)) (si_len (fst x)) (snd x)) (combine sigs ports).
Proof.
  intros G E. destruct ports as [|o r].
  - destruct sigs; [|contradiction G]. injection E as <- <- <-. split; [apply same_world_refl|]. auto.
  - unfold create_side in E. apply bind_ok in E as ([W1 s1] & A & E).
    destruct (add_all_agrees _ _ _ _ _ _ _ _ _ empty_side _ _ G eq_refl A) as (S & _ & B & C).
    destruct (negb _); [discriminate|]. destruct (0 <? s_offset s1).
    + destruct (n_name nd); [|discriminate]. apply bind_ok in E as (f & _ & E). injection E as <- <- <-. auto.
    + injection E as <- <- <-. auto.
Qed.

Lemma side_content fuel d W W' ports s F fo nm : side_built fuel d W W' ports s F fo nm -> content F fo = s_init s.
Proof.
  intros (maps & progs & inits & _ & -> & L & K). cbn [s_init]. destruct fo as [k|]; cbn [content].
  - destruct K as (_ & (_ & X & _) & _). exact X.
  - rewrite K in L. destruct (concat inits) as [|x y]; [reflexivity|]. rewrite len_cons in L. pose proof (len_nonneg y). lia.
Qed.

Lemma node_data_agrees fuel name W nd F k W' F' k' D ins outs :
  separate nd -> node_data fuel W nd F k = Ok (W', F', k', D) ->
  signals fuel Unpack name W 0 (n_require nd) ins -> signals fuel Pack name W 0 (n_provide nd) outs ->
  in_data F' D = concat (map si_init ins) /\ out_data F' D = concat (map si_init outs) /\
  s_map (d_inside D) = map (fun x => mk_portmap (si_offset (fst x)) (si_len (fst x)) (snd x)) (combine ins (n_require nd)) /\
  s_map (d_outside D) = map (fun x => mk_portmap (si_offset (fst x)) (si_len (fst x)) (snd x)) (combine outs (n_provide nd)) /\
  context_dumps false W [nd] = Ok (f_data (F' (d_def D))).
Proof.
  intros Sep E G1 G2.
  destruct (node_data_inv _ _ _ _ _ _ _ _ _ Sep E) as (_ & B1 & B2 & _ & _ & _ & _ & _ & text & b & T1 & T2 & T3 & _).
  apply side_content in B1. apply side_content in B2.
  unfold node_data in E. apply bind_ok in E as (text' & Et & E). apply bind_ok in E as ([[W1 si] fi] & E1 & E).
  apply bind_ok in E as ([[W2 so] fo] & E2 & E). apply bind_ok in E as (fd & _ & E).
  destruct (create_side_agrees _ _ _ _ _ _ _ _ _ _ _ G1 E1) as (S1 & I1 & M1).
  apply (signals_same _ _ _ _ _ S1) in G2.
  destruct (create_side_agrees _ _ _ _ _ _ _ _ _ _ _ G2 E2) as (S2 & I2 & M2).
  assert (X : d_inside D = si /\ d_outside D = so).
  { destruct (new_file_id F k _) as [[Fa ka] ia]. destruct (new_file_id Fa ka fo) as [[Fb kb] ib]. injection E as _ _ _ <-. auto. }
  destruct X as [X1 X2]. unfold in_data, out_data. rewrite B1, B2, X1, X2.
  split; [exact I1|]. split; [exact I2|]. split; [exact M1|]. split; [exact M2|].
  rewrite T1, T3. unfold encode_ascii in T2. destruct (forallb _ _); [|discriminate]. congruence.
Qed.

Lemma insert_len_perm x l : Permutation (insert_len x l) (x :: l).
Proof.
  induction l as [|y r IH]; cbn [insert_len]; [apply Permutation_refl|]. destruct (_ <? _); [|apply Permutation_refl].
  eapply Permutation_trans; [apply perm_skip; exact IH|]. apply perm_swap.
Qed.
Lemma by_len_perm l : Permutation (by_len l) l.
Proof.
  induction l as [|x l IH]; [constructor|]. cbn [by_len fold_right]. fold (by_len l).
  eapply Permutation_trans; [apply insert_len_perm|]. constructor. exact IH.
Qed.

(** What [create_callbacks] makes of the signals. *)
Definition cb_of (m : list (str * option str)) (s : siginfo) : callback :=
  mk_callback s (lookup (si_name s) m) (lit "APX_RX_OFFSET_" ++ upper (opt_text (si_name s)))
    (lit "APX_RX_LEN_" ++ upper (opt_text (si_name s))).
Lemma create_callbacks_inv m : forall l cbs, create_callbacks m l = Ok cbs ->
  cbs = map (cb_of m) l /\ Forall (fun s => si_name s <> None) l.
Proof.
  induction l as [|s l IH]; intros cbs E; cbn [create_callbacks] in E; [injection E as <-; auto|].
  destruct (si_name s) as [nm|] eqn:N; [|discriminate]. apply bind_ok in E as (cs & E1 & E). injection E as <-.
  destruct (IH _ E1) as [-> F]. split.
  - cbn [map]. unfold cb_of at 2. rewrite N. reflexivity.
  - constructor; [congruence|exact F].
Qed.
