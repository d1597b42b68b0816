(** Properties C52, C60, C61, C62: what the generated C code does. *)
From Coq Require Import ZifyBool ZifyNat Lia Permutation.
From Verif Require Import Py PyLemmas TypesModel CompilerModel VmModel TypesSpec TypesProofs
  VmProofs VmPackProofs VmUnpackProofs TextModel SigModel AttrModel NodeModel RmfModel FileModel NodeDataModel NodeDataSpec NodeDataProofs
  NodeInitProofs VmProps NodeDataProps GenModel GenSpec GenProofs GenProofs2 GenProofs3 GenProofs4 GenProofs5 ParserModel GenTexts.
From Verif Require NodeProofs.
Ltac Zify.zify_post_hook ::= Z.div_mod_to_equations.

(** The names of the ports of one side. *)
Definition port_names (W : world) (ports : list nat) : list (option str) := map (fun o => pt_name (w_ports W o)) ports.

(** Which node the data are built for: the one the generator leaves behind, or the
    one it was given if that was finalized already. *)
Definition same_node (W : world) (nd : node) (W' : world) (W0 : world) : Prop :=
  W0 = W' \/ n_final nd = true /\ W0 = W.

(** The tables of the generated file are the data of the node: the same initial
    bytes, the same lengths, the same definition. *)
Theorem generated_data fuel sfx W nd name callbacks direct synced W' nd' c W0 F k W2 F' k' D :
  generate fuel sfx W nd name callbacks direct synced = Ok (W', nd', c) ->
  same_node W nd W' W0 -> separate nd' -> node_data fuel W0 nd' F k = Ok (W2, F', k', D) ->
  NoDup (port_names W' (n_require nd')) -> NoDup (port_names W' (n_provide nd')) ->
  c_ininit c = in_data F' D /\ c_outinit c = out_data F' D /\
  c_inlen c = len (in_data F' D) /\ c_outlen c = len (out_data F' D) /\
  c_deflen c = len (f_data (F' (d_def D))) + 1 /\
  (~ In 92 (f_data (F' (d_def D))) -> denoted (c_literal c) = Some (f_data (F' (d_def D)) ++ [10])).
Proof.
  intros G SN Sep ND N1 N2. apply generate_inv in G as (W1 & nm & ins & outs & text & cbs & Fi & S1 & _ & G).
  assert (S0 : same_world W' W0).
  { destruct SN as [->|[Nf ->]]; [apply same_world_refl|]. unfold finalize in Fi. rewrite Nf in Fi. injection Fi as -> ->.
    apply same_world_sym. exact S1. }
  pose proof (gd_ins _ _ _ _ _ _ _ _ _ _ _ _ G) as Gi. pose proof (gd_outs _ _ _ _ _ _ _ _ _ _ _ _ G) as Go.
  destruct (node_data_agrees _ _ _ _ _ _ _ _ _ _ _ _ Sep ND (signals_same _ _ _ _ _ S0 _ _ _ Gi) (signals_same _ _ _ _ _ S0 _ _ _ Go))
    as (Di & Do & _ & _ & Dt).
  rewrite (dumps_same _ _ _ _ S0), (gd_text _ _ _ _ _ _ _ _ _ _ _ _ G) in Dt. injection Dt as Dt.
  unfold port_names in N1, N2. rewrite <- (signals_names _ _ _ _ _ _ _ Gi) in N1. rewrite <- (signals_names _ _ _ _ _ _ _ Go) in N2.
  pose proof (sigs_offset _ _ _ _ _ _ _ Gi) as Li. pose proof (sigs_offset _ _ _ _ _ _ _ Go) as Lo.
  rewrite (init_table_all _ _ N1 Li (gd_ininit _ _ _ _ _ _ _ _ _ _ _ _ G)),
    (init_table_all _ _ N2 Lo (gd_outinit _ _ _ _ _ _ _ _ _ _ _ _ G)).
  rewrite (gd_inlen _ _ _ _ _ _ _ _ _ _ _ _ G), (gd_outlen _ _ _ _ _ _ _ _ _ _ _ _ G), Di, Do, (gd_deflen _ _ _ _ _ _ _ _ _ _ _ _ G),
    (gd_literal _ _ _ _ _ _ _ _ _ _ _ _ G), <- Dt.
  repeat (split; [auto|]). apply literal_denotes.
Qed.
Print Assumptions generated_data.

(** The macros for the callbacks are the offsets and the lengths of the require
    ports in that layout. *)
Theorem generated_macros fuel sfx W nd name m direct synced W' nd' c W0 F k W2 F' k' D :
  generate fuel sfx W nd name (Some m) direct synced = Ok (W', nd', c) ->
  same_node W nd W' W0 -> separate nd' -> node_data fuel W0 nd' F k = Ok (W2, F', k', D) ->
  let macros := fun s (f : portmap -> Z) => map (fun x => (lit s ++ upper (opt_text (pt_name (w_ports W' (pm_port x)))), f x)) (s_map (d_inside D)) in
  c_offsets c = macros "APX_RX_OFFSET_"%string pm_offset /\ Permutation (c_lens c) (macros "APX_RX_LEN_"%string pm_len).
Proof.
  intros G SN Sep ND macros. apply generate_inv in G as (W1 & nm & ins & outs & text & cbs & Fi & S1 & _ & G).
  assert (S0 : same_world W' W0).
  { destruct SN as [->|[Nf ->]]; [apply same_world_refl|]. unfold finalize in Fi. rewrite Nf in Fi. injection Fi as -> ->.
    apply same_world_sym. exact S1. }
  pose proof (gd_ins _ _ _ _ _ _ _ _ _ _ _ _ G) as Gi. pose proof (gd_outs _ _ _ _ _ _ _ _ _ _ _ _ G) as Go.
  destruct (node_data_agrees _ _ _ _ _ _ _ _ _ _ _ _ Sep ND (signals_same _ _ _ _ _ S0 _ _ _ Gi) (signals_same _ _ _ _ _ S0 _ _ _ Go))
    as (_ & _ & Dm & _ & _).
  pose proof (gd_cbs _ _ _ _ _ _ _ _ _ _ _ _ G) as Ec. cbn [made_callbacks] in Ec. apply bind_ok in Ec as (l & Ec & E). injection E as <-.
  apply create_callbacks_inv in Ec as [-> _].
  assert (X : forall s (f : portmap -> Z), (forall o n p q, f (mk_portmap o n p) = f (mk_portmap o n q)) ->
    macros s f = map (fun g => (lit s ++ upper (opt_text (si_name g)), f (mk_portmap (si_offset g) (si_len g) 0%nat))) ins).
  { intros s f Hf. unfold macros. rewrite Dm, map_map. clear - Gi Hf. revert Gi. generalize (n_require nd') 0 ins.
    induction l as [|o r IH]; intros off [|g sigs] Gi; cbn [signals] in Gi; try contradiction; [reflexivity|]. destruct Gi as [G1 G2].
    cbn [combine map fst snd pm_port] in *. rewrite <- (IH _ _ G2), <- (sg_name _ _ _ _ _ _ _ G1). f_equal. f_equal. apply Hf. }
  rewrite !X by reflexivity. cbn [pm_offset pm_len].
  rewrite (gd_offsets _ _ _ _ _ _ _ _ _ _ _ _ G), (gd_lens _ _ _ _ _ _ _ _ _ _ _ _ G). split.
  - rewrite map_map. reflexivity.
  - eapply Permutation_trans; [apply Permutation_map; apply by_len_perm|]. rewrite map_map. apply Permutation_refl.
Qed.
Print Assumptions generated_macros.

Lemma call_facts fuel op name W sfx direct ports ts sigs fs i o t :
  signals fuel op name W 0 ports sigs -> Forall2 (port_cable W) ports ts -> NoDup (port_names W ports) ->
  gen_funcs (w_types W) sfx op direct sigs sigs = Ok fs -> nth_error ports i = Some o -> nth_error ts i = Some t ->
  sum_lens sigs = total ts /\ 0 <= port_start ts i /\ port_start ts i + tlen t <= total ts /\ 0 <= tlen t /\
  exists d p body n ty, resolve_data_element (w_types W) (pt_elem (w_ports W o)) = Ok d /\ cable (w_types W) d t /\
    p = (match op with Unpack => true | Pack => by_ref t end) /\
    nth_error fs i = Some (mk_cfun (func_name op name (pt_name (w_ports W o))) ty p body) /\
    gen_func true (w_types W) sfx op p d (port_start ts i)
      (match op, pt_name (w_ports W o) with Pack, Some nm => existsb (str_eqb nm) direct | _, _ => false end) = Ok (body, n).
Proof.
  intros G F2 ND E No Nt. pose proof (signals_lens _ _ _ _ _ _ _ _ G F2) as L.
  pose proof (sum_lens_total _ _ L) as T. split; [exact T|].
  assert (P : Forall (fun t => 0 <= tlen t) ts).
  { clear - F2. induction F2 as [|o t r l (d & _ & C) F IH]; constructor; [|exact IH]. exact (proj1 (proj1 (image_lens _) _ _ C)). }
  destruct (port_start_le _ _ _ P Nt) as [P1 P2]. split; [exact P1|]. split; [exact P2|].
  split; [rewrite Forall_forall in P; exact (P _ (nth_error_In _ _ Nt))|].
  destruct (signals_nth _ _ _ _ _ _ _ _ _ G No) as (s & Ns & S). rewrite (sum_lens_firstn _ _ i L) in S.
  unfold port_names in ND. rewrite <- (signals_names _ _ _ _ _ _ _ G) in ND.
  destruct (gen_funcs_nth _ _ _ _ _ ND _ _ _ _ (fun x I => I) E Ns) as (body & n & Nf & Gf).
  assert (PC : port_cable W o t).
  { clear - F2 No Nt. revert i No Nt. induction F2 as [|a b r l A F IH]; intros [|i] No Nt; try discriminate; cbn [nth_error] in *; [congruence|eauto]. }
  destruct PC as (d & R & C). destruct S as [Sn So Sl Sf St Sp Sg _ _]. rewrite R in Sg. injection Sg as Sg.
  rewrite Sn, <- Sg, So, Z.add_0_l in Gf.
  assert (Ep : si_pointer s = match op with Unpack => true | Pack => by_ref t end).
  { destruct op; [exact (pointer_by_ref _ _ _ _ _ R C Sp)|congruence]. }
  exists d, (si_pointer s), body, n, (si_type s). split; [exact R|]. split; [exact C|]. split; [exact Ep|].
  split; [rewrite <- Sf; exact Nf|].
  destruct (0 <? sum_lens sigs); [exact Gf|]. exfalso. exact (gen_func_no_buf _ _ _ _ _ _ _ _ _ C Gf).
Qed.

Lemma part_cut ts b i t : nth_error ts i = Some t -> part_of ts b i = GenProofs.cut b (port_start ts i) (tlen t).
Proof. intros N. unfold part_of. rewrite N. reflexivity. Qed.

(** The Write function of a provide port puts the bytes of its argument where the
    port is and leaves the bytes of the other ports alone; it notifies the range
    once, takes and releases the lock, and touches the data only with the lock taken.
    The bytes are what the argument means (text: what stands before the first NUL). *)
Theorem write_function fuel sfx W nd name callbacks direct synced W' nd' c ts i o t :
  generate fuel sfx W nd name callbacks direct synced = Ok (W', nd', c) ->
  Forall2 (port_cable W') (n_provide nd') ts -> NoDup (port_names W' (n_provide nd')) ->
  nth_error (n_provide nd') i = Some o -> nth_error ts i = Some t ->
  c_outlen c = total ts /\
  exists f, nth_error (c_writes c) i = Some f /\
    cf_name f = lit "ApxNode_Write_" ++ c_name c ++ lit "_" ++ opt_text (pt_name (w_ports W' o)) /\
    forall buf x, len buf = total ts -> shape sfx t x ->
    exists m d, call f buf x = Some m /\
      len (m_buf m) = total ts /\ part_of ts (m_buf m) i = image t x /\
      (forall j, j <> i -> part_of ts (m_buf m) j = part_of ts buf j) /\
      (forall v, meaning t x = Some v -> dec t (part_of ts (m_buf m) i) = Some v) /\
      m_val m = x /\ m_lock m = false /\ m_bare m = 0 /\ m_out m = [(port_start ts i, tlen t, d)] /\
      (d = true <-> exists nm, pt_name (w_ports W' o) = Some nm /\ In nm direct).
Proof.
  intros G F2 ND No Nt. apply generate_inv in G as (W1 & nm & ins & outs & text & cbs & _ & _ & _ & G).
  destruct (call_facts _ _ _ _ _ _ _ _ _ _ _ _ _ (gd_outs _ _ _ _ _ _ _ _ _ _ _ _ G) F2 ND (gd_writes _ _ _ _ _ _ _ _ _ _ _ _ G) No Nt)
    as (T & P1 & P2 & P3 & d & p & body & n & ty & R & C & -> & Nf & Gf).
  split; [rewrite (gd_outlen _ _ _ _ _ _ _ _ _ _ _ _ G); exact T|]. eexists. split; [exact Nf|].
  split; [rewrite (gd_name _ _ _ _ _ _ _ _ _ _ _ _ G); reflexivity|].
  intros buf x Lb Sx. set (dr := match pt_name (w_ports W' o) with Some nm => existsb (str_eqb nm) direct | None => false end) in *.
  destruct (write_func _ sfx _ _ (port_start ts i) dr C) as (body' & Gf' & X).
  rewrite Gf' in Gf. injection Gf as <- <-. destruct (X buf x Sx P1 ltac:(lia)) as (m & Rm & B & V & K & Ba & O).
  destruct (proj1 (image_lens _) _ _ C) as [_ IL]. pose proof (IL sfx x Sx) as Li.
  exists m, dr. split; [exact Rm|].
  assert (Lm : len (m_buf m) = total ts) by (rewrite B, over_len; lia).
  assert (Pi : part_of ts (m_buf m) i = image t x).
  { rewrite (part_cut _ _ _ _ Nt), B, <- Li. apply cut_over_same; lia. }
  assert (NN : Forall (fun t => 0 <= tlen t) ts).
  { clear - F2. induction F2 as [|o t r l (d & _ & C) F IH]; constructor; [|exact IH]. exact (proj1 (proj1 (image_lens _) _ _ C)). }
  split; [exact Lm|]. split; [exact Pi|]. split.
  { intros j Nj. destruct (nth_error ts j) as [tj|] eqn:Ntj; [|unfold part_of; rewrite Ntj; reflexivity].
    rewrite !(part_cut _ _ _ _ Ntj), B. destruct (port_start_le _ _ _ NN Ntj) as [Q1 Q2].
    assert (0 <= tlen tj) by (rewrite Forall_forall in NN; exact (NN _ (nth_error_In _ _ Ntj))).
    apply cut_over_other; try lia. rewrite Li. assert (j < i \/ i < j)%nat as [J|J] by lia.
    - left. exact (port_start_lt _ NN _ _ _ J Ntj).
    - right. exact (port_start_lt _ NN _ _ _ J Nt). }
  split; [intros v Mv; rewrite Pi; exact (proj1 (image_means _) _ _ C _ x v Sx Mv)|].
  split; [exact V|]. split; [exact K|]. split; [exact Ba|]. split; [exact O|].
  unfold dr. destruct (pt_name (w_ports W' o)) as [pn|]; [|split; [discriminate|intros (? & ? & _); discriminate]].
  split.
  - intros Ex. apply existsb_exists in Ex as (y & I & Q). apply str_eqb_eq in Q as ->. eauto.
  - intros (y & Q & I). injection Q as ->. apply existsb_exists. exists y. split; [exact I|apply str_eqb_refl].
Qed.
Print Assumptions write_function.

(** The Read function of a require port fills its argument from the bytes of the port
    and changes nothing else.  If the port's texts are terminated, the argument then
    means what the virtual machine reads there. *)
Theorem read_function fuel sfx W nd name callbacks direct synced W' nd' c ts i o t :
  generate fuel sfx W nd name callbacks direct synced = Ok (W', nd', c) ->
  Forall2 (port_cable W') (n_require nd') ts -> NoDup (port_names W' (n_require nd')) ->
  nth_error (n_require nd') i = Some o -> nth_error ts i = Some t ->
  c_inlen c = total ts /\
  exists f, nth_error (c_reads c) i = Some f /\
    cf_name f = lit "ApxNode_Read_" ++ c_name c ++ lit "_" ++ opt_text (pt_name (w_ports W' o)) /\
    forall buf old, bytes_ok buf -> len buf = total ts -> shape sfx t old ->
    exists m, call f buf old = Some m /\ m_buf m = buf /\ m_val m = loaded t old (part_of ts buf i) /\
      (forall v, dec t (part_of ts buf i) = Some v -> terminated t (part_of ts buf i) -> meaning t (m_val m) = Some v) /\
      m_lock m = false /\ m_bare m <= 1 /\ m_out m = [].
Proof.
  intros G F2 ND No Nt. apply generate_inv in G as (W1 & nm & ins & outs & text & cbs & _ & _ & _ & G).
  destruct (call_facts _ _ _ _ _ _ _ _ _ _ _ _ _ (gd_ins _ _ _ _ _ _ _ _ _ _ _ _ G) F2 ND (gd_reads _ _ _ _ _ _ _ _ _ _ _ _ G) No Nt)
    as (T & P1 & P2 & P3 & d & p & body & n & ty & R & C & -> & Nf & Gf).
  split; [rewrite (gd_inlen _ _ _ _ _ _ _ _ _ _ _ _ G); exact T|]. eexists. split; [exact Nf|].
  split; [rewrite (gd_name _ _ _ _ _ _ _ _ _ _ _ _ G); reflexivity|].
  intros buf old Bo Lb So.
  destruct (read_func _ sfx _ _ (port_start ts i) C) as (body' & Gf' & X).
  rewrite Gf' in Gf. injection Gf as <- <-. destruct (X buf old Bo So P1 ltac:(lia)) as (m & Rm & B & V & K & Ba & O).
  exists m. split; [exact Rm|]. split; [exact B|]. rewrite (part_cut _ _ _ _ Nt). split; [exact V|].
  split; [|auto]. intros v Dv Te. rewrite V. eapply (proj1 (loaded_means _)); eauto.
  apply cut_len; lia.
Qed.
Print Assumptions read_function.

(** ** Callbacks *)

(** What the dictionary of callbacks says about a port. *)
Definition callback_for (m : list (str * option str)) (name : option str) : option str :=
  match name with
  | None => None
  | Some nm => match find (fun p => str_eqb (fst p) nm) m with Some (_, f) => f | None => None end
  end.
Lemma lookup_for m name : lookup name m = callback_for m name.
Proof.
  unfold callback_for. induction m as [|[k f] m IH]; cbn [lookup find fst].
  - destruct name; reflexivity.
  - destruct name as [nm|].
    + cbn [opt_eqb]. destruct (str_eqb k nm); [reflexivity|exact IH].
    + cbn [opt_eqb]. exact IH.
Qed.

(** The names that macros are made of. *)
Definition macro_names (W : world) (ports : list nat) : list str := map (fun o => upper (opt_text (pt_name (w_ports W o)))) ports.

Lemma nodup_map {A B} (f : A -> B) l : (forall x y, f x = f y -> x = y) -> NoDup l -> NoDup (map f l).
Proof.
  intros J. induction 1 as [|x l N ND IH]; cbn [map]; [constructor|]. constructor; [|exact IH].
  intros I. apply in_map_iff in I as (y & E & I). apply J in E as ->. contradiction.
Qed.

Lemma NoDup_app' {A} (a b : list A) : NoDup a -> NoDup b -> (forall x, In x a -> In x b -> False) -> NoDup (a ++ b).
Proof.
  induction 1 as [|x a N ND IH]; intros B D; [exact B|]. cbn [app]. constructor.
  - intros I. apply in_app_or in I as [I|I]; [contradiction|]. exact (D x (or_introl eq_refl) I).
  - apply IH; [exact B|]. intros y I J. exact (D y (or_intror I) J).
Qed.
Lemma macro_table m ins : NoDup (map (fun s => upper (opt_text (si_name s))) ins) ->
  let table := map (fun x => (cb_len_define x, si_len (cb_sig x))) (by_len (map (cb_of m) ins)) ++
               map (fun x => (cb_offset_define x, si_offset (cb_sig x))) (map (cb_of m) ins) in
  Forall (fun s => macro table (cb_offset_define (cb_of m s)) = Some (si_offset s) /\ macro table (cb_len_define (cb_of m s)) = Some (si_len s)) ins.
Proof.
  intros ND table.
  assert (Pm : Permutation table (map (fun s => (lit "APX_RX_LEN_" ++ upper (opt_text (si_name s)), si_len s)) ins ++
                                  map (fun s => (lit "APX_RX_OFFSET_" ++ upper (opt_text (si_name s)), si_offset s)) ins)).
  { unfold table. apply Permutation_app; [|rewrite map_map; apply Permutation_refl].
    eapply Permutation_trans; [apply Permutation_map; apply by_len_perm|]. rewrite map_map. apply Permutation_refl. }
  assert (Nk : NoDup (map fst table)).
  { eapply Permutation_NoDup; [apply Permutation_map; apply Permutation_sym; exact Pm|]. rewrite map_app, !map_map. cbn [fst].
    apply NoDup_app'.
    - rewrite <- (map_map (fun s => upper (opt_text (si_name s))) (fun u => lit "APX_RX_LEN_" ++ u)). apply nodup_map; [|exact ND].
      intros x y. apply app_inv_head.
    - rewrite <- (map_map (fun s => upper (opt_text (si_name s))) (fun u => lit "APX_RX_OFFSET_" ++ u)). apply nodup_map; [|exact ND].
      intros x y. apply app_inv_head.
    - intros x I J. apply in_map_iff in I as (a & <- & _). apply in_map_iff in J as (b & E & _). discriminate E. }
  apply Forall_forall. intros s I. split; apply macro_found; try exact Nk; (eapply Permutation_in; [apply Permutation_sym; exact Pm|]); apply in_or_app.
  - right. apply in_map_iff. exists s. auto.
  - left. apply in_map_iff. exists s. auto.
Qed.

(** When input data arrive, the generated notification function calls the callbacks
    of exactly the ports the data meet, in the order of the ports, each with what
    the Read function of the port delivers -- provided the range starts with a port,
    or before the first port that has a callback, and every port has data. *)
Theorem callbacks_called_right fuel sfx W nd name m direct synced W' nd' c ts buf old off n :
  generate fuel sfx W nd name (Some m) direct synced = Ok (W', nd', c) ->
  Forall2 (port_cable W') (n_require nd') ts -> NoDup (macro_names W' (n_require nd')) ->
  Forall (fun t => 0 < tlen t) ts -> total ts < 2 ^ 32 ->
  bytes_ok buf -> len buf = total ts ->
  (forall i o t, nth_error (n_require nd') i = Some o -> nth_error ts i = Some t -> shape sfx t (old (opt_text (pt_name (w_ports W' o))))) ->
  0 <= off -> 0 <= n -> off + n <= total ts ->
  (exists i, (i <= length ts)%nat /\ off = port_start ts i) \/
  (forall i o, nth_error (n_require nd') i = Some o -> callback_for m (pt_name (w_ports W' o)) <> None -> off < port_start ts i) ->
  callbacks_called c buf old off n =
  Some (flat_map (fun i => match nth_error (n_require nd') i, nth_error ts i with
                           | Some o, Some t =>
                             match callback_for m (pt_name (w_ports W' o)) with
                             | Some f => [(f, loaded t (old (opt_text (pt_name (w_ports W' o)))) (part_of ts buf i))]
                             | None => []
                             end
                           | _, _ => []
                           end) (affected ts off n)).
Proof.
  intros G F2 ND Lo Sz Bo Lb Sh O1 O2 O3 St. pose proof G as G0.
  apply generate_inv in G as (W1 & nm & ins & outs & text & cbs & _ & _ & _ & G).
  pose proof (gd_ins _ _ _ _ _ _ _ _ _ _ _ _ G) as Gi. pose proof (gd_notifier _ _ _ _ _ _ _ _ _ _ _ _ G) as Gn.
  pose proof (gd_cbs _ _ _ _ _ _ _ _ _ _ _ _ G) as Ec. cbn [made_callbacks] in Ec. apply bind_ok in Ec as (l & Ec & E). injection E as <-.
  apply create_callbacks_inv in Ec as [-> Nn].
  pose proof (signals_names _ _ _ _ _ _ _ Gi) as En. pose proof (signals_lens _ _ _ _ _ _ _ _ Gi F2) as Ll.
  assert (ND' : NoDup (map (fun s => upper (opt_text (si_name s))) ins)).
  { rewrite <- (map_map si_name (fun x => upper (opt_text x))), En, map_map. exact ND. }
  assert (NDp : NoDup (port_names W' (n_require nd'))).
  { unfold macro_names in ND. rewrite <- (map_map (fun o => pt_name (w_ports W' o)) (fun x => upper (opt_text x))) in ND. exact (NoDup_map_inv _ _ ND). }
  assert (NDf : NoDup (map si_func ins)).
  { assert (X : map si_func ins = map (fun u => lit "ApxNode_" ++ lit "Read_" ++ nm ++ lit "_" ++ u) (map (fun s => opt_text (si_name s)) ins)).
    { clear - Gi. revert Gi. generalize (n_require nd') 0. intros ports. revert ins. induction ports as [|o r IH]; intros [|s l] a Gi; cbn [signals] in Gi; try contradiction; [reflexivity|].
      destruct Gi as [G1 G2]. cbn [map]. f_equal; [|exact (IH _ _ G2)]. rewrite (sg_func _ _ _ _ _ _ _ G1), (sg_name _ _ _ _ _ _ _ G1). reflexivity. }
    rewrite X. apply nodup_map.
    - intros x y E. do 4 apply app_inv_head in E. exact E.
    - rewrite <- (map_map (fun s => opt_text (si_name s)) upper) in ND'. exact (NoDup_map_inv _ _ ND'). }
  pose proof (gd_reads _ _ _ _ _ _ _ _ _ _ _ _ G) as Gr.
  assert (NDs : NoDup (map si_name ins)) by (rewrite En; exact NDp).
  pose proof (gen_funcs_all _ _ _ _ _ NDs _ _ (fun x I => I) Gr) as Ef.
  assert (Len : length ins = length ts) by (rewrite <- (map_length si_len ins), Ll, map_length; reflexivity).
  assert (Len' : length (n_require nd') = length ts) by (clear - F2; induction F2; cbn; congruence).
  assert (Long : Forall long ins).
  { clear - Ll Lo. revert ts Ll Lo. induction ins as [|s l IH]; intros [|t ts] E F; try discriminate; [constructor|]. cbn [map] in E.
    injection E as E1 E2. inversion F; subst. constructor; [unfold long; lia|eauto]. }
  pose proof (sum_lens_total _ _ Ll) as T. pose proof (signals_chained _ _ _ _ _ _ _ Gi) as Ch.
  assert (At : forall i s, nth_error ins i = Some s -> exists o t, nth_error (n_require nd') i = Some o /\ nth_error ts i = Some t /\
     si_name s = pt_name (w_ports W' o) /\ si_offset s = port_start ts i /\ si_len s = tlen t).
  { intros i s Ns. assert (Il : (i < length ins)%nat) by (apply nth_error_Some; congruence).
    destruct (nth_error (n_require nd') i) as [o|] eqn:No; [|apply nth_error_None in No; lia].
    destruct (nth_error ts i) as [t|] eqn:Nt; [|apply nth_error_None in Nt; lia].
    destruct (signals_nth _ _ _ _ _ _ _ _ _ Gi No) as (s' & Ns' & S). assert (s' = s) by congruence. subst s'.
    exists o, t. split; [reflexivity|]. split; [reflexivity|]. split; [exact (sg_name _ _ _ _ _ _ _ S)|].
    split; [rewrite (sg_offset _ _ _ _ _ _ _ S), (sum_lens_firstn _ _ i Ll); lia|].
    pose proof (f_equal (fun l => nth_error l i) Ll) as X. cbn beta in X. rewrite !nth_error_map, Ns, Nt in X. cbn [option_map] in X. congruence. }
  set (value := fun s => match read_call (c_reads c) (si_func s) buf (old (opt_text (si_name s))) with Some v => v | None => CInt 0 end).
  assert (Val : forall i s o t, nth_error ins i = Some s -> nth_error (n_require nd') i = Some o -> nth_error ts i = Some t ->
    read_call (c_reads c) (si_func s) buf (old (opt_text (si_name s))) = Some (loaded t (old (opt_text (pt_name (w_ports W' o)))) (part_of ts buf i))).
  { intros i s o t Ns No Nt.
    destruct (read_function _ _ _ _ _ _ _ _ _ _ _ _ _ _ _ G0 F2 NDp No Nt) as (_ & f & Nf & Nmf & X).
    destruct (At i s Ns) as (o' & t' & No' & Nt' & A1 & _). rewrite No' in No. injection No as ->. rewrite A1.
    destruct (X buf (old (opt_text (pt_name (w_ports W' o)))) Bo Lb (Sh i o t No' Nt)) as (mm & Cm & _ & Vm & _).
    unfold read_call. pose proof (f_equal (fun l => nth_error l i) Ef) as Y. cbn beta in Y. rewrite !nth_error_map, Nf, Ns in Y. cbn [option_map] in Y.
    injection Y as Y. rewrite <- Y. rewrite (filter_key cf_name (c_reads c) f); [|rewrite Ef; exact NDf|exact (nth_error_In _ _ Nf)].
    rewrite Cm. cbn [obind]. rewrite Vm. reflexivity. }
  rewrite (notified_calls (w_types W') c m ins buf old value off n Gn Ch Long); try lia.
  - f_equal. unfold affected. rewrite <- Len. symmetry. apply flat_map_filter_seq. intros j s Ns. cbn [Nat.add].
    destruct (At j s Ns) as (o & t & No & Nt & A1 & A2 & A3). pose proof (Val j s o t Ns No Nt) as V. rewrite No, Nt. unfold hit. rewrite A2, A3.
    rewrite A1, lookup_for. unfold value. rewrite V. reflexivity.
  - rewrite (gd_lens _ _ _ _ _ _ _ _ _ _ _ _ G), (gd_offsets _ _ _ _ _ _ _ _ _ _ _ _ G). exact (macro_table m ins ND').
  - intros s I _. apply In_nth_error in I as (i & Ns). destruct (At i s Ns) as (o & t & No & Nt & _). unfold value. rewrite (Val i s o t Ns No Nt). reflexivity.
  - destruct St as [(i & _ & Eo)|St].
    + left. exists (firstn i ins), (skipn i ins). split; [symmetry; apply firstn_skipn|]. rewrite (sum_lens_firstn _ _ i Ll). exact Eo.
    + right. intros s I L. apply In_nth_error in I as (i & Ns). destruct (At i s Ns) as (o & t & No & Nt & A1 & A2 & _).
      rewrite A2. apply (St i o No). rewrite <- lookup_for, <- A1. exact L.
Qed.
Print Assumptions callbacks_called_right.

Definition array_length (t : ty) : option Z := match t with TArr _ n | TStr n => Some n | _ => None end.
Lemma target_array H d t : cable H d t -> arrayLen d = array_length t.
Proof. intros C. destruct C as [| | | |nm r nm' c lo hi k R]; reflexivity. Qed.
Lemma fragments H first last : forall l w parts x, switch_parts H first last w l = Ok parts -> In x parts ->
  (exists s, x = PComment s) \/ exists c, In c l /\ code_fragment H c = Ok x.
Proof.
  induction l as [|c l IH]; intros w parts x E I; cbn [switch_parts] in E; [injection E as <-; destruct I|].
  assert (forall xs, In x ((if w then [PComment (cb_offset_define c)] else []) ++ xs) -> (exists s, x = PComment s) \/ In x xs) as C.
  { intros xs J. apply in_app_or in J as [J|J]; [|auto]. destruct w; [|destruct J]. destruct J as [<-|[]]. left. eauto. }
  assert (forall w' xs, switch_parts H first last w' l = Ok xs -> In x xs -> (exists s, x = PComment s) \/ exists c0, In c0 (c :: l) /\ code_fragment H c0 = Ok x) as R.
  { intros w' xs E1 J. destruct (IH _ _ _ E1 J) as [?|(c0 & ? & ?)]; [auto|]. right. exists c0. split; [right|]; auto. }
  destruct (si_offset (cb_sig c) <=? last).
  - destruct first as [f|]; [|discriminate]. destruct (si_offset (cb_sig f) <=? si_offset (cb_sig c)).
    + apply bind_ok in E as (y & Y & E). apply bind_ok in E as (xs & X & E). injection E as <-. apply C in I as [I|[<-|I]]; [auto| |eauto]. right. exists c. split; [left|]; auto.
    + apply bind_ok in E as (xs & X & E). injection E as <-. apply C in I as [I|I]; eauto.
  - apply bind_ok in E as (xs & X & E). injection E as <-. apply C in I as [I|I]; eauto.
Qed.
Lemma insert_name_in {A} (key : A -> str) x y l : In y (insert_name key x l) <-> y = x \/ In y l.
Proof.
  induction l as [|z l IH]; cbn [insert_name In]; [intuition|]. destruct (str_ltb (key x) (key z)); cbn [In]; [intuition|]. rewrite IH. tauto.
Qed.
Lemma sorted_in {A} (key : A -> str) y l : In y (fold_right (insert_name key) [] l) <-> In y l.
Proof. induction l as [|x l IH]; cbn [fold_right In]; [tauto|]. rewrite insert_name_in, IH. intuition. Qed.

(** The call hands an array over by its first element, and anything but a number by
    reference; the variables for the values are declared for exactly the ports with a
    callback, with the type of the Read function and the length of the array. *)
Theorem callback_arguments fuel sfx W nd name m direct synced W' nd' c ts guard parts vars :
  generate fuel sfx W nd name (Some m) direct synced = Ok (W', nd', c) ->
  Forall2 (port_cable W') (n_require nd') ts -> NoDup (port_names W' (n_require nd')) -> c_notifier c = Switch guard parts vars ->
  (forall label n k, In (PCase label n (Some k)) parts -> exists i o t, nth_error (n_require nd') i = Some o /\ nth_error ts i = Some t /\
     cl_port k = opt_text (pt_name (w_ports W' o)) /\ callback_for m (pt_name (w_ports W' o)) = Some (cl_func k) /\
     cl_array k = (match array_length t with Some _ => true | None => false end) /\ cl_ref k = (match t with TInt _ => false | _ => true end)) /\
  (forall var ct len, In (var, ct, len) vars <-> exists i o t f, nth_error (n_require nd') i = Some o /\ nth_error ts i = Some t /\ nth_error (c_reads c) i = Some f /\
     callback_for m (pt_name (w_ports W' o)) <> None /\ var = opt_text (pt_name (w_ports W' o)) /\ ct = cf_type f /\ len = array_length t).
Proof.
  intros G F2 ND EN. apply generate_inv in G as (W1 & nm & ins & outs & text & cbs & _ & _ & _ & G).
  pose proof (gd_ins _ _ _ _ _ _ _ _ _ _ _ _ G) as Gi. pose proof (gd_notifier _ _ _ _ _ _ _ _ _ _ _ _ G) as Gn.
  pose proof (gd_cbs _ _ _ _ _ _ _ _ _ _ _ _ G) as Ec. cbn [made_callbacks] in Ec. apply bind_ok in Ec as (l & Ec & E). injection E as <-.
  apply create_callbacks_inv in Ec as [-> Nn]. pose proof (signals_names _ _ _ _ _ _ _ Gi) as En. pose proof (gd_reads _ _ _ _ _ _ _ _ _ _ _ _ G) as Gr.
  assert (NDs : NoDup (map si_name ins)) by (rewrite En; exact ND).
  assert (Len : length ins = length (n_require nd')) by (rewrite <- (map_length si_name ins), En, map_length; reflexivity).
  assert (Len' : length (n_require nd') = length ts) by (clear - F2; induction F2; cbn; congruence).
  assert (At : forall i s, nth_error ins i = Some s -> exists o t f, nth_error (n_require nd') i = Some o /\ nth_error ts i = Some t /\ nth_error (c_reads c) i = Some f /\
     si_name s = pt_name (w_ports W' o) /\ cf_type f = si_type s /\ resolve_data_element (w_types W') (pt_elem (w_ports W' o)) = Ok (si_target s) /\ cable (w_types W') (si_target s) t).
  { intros i s Ns. assert (Il : (i < length ins)%nat) by (apply nth_error_Some; congruence).
    destruct (nth_error (n_require nd') i) as [o|] eqn:No; [|apply nth_error_None in No; lia].
    destruct (NodeProofs.Forall2_nth _ _ _ _ _ F2 No) as (t & Nt & d & R & C).
    destruct (signals_nth _ _ _ _ _ _ _ _ _ Gi No) as (s' & Ns' & S). assert (s' = s) by congruence. subst s'.
    destruct (gen_funcs_nth _ _ _ _ _ NDs _ _ i s (fun x I => I) Gr Ns) as (body & n0 & Nf & _).
    pose proof (sg_target _ _ _ _ _ _ _ S) as T. assert (si_target s = d) as TD by congruence. rewrite TD in *.
    exists o, t. eexists. split; [reflexivity|]. split; [exact Nt|]. split; [exact Nf|]. split; [exact (sg_name _ _ _ _ _ _ _ S)|]. split; [reflexivity|]. auto. }
  unfold gen_notifier in Gn. rewrite EN in Gn. destruct (sum_lens ins =? 0); [discriminate|]. apply bind_ok in Gn as (ps & SP & Gn). injection Gn as _ -> EV. split.
  - intros label n k I. destruct (fragments _ _ _ _ _ _ _ SP I) as [(s & X)|(x & Ix & X)]; [discriminate|]. apply in_map_iff in Ix as (s & <- & Is). apply In_nth_error in Is as (i & Ns).
    destruct (At i s Ns) as (o & t & f & No & Nt & _ & A1 & _ & A3 & A4). unfold code_fragment, cb_of in X. cbn [cb_func cb_sig] in X.
    destruct (lookup (si_name s) m) as [g|] eqn:LK; [|discriminate]. apply bind_ok in X as (ref & IC & X). injection X as _ _ <-.
    exists i, o, t. split; [exact No|]. split; [exact Nt|]. cbn [cl_port cl_func cl_array cl_ref]. rewrite <- A1, <- lookup_for, (target_array _ _ _ A4). split; [reflexivity|]. split; [exact LK|]. split; [reflexivity|].
    unfold isComplexType in IC. apply bind_ok in IC as (d & RD & IC). eapply (pointer_by_ref (w_types W') (si_target s)); [exact RD| |unfold isComplexType; rewrite RD; exact IC].
    apply resolve_not_ref in A3. destruct (si_target s); [injection RD as <-|injection RD as <-|discriminate A3]; exact A4.
  - intros var ct ln. rewrite <- EV, sorted_in, <- in_rev, in_map_iff. split.
    + intros (x & X & I). apply filter_In in I as (I & HF). apply in_map_iff in I as (s & <- & Is). apply In_nth_error in Is as (i & Ns).
      destruct (At i s Ns) as (o & t & f & No & Nt & Nf & A1 & A2 & A3 & A4). unfold cb_of in X, HF. cbn [cb_sig] in X. unfold has_func in HF. cbn [cb_func] in HF.
      injection X as <- <- <-. exists i, o, t, f. rewrite <- A1, <- lookup_for, (target_array _ _ _ A4), A2. repeat (split; [solve [auto]|]). split; [destruct (lookup _ m); discriminate|auto].
    + intros (i & o & t & f & No & Nt & Nf & CB & -> & -> & ->). destruct (nth_error ins i) as [s|] eqn:Ns; [|apply nth_error_None in Ns; assert (i < length (n_require nd'))%nat by (apply nth_error_Some; congruence); lia].
      destruct (At i s Ns) as (o' & t' & f' & No' & Nt' & Nf' & A1 & A2 & A3 & A4). assert (o' = o /\ t' = t /\ f' = f) as (-> & -> & ->) by (repeat split; congruence).
      exists (cb_of m s). split; [unfold cb_of; cbn [cb_sig]; rewrite A1, A2, (target_array _ _ _ A4); reflexivity|]. apply filter_In. split; [apply in_map; exact (nth_error_In _ _ Ns)|].
      unfold has_func, cb_of. cbn [cb_func]. rewrite lookup_for, A1. destruct (callback_for m (pt_name (w_ports W' o))); [reflexivity|congruence].
Qed.
Print Assumptions callback_arguments.

(** ** The test node of the repository *)

(** The type of a supported element, if it is one. *)
Definition small_kind (c : tcode) : option kind :=
  match kind_of c with Some U64 | Some S64 => None | x => x end.
Fixpoint distinct (l : list str) : bool := match l with [] => true | x :: r => negb (existsb (str_eqb x) r) && distinct r end.
Fixpoint cable_type (H : theap) (d : delem) : option ty :=
  match d with
  | DPrim _ CSTR _ _ (Some n) => if 1 <=? n then Some (TStr n) else None
  | DPrim _ c _ _ None => option_map TInt (small_kind c)
  | DPrim _ c _ _ (Some n) => if (0 <=? n) && (n <? 2 ^ 32) then option_map (fun k => TArr k n) (small_kind c) else None
  | DRec _ es =>
    match (fix go l := match l with
                       | [] => Some []
                       | e :: r => match de_name e, cable_type H e, go r with
                                   | Some nm, Some t, Some ms => Some ((nm, t) :: ms)
                                   | _, _, _ => None
                                   end
                       end) es with
    | Some ms => if distinct (map fst ms) then Some (TRec ms) else None
    | None => None
    end
  | DRef _ _ =>
    match resolve_data_element H d with
    | Ok (DPrim _ c _ _ None) => option_map TInt (small_kind c)
    | _ => None
    end
  end.
Lemma small_kind_inv c k : small_kind c = Some k -> kind_of c = Some k /\ small k.
Proof. unfold small_kind. destruct c; cbn; intros E; try discriminate; injection E as <-; split; exact I || reflexivity. Qed.
Lemma distinct_nodup l : distinct l = true -> NoDup l.
Proof.
  induction l as [|x l IH]; cbn [distinct]; intros E; constructor.
  - intros J. apply andb_prop in E as [E _]. apply negb_true_iff in E. rewrite <- not_true_iff_false in E. apply E.
    apply existsb_exists. exists x. split; [exact J|apply str_eqb_refl].
  - apply IH. apply andb_prop in E as [_ E]. exact E.
Qed.
Lemma cable_type_sound H : forall d t, cable_type H d = Some t -> cable H d t.
Proof.
  fix IH 1. intros [nm c lo hi a|nm es|nm r] t E.
  - destruct a as [n|]; cbn [cable_type] in E.
    + assert (X : c = CSTR \/ (if (0 <=? n) && (n <? 2 ^ 32) then option_map (fun k => TArr k n) (small_kind c) else None) = Some t)
        by (destruct c; first [left; reflexivity|right; exact E]).
      destruct X as [->|X].
      * destruct (Z.leb_spec 1 n); [|discriminate E]. injection E as <-. constructor. assumption.
      * destruct ((0 <=? n) && (n <? 2 ^ 32)) eqn:R; [|discriminate X]. destruct (small_kind c) as [k|] eqn:K; [|discriminate X].
        injection X as <-. apply small_kind_inv in K as [K1 K2]. eapply cab_arr; [eassumption|assumption|lia].
    + assert (X : option_map TInt (small_kind c) = Some t) by (destruct c; exact E).
      destruct (small_kind c) as [k|] eqn:K; [|discriminate X]. injection X as <-. apply small_kind_inv in K as [K1 K2]. econstructor; eassumption.
  - cbn [cable_type] in E.
    assert (X : forall l ms, (fix go l := match l with
                       | [] => Some []
                       | e :: r => match de_name e, cable_type H e, go r with
                                   | Some nm, Some t, Some ms => Some ((nm, t) :: ms)
                                   | _, _, _ => None
                                   end
                       end) l = Some ms -> cables H l ms).
    { fix IHl 1. intros [|e l] ms El.
      - injection El as <-. constructor.
      - destruct (de_name e) as [n|] eqn:N; [|discriminate El]. destruct (cable_type H e) as [t'|] eqn:T; [|discriminate El].
        match type of El with match ?x with _ => _ end = _ => destruct x as [ms'|] eqn:R end; [|discriminate El].
        injection El as <-. constructor; [exact N|exact (IH _ _ T)|exact (IHl _ _ R)]. }
    match type of E with match ?x with _ => _ end = _ => destruct x as [ms|] eqn:R end; [|discriminate E].
    destruct (distinct (map fst ms)) eqn:D; [|discriminate E]. injection E as <-. constructor; [apply distinct_nodup; exact D|exact (X _ _ R)].
  - cbn [cable_type] in E. destruct (resolve_data_element H (DRef nm r)) as [[nm' c lo hi [a|]|?|?]|] eqn:R; try discriminate E.
    destruct (small_kind c) as [k|] eqn:K; [|discriminate E]. injection E as <-. apply small_kind_inv in K as [K1 K2]. econstructor; eassumption.
Qed.
Definition port_type (W : world) (o : nat) : option ty :=
  match resolve_data_element (w_types W) (pt_elem (w_ports W o)) with Ok d => cable_type (w_types W) d | Err _ => None end.
Lemma port_type_sound W : forall ports ts, map (port_type W) ports = map Some ts -> Forall2 (port_cable W) ports ts.
Proof.
  induction ports as [|o r IH]; intros [|t ts] E; try discriminate; constructor; cbn [map] in E; injection E as E1 E2; [|exact (IH _ E2)].
  unfold port_type in E1. destruct (resolve_data_element _ _) as [d|] eqn:R; [|discriminate E1]. exists d. split; [exact R|]. apply cable_type_sound. exact E1.
Qed.

(** The node of /repo/tests/generator_test.py, given to the generator finalized. *)
Definition test_requires : list ty :=
  [TInt U8; TArr S16 3; TInt S32; TInt U8; TArr U8 3; TRec [(lit "LightId", TInt U16); (lit "Intensity", TInt U8)];
   TRec [(lit "SoundId", TInt U16); (lit "Volume", TInt U8)]; TInt U8].
Definition test_provides : list ty :=
  [TRec [(lit "SoundId", TInt U16); (lit "Volume", TInt U8)]; TRec [(lit "HapticId", TInt U16); (lit "Intensity", TInt U8)];
   TArr S8 1; TInt S8; TArr U16 4; TInt U32].
Example ex_supported :
  match test_file with
  | Ok (W', nd', _) =>
    map (port_type W') (n_require nd') = map Some test_requires /\ distinct (macro_names W' (n_require nd')) = true /\
    map (port_type W') (n_provide nd') = map Some test_provides /\ distinct (macro_names W' (n_provide nd')) = true
  | Err _ => False
  end.
Proof. vm_compute. repeat split. Qed.

Example ex_data :
  match test_file with
  | Ok (W', nd', c) =>
    match node_data 100 W' nd' (fun _ => blank) 0 with
    | Ok (_, F', _, D) =>
      c_ininit c = [12; 255; 127; 1; 0; 0; 0; 1; 0; 0; 0; 255; 255; 255; 255; 255; 255; 255; 255; 255; 255; 210] /\ in_data F' D = c_ininit c /\
      out_data F' D = c_outinit c /\ c_outlen c = 20 /\ len (f_data (F' (d_def D))) = 492 /\
      denoted (c_literal c) = Some (f_data (F' (d_def D)) ++ [10])
    | Err _ => False
    end
  | Err _ => False
  end.
Proof. vm_compute. repeat split. Qed.

Example ex_write :
  match test_file with
  | Ok (_, _, c) =>
    match nth_error (c_writes c) 4 with
    | Some f =>
      cf_name f = lit "ApxNode_Write_Test_PU16ARPort" /\
      match call f (c_outinit c) (CArr [1; 258; 65535; 4660]) with
      | Some m => part_of test_provides (m_buf m) 4 = [1; 0; 2; 1; 255; 255; 52; 18] /\ m_out m = [(8, 8, false)] /\ m_lock m = false /\
          firstn 8 (m_buf m) = firstn 8 (c_outinit c) /\ skipn 16 (m_buf m) = skipn 16 (c_outinit c)
      | None => False
      end
    | None => False
    end
  | Err _ => False
  end.
Proof. vm_compute. repeat split. Qed.

Example ex_read :
  match test_file with
  | Ok (_, _, c) =>
    match nth_error (c_reads c) 1, nth_error (c_reads c) 6 with
    | Some f, Some g =>
      cf_name f = lit "ApxNode_Read_Test_RS16ARPort" /\ cf_name g = lit "ApxNode_Read_Test_SoundRequest" /\
      option_map m_val (call f (c_ininit c) (CArr [0; 0; 0])) = Some (CArr [32767; 1; 0]) /\
      option_map m_val (call g (c_ininit c) (CStruct [(lit "SoundId", CInt 0); (lit "Volume", CInt 0)])) =
        Some (CStruct [(lit "SoundId", CInt 65535); (lit "Volume", CInt 255)])
    | _, _ => False
    end
  | Err _ => False
  end.
Proof. vm_compute. repeat split. Qed.

(** The callbacks of RS16ARPort (1), RU8Port (3) and SoundRequest (6). *)
Definition blank_object (nm : str) : cval :=
  if str_eqb nm (lit "RU8Port") then CInt 0 else if str_eqb nm (lit "RS16ARPort") then CArr [0; 0; 0]
  else CStruct [(lit "SoundId", CInt 0); (lit "Volume", CInt 0)].
Example ex_callbacks :
  match test_file with
  | Ok (_, _, c) =>
    callbacks_called c (c_ininit c) blank_object 0 22 =
      Some [(lit "RS16ARPort_cb_func", CArr [32767; 1; 0]); (lit "RU8Port_cb_func", CInt 255);
            (lit "SoundRequest_cb_func", CStruct [(lit "SoundId", CInt 65535); (lit "Volume", CInt 255)])] /\
    callbacks_called c (c_ininit c) blank_object 7 5 = Some [(lit "RU8Port_cb_func", CInt 255)] /\
    callbacks_called c (c_ininit c) blank_object 12 6 = Some [] /\
    affected test_requires 7 5 = [2%nat; 3%nat]
  | Err _ => False
  end.
Proof. vm_compute. repeat split. Qed.

(** The calls in the switch and the variables of the union: the array and the record are passed by reference. *)
Example ex_arguments :
  match test_file with
  | Ok (_, _, c) =>
    match c_notifier c with
    | Switch _ parts vars =>
      map (fun k => (cl_port k, cl_func k, cl_array k, cl_ref k)) (flat_map (fun p => match p with PCase _ _ (Some k) => [k] | _ => [] end) parts) =
        [(lit "RS16ARPort", lit "RS16ARPort_cb_func", true, true); (lit "RU8Port", lit "RU8Port_cb_func", false, false);
         (lit "SoundRequest", lit "SoundRequest_cb_func", false, true)] /\
      map (fun v => match v with (n, _, l) => (n, l) end) vars = [(lit "RS16ARPort", Some 3); (lit "RU8Port", None); (lit "SoundRequest", None)]
    | _ => False
    end
  | Err _ => False
  end.
Proof. vm_compute. repeat split. Qed.

(** ** What does not hold *)

Definition gen_of (body : string) (callbacks : option (list (str * option str))) : res (world * node * cfile) :=
  of_text (lit ("APX/1.2
N""N""
" ++ body)) callbacks true.
Definition nth_write (r : res (world * node * cfile)) (i : nat) (x : cval) : option (bytes * list (Z * Z * bool)) :=
  match r with
  | Ok (_, _, c) => match nth_error (c_writes c) i with Some f => option_map (fun m => (m_buf m, m_out m)) (call f (c_outinit c) x) | None => None end
  | Err _ => None
  end.
Definition nth_read (r : res (world * node * cfile)) (i : nat) (buf : bytes) (x : cval) : option cval :=
  match r with
  | Ok (_, _, c) => match nth_error (c_reads c) i with Some f => option_map m_val (call f buf x) | None => None end
  | Err _ => None
  end.

(** A member whose type is a named record: nothing is generated for it, what follows
    it is put in its place, and only that is notified. *)
Theorem named_record_members_refuted :
  let r := gen_of "T""In""{""a""C""b""S}
T""Out""{""x""T[""In""]""y""C}
P""Port""T[""Out""]
" None in
  (match r with Ok (_, _, c) => c_outlen c | Err _ => 0 end) = 4 /\
  nth_write r 0 (CStruct [(lit "x", CStruct [(lit "a", CInt 1); (lit "b", CInt 2)]); (lit "y", CInt 3)]) =
    Some ([3; 0; 0; 0], [(0, 1, false)]).
Proof. vm_compute. repeat split. Qed.

(** A text that fills its port loses the last character when written; when read, the
    last character of the object stays as it was.  The virtual machine passes all
    characters on. *)
Theorem full_texts_refuted :
  let r := gen_of "P""Name""a[4]:=""""
R""Name""a[4]:=""""
" None in
  nth_write r 0 (CArr (lit "abcd")) = Some ([97; 98; 99; 0], [(0, 4, false)]) /\
  dec (TStr 4) (lit "abcd") = Some (VStr (lit "abcd")) /\
  nth_read r 0 (lit "abcd") (CArr (lit "zzzz")) = Some (CArr (lit "abcz")) /\
  nth_read r 0 [97; 98; 99; 0] (CArr (lit "zzzz")) = Some (CArr (lit "abcz")).
Proof. vm_compute. repeat split. Qed.

(** The generator sorts the ports of a node that is not finalized: the layout is not
    the layout of the node data built before. *)
Theorem unsorted_layout_refuted :
  let s := lit "APX/1.2
N""N""
R""B""S:=258
R""A""C:=7
" in
  match loads empty_world s with
  | Ok (W, nd) =>
    match node_data 100 W nd (fun _ => blank) 0, generate 100 [] W nd None None [] true with
    | Ok (_, F', _, D), Ok (_, _, c) => in_data F' D = [2; 1; 7] /\ c_ininit c = [7; 2; 1]
    | _, _ => False
    end
  | Err _ => False
  end.
Proof. vm_compute. repeat split. Qed.

(** Data that start in the middle of a port call nobody, not even for the ports that
    follow. *)
Theorem partial_data_refuted :
  match gen_of "R""A""S
R""B""C
" (Some [(lit "A", Some (lit "a_cb")); (lit "B", Some (lit "b_cb"))]) with
  | Ok (_, _, c) =>
    callbacks_called c [1; 2; 3] (fun _ => CInt 0) 0 3 = Some [(lit "a_cb", CInt 513); (lit "b_cb", CInt 3)] /\
    callbacks_called c [1; 2; 3] (fun _ => CInt 0) 1 2 = Some []
  | Err _ => False
  end /\ affected [TInt U16; TInt U8] 1 2 = [0%nat; 1%nat].
Proof. vm_compute. repeat split. Qed.

(** Names that differ in the case of letters only get the same macros: the file does
    not compile. *)
Theorem case_of_names_refuted :
  match gen_of "R""Aa""S
R""aA""C
" (Some [(lit "Aa", Some (lit "a_cb"))]) with
  | Ok (_, _, c) => c_offsets c = [(lit "APX_RX_OFFSET_AA", 0); (lit "APX_RX_OFFSET_AA", 2)] /\
      callbacks_called c [1; 2; 3] (fun _ => CInt 0) 0 3 = None
  | Err _ => False
  end.
Proof. vm_compute. repeat split. Qed.

(** An empty dictionary of callbacks. *)
Theorem no_callbacks_refuted : gen_of "R""A""S
" (Some []) = Err AttributeError.
Proof. vm_compute. reflexivity. Qed.

(** A backslash in a name is not escaped in the literal. *)
Theorem backslash_refuted :
  match gen_of "R""A\tB""C
" None with
  | Ok (W, nd, c) =>
    match context_dumps false W [nd], denoted (c_literal c) with
    | Ok text, Some s => s <> text ++ [10] /\ len s = len text
    | _, _ => False
    end
  | Err _ => False
  end.
Proof. vm_compute. split; [discriminate|reflexivity]. Qed.
Print Assumptions named_record_members_refuted.
Print Assumptions full_texts_refuted.
Print Assumptions unsorted_layout_refuted.
Print Assumptions partial_data_refuted.
Print Assumptions case_of_names_refuted.
Print Assumptions no_callbacks_refuted.
Print Assumptions backslash_refuted.
