(** The generated C files: header, callback header and source of a new or a used
    generator.  C72 and C73. *)
From Coq Require Import ZifyBool ZifyNat Lia Permutation.
From Verif Require Import Py PyLemmas TypesModel CompilerModel VmModel TypesSpec TypesProofs
  TextModel SigModel AttrModel NodeModel RmfModel FileModel NodeDataModel NodeDataProofs ParserModel
  GenModel GenSpec GenProofs3 GenProofs4 GenProofs5 GenTexts GenProps GenFilesModel GenFilesSpec GenFilesProofs.
Ltac Zify.zify_post_hook ::= Z.div_mod_to_equations.

(** A new generator writes a source file exactly if the model of the single call does,
    and then that source file. *)
Theorem fresh_generator version fuel sfx W nd name includes callbacks direct synced W' nd' L :
  (exists st' f, generate_files version fuel new_gen sfx W nd name includes callbacks direct synced = (st', Ok (W', nd', f)) /\ f_source f = L) <->
  (exists c, generate fuel sfx W nd name callbacks direct synced = Ok (W', nd', c) /\ L = source_lines version c).
Proof.
  split.
  - intros (st' & f & E & <-). apply files_ok in E as (nm & W1 & W2 & ins & outs & cbs & fs & En & Ef & Ei & Ec & Eo & Ea & Ew & Es).
    destruct (gen_files_signals _ _ _ _ _ _ _ _ _ _ Ei Eo) as (SW & Gi & Go).
    destruct (proj1 (write_fresh version fuel sfx W' nd' nm callbacks cbs fs direct synced ins outs (f_source f) Gi Ec) (ex_intro _ _ Ew)) as (c & Et & EL).
    exists c. split; [|exact EL]. apply generate_ok. exists nm, W1, W2, ins, outs, cbs. auto 10.
  - intros (c & G & ->). apply generate_ok in G as (nm & W1 & W2 & ins & outs & cbs & En & Ef & Ei & Ec & Eo & Et).
    destruct (gen_files_signals _ _ _ _ _ _ _ _ _ _ Ei Eo) as (SW & Gi & Go).
    pose proof (add_functions_fresh _ _ _ _ _ _ _ Gi Ec) as Ea. destruct (add_functions (w_types W') (by_offset (g_pending (grown new_gen cbs)))) as [fs failed] eqn:EA.
    cbn [snd] in Ea. subst failed.
    destruct (proj2 (write_fresh version fuel sfx W' nd' nm callbacks cbs fs direct synced ins outs (source_lines version c) Gi Ec) (ex_intro _ c (conj Et eq_refl))) as (st' & Ew).
    exists st'. eexists (mk_cfiles _ _ (source_lines version c)). split; [|reflexivity]. apply files_ok. exists nm, W1, W2, ins, outs, cbs, fs.
    do 6 (split; [eassumption|]). split; [exact Ew|reflexivity].
Qed.
Print Assumptions fresh_generator.

(** ** Header and source *)

Lemma input_iff fuel nm W' nd' ins : signals fuel Unpack nm W' 0 (n_require nd') ins -> has_input fuel W' nd' <-> 0 < sum_lens ins.
Proof.
  unfold has_input. generalize 0 at 1 as off. generalize (n_require nd') as ports. clear nd'. intros ports. revert ins.
  induction ports as [|o r IH]; intros [|s l] off G; cbn [signals] in *; try contradiction; cbn [sum_lens].
  - split; [intros X; inversion X|lia].
  - destruct G as [G1 G2]. pose proof (signals_nonneg _ _ _ _ _ _ _ G2) as F. apply sum_nonneg in F.
    pose proof (sg_initlen _ _ _ _ _ _ _ G1) as L. assert (0 <= si_len s) by (rewrite <- L; unfold len; lia).
    pose proof (sg_len _ _ _ _ _ _ _ G1) as P. specialize (IH _ _ G2). rewrite Exists_cons, IH. split.
    + intros [(n & E & Q)|Q]; [|lia]. rewrite P in E. injection E as <-. lia.
    + intros Q. destruct (Z.ltb_spec 0 (si_len s)) as [Y|Y]; [left; exists (si_len s); auto|right; lia].
Qed.

Lemma gen_funcs_heads H sfx op direct l fs : NoDup (map si_name l) -> gen_funcs H sfx op direct l l = Ok fs ->
  map fun_head fs = map proto_text (map signal_proto l).
Proof.
  intros ND. enough (forall sigs fs, (forall x, In x sigs -> In x l) -> gen_funcs H sfx op direct l sigs = Ok fs -> map fun_head fs = map proto_text (map signal_proto sigs)) as X by (apply X; auto).
  induction sigs as [|x sigs IH]; intros gs I E; cbn [gen_funcs] in E; [injection E as <-; reflexivity|].
  rewrite (sig_of_here l x ND (I x (or_introl eq_refl))) in E. cbn [bind] in E.
  apply bind_ok in E as ([body n] & E1 & E). apply bind_ok in E as (fs' & E2 & E). injection E as <-.
  cbn [map]. f_equal. exact (IH _ (fun y J => I y (or_intror J)) E2).
Qed.

Lemma write_source_inv version st sfx W nd nm hc direct synced ins outs st' L :
  write_source version st sfx W nd nm hc direct synced ins outs = (st', Ok L) ->
  exists c, L = source_front version c ++ notifier_text (g_notify st) (c_notifier c) ++ heading "LOCAL FUNCTIONS" /\
    c_name c = nm /\ c_node c = n_name nd /\ c_callbacks c = hc /\
    gen_funcs (w_types W) sfx Unpack direct ins ins = Ok (c_reads c) /\ gen_funcs (w_types W) sfx Pack direct outs outs = Ok (c_writes c) /\
    make_notifier (w_types W) (g_notify st) hc (by_offset (g_pending st)) (g_vars st) = Ok (c_notifier c).
Proof.
  unfold write_source. intros E. match type of E with match ?t with _ => _ end = _ => destruct t as [c|e] eqn:T end; [|discriminate]. injection E as _ <-.
  exists c. split; [reflexivity|]. apply bind_ok in T as (text & _ & T).
  apply bind_ok in T as (oi & Eoi & T). apply bind_ok in T as (ii & Eii & T).
  apply bind_ok in T as (reads & Er & T). apply bind_ok in T as (writes & Ew & T).
  apply bind_ok in T as (nt & Ent & T). cbn zeta in T. injection T as <-. cbn [c_name c_node c_callbacks c_reads c_writes c_notifier]. auto 10.
Qed.

Lemma declared_defined version fuel st sfx W nd name includes callbacks direct synced st' W' nd' f :
  generate_files version fuel st sfx W nd name includes callbacks direct synced = (st', Ok (W', nd', f)) ->
  NoDup (port_names W' (n_require nd')) -> NoDup (port_names W' (n_provide nd')) ->
  exists nm ins outs extra, signals fuel Unpack nm W' 0 (n_require nd') ins /\ signals fuel Pack nm W' 0 (n_provide nd') outs /\
    (match name with Some s => Some s | None => n_name nd end) = Some nm /\
    (has_input fuel W' nd' -> extra = [notify_proto (notify_name nm)]) /\
    (~ has_input fuel W' nd' -> extra = match g_notify st with Some x => [notify_proto x] | None => [] end) /\
    declared (f_header f) = map proto_text (node_protos nm ++ map signal_proto (ins ++ outs) ++ (if 0 <? sum_lens ins then [notify_proto (notify_name nm)] else [])) /\
    defined (f_source f) = map proto_text (node_protos nm ++ map signal_proto (ins ++ outs) ++ extra).
Proof.
  intros E N1 N2. apply files_ok in E as (nm & W1 & W2 & ins & outs & cbs & fs & En & Ef & Ei & Ec & Eo & Ea & Ew & Es).
  destruct (gen_files_signals _ _ _ _ _ _ _ _ _ _ Ei Eo) as (SW & Gi & Go). apply write_source_inv in Ew as (c & EL & Cn & _ & _ & Er & Ewr & Ent).
  cbn [ready g_notify g_pending g_vars] in *.
  exists nm, ins, outs, (match (if 0 <? sum_lens ins then Some (notify_name nm) else g_notify st) with Some x => [notify_proto x] | None => [] end).
  split; [exact Gi|]. split; [exact Go|]. split; [exact En|].
  pose proof (input_iff _ _ _ _ _ Gi) as HI. split; [intros X; apply HI in X; destruct (Z.ltb_spec 0 (sum_lens ins)); [reflexivity|lia]|].
  split; [intros X; rewrite HI in X; destruct (Z.ltb_spec 0 (sum_lens ins)); [lia|reflexivity]|].
  split; [rewrite Es; cbn [f_header]; apply declared_header|].
  rewrite EL, defined_source, Cn, !map_app. f_equal.
  unfold port_names in N1, N2. rewrite <- (signals_names _ _ _ _ _ _ _ Gi) in N1. rewrite <- (signals_names _ _ _ _ _ _ _ Go) in N2.
  rewrite (gen_funcs_heads _ _ _ _ _ _ N1 Er), (gen_funcs_heads _ _ _ _ _ _ N2 Ewr), <- !app_assoc. f_equal. f_equal.
  unfold make_notifier in Ent. destruct (if 0 <? sum_lens ins then Some (notify_name nm) else g_notify st) as [x|]; [|reflexivity].
  destruct (given callbacks); [apply bind_ok in Ent as (ps & _ & Ent)|]; injection Ent as <-; reflexivity.
Qed.

(** The header declares exactly the functions the source defines, in the same order
    and with the same text. *)
Theorem header_declares version fuel st sfx W nd name includes callbacks direct synced st' W' nd' f :
  generate_files version fuel st sfx W nd name includes callbacks direct synced = (st', Ok (W', nd', f)) ->
  NoDup (port_names W' (n_require nd')) -> NoDup (port_names W' (n_provide nd')) ->
  has_input fuel W' nd' \/ g_notify st = None ->
  declared (f_header f) = defined (f_source f).
Proof.
  intros E N1 N2 C. destruct (declared_defined _ _ _ _ _ _ _ _ _ _ _ _ _ _ _ E N1 N2) as (nm & ins & outs & extra & Gi & _ & _ & X1 & X2 & -> & ->).
  do 3 f_equal. pose proof (input_iff _ _ _ _ _ Gi) as HI. destruct (Z.ltb_spec 0 (sum_lens ins)) as [L|L].
  - symmetry. apply X1, HI, L.
  - destruct C as [C|C]; [apply HI in C; lia|]. rewrite X2; [rewrite C; reflexivity|]. rewrite HI. lia.
Qed.
Print Assumptions header_declares.

(** ** No function twice *)

Lemma upto_app a r : ~ In 40 a -> upto 40 (a ++ 40 :: r) = a.
Proof.
  induction a as [|x a IH]; intros N; cbn [app upto].
  - reflexivity.
  - destruct (Z.eqb_spec x 40) as [->|X]; [destruct N; left; reflexivity|]. f_equal. apply IH. intros I. apply N. right. exact I.
Qed.
Lemma last_word_plain n : one_word n -> forall acc, last_word acc n = rev acc ++ n.
Proof.
  induction 1 as [|x n A B IH]; intros acc; cbn [last_word]; [rewrite app_nil_r; reflexivity|].
  destruct (Z.eqb_spec x 32) as [?|_]; [tauto|]. destruct (Z.eqb_spec x 42) as [?|_]; [tauto|]. cbn [orb]. rewrite IH. cbn [rev]. rewrite <- app_assoc. reflexivity.
Qed.
Lemma last_word_skip n a : forall acc, last_word acc (a ++ 32 :: n) = last_word [] n.
Proof. induction a as [|x a IH]; intros acc; cbn [app last_word]; [reflexivity|]. destruct ((x =? 32) || (x =? 42)); apply IH. Qed.
Lemma function_name_proto p : ~ In 40 (cp_ret p) -> one_word (cp_name p) -> function_name (proto_text p) = cp_name p.
Proof.
  intros R N. unfold function_name, proto_text. set (T := match cp_params p with [] => _ | _ => _ end ++ _). clearbody T.
  replace (cp_ret p ++ (if cp_star p then lit " * " else lit " ") ++ cp_name p ++ lit "(" ++ T)
    with ((cp_ret p ++ (if cp_star p then lit " * " else lit " ") ++ cp_name p) ++ 40 :: T) by (rewrite <- !app_assoc; reflexivity).
  rewrite upto_app.
  - destruct (cp_star p).
    + replace (cp_ret p ++ lit " * " ++ cp_name p) with ((cp_ret p ++ lit " *") ++ 32 :: cp_name p) by (rewrite <- app_assoc; reflexivity).
      rewrite last_word_skip. apply (last_word_plain _ N).
    + change (cp_ret p ++ lit " " ++ cp_name p) with (cp_ret p ++ 32 :: cp_name p). rewrite last_word_skip. apply (last_word_plain _ N).
  - intros I. apply in_app_or in I as [I|I]; [auto|]. apply in_app_or in I as [I|I].
    + destruct (cp_star p); cbn in I; intuition discriminate.
    + unfold one_word in N. rewrite Forall_forall in N. destruct (N _ I) as (_ & X & _). congruence.
Qed.
Lemma one_word_app a b : one_word (a ++ b) <-> one_word a /\ one_word b.
Proof. apply Forall_app. Qed.

Definition text_names (W : world) (ports : list nat) : list str := map (fun o => opt_text (pt_name (w_ports W o))) ports.
Lemma text_names_distinct W ports : NoDup (text_names W ports) -> NoDup (port_names W ports).
Proof. unfold text_names, port_names. rewrite <- (map_map (fun o => pt_name (w_ports W o)) opt_text). apply NoDup_map_inv. Qed.
Lemma signal_funcs fuel op nm W : forall ports off sigs, signals fuel op nm W off ports sigs ->
  map si_func sigs = map (fun x => lit "ApxNode_" ++ (match op with Pack => lit "Write_" | Unpack => lit "Read_" end) ++ nm ++ lit "_" ++ x) (text_names W ports).
Proof.
  induction ports as [|o r IH]; intros off [|s l] G; cbn [signals] in *; try contradiction; [reflexivity|].
  destruct G as [G1 G2]. cbn [map text_names]. f_equal; [|exact (IH _ _ G2)]. rewrite (sg_func _ _ _ _ _ _ _ G1). reflexivity.
Qed.

(** The lengths would force a port name of four or three characters. *)
Lemma tail_of (a b c d : str) n : a ++ b = c ++ d -> length b = n -> length d = n -> b = d.
Proof.
  intros E L1 L2. assert (length a = length c) as L by (apply (f_equal (@length Z)) in E; rewrite !app_length in E; lia).
  apply (f_equal (skipn (length a))) in E. rewrite skipn_app, skipn_all, Nat.sub_diag in E. rewrite ?L in E. rewrite skipn_app, skipn_all, Nat.sub_diag in E. exact E.
Qed.
Lemma notify_not_read nm y : lit "ApxNode_Read_" ++ nm ++ lit "_" ++ y = nm ++ lit "_inPortDataWritten" -> False.
Proof.
  intros E. assert (length y = 4%nat) as L by (apply (f_equal (@length Z)) in E; rewrite !app_length in E; cbn in E; lia).
  change (nm ++ lit "_inPortDataWritten") with (nm ++ lit "_inPortDataWr" ++ lit "itten") in E. rewrite !app_assoc in E. rewrite <- (app_assoc _ (lit "_")) in E.
  apply (tail_of _ _ _ _ 5) in E; [|rewrite app_length, L; reflexivity|reflexivity]. discriminate.
Qed.
Lemma notify_not_write nm y : lit "ApxNode_Write_" ++ nm ++ lit "_" ++ y = nm ++ lit "_inPortDataWritten" -> False.
Proof.
  intros E. assert (length y = 3%nat) as L by (apply (f_equal (@length Z)) in E; rewrite !app_length in E; cbn in E; lia).
  change (nm ++ lit "_inPortDataWritten") with (nm ++ lit "_inPortDataWri" ++ lit "tten") in E. rewrite !app_assoc in E. rewrite <- (app_assoc _ (lit "_")) in E.
  apply (tail_of _ _ _ _ 4) in E; [|rewrite app_length, L; reflexivity|reflexivity]. discriminate.
Qed.

(** Neither the source nor the header has two functions of the same name. *)
Theorem no_function_twice version fuel st sfx W nd name includes callbacks direct synced st' W' nd' f nm :
  generate_files version fuel st sfx W nd name includes callbacks direct synced = (st', Ok (W', nd', f)) ->
  NoDup (text_names W' (n_require nd')) -> NoDup (text_names W' (n_provide nd')) ->
  (match name with Some s => Some s | None => n_name nd end) = Some nm -> one_word nm ->
  Forall one_word (text_names W' (n_require nd')) -> Forall one_word (text_names W' (n_provide nd')) ->
  has_input fuel W' nd' \/ g_notify st = None ->
  NoDup (map function_name (defined (f_source f))) /\ NoDup (map function_name (declared (f_header f))).
Proof.
  intros E N1 N2 En On O1 O2 C. assert (declared (f_header f) = defined (f_source f)) as DD by (eapply header_declares; eauto using text_names_distinct).
  rewrite DD. enough (NoDup (map function_name (defined (f_source f)))) by auto.
  destruct (declared_defined _ _ _ _ _ _ _ _ _ _ _ _ _ _ _ E (text_names_distinct _ _ N1) (text_names_distinct _ _ N2)) as (nm' & ins & outs & extra & Gi & Go & En' & X1 & X2 & _ & ->).
  rewrite En in En'. injection En' as <-.
  assert (extra = [] \/ extra = [notify_proto (notify_name nm)]) as EX.
  { pose proof (input_iff _ _ _ _ _ Gi) as HI. destruct (Z.ltb_spec 0 (sum_lens ins)) as [L|L]; [right; apply X1, HI, L|].
    left. destruct C as [C|C]; [apply HI in C; lia|]. rewrite X2; [rewrite C; reflexivity|]. rewrite HI. lia. }
  pose proof (signal_funcs _ _ _ _ _ _ _ Gi) as Fi. pose proof (signal_funcs _ _ _ _ _ _ _ Go) as Fo.
  set (protos := node_protos nm ++ map signal_proto (ins ++ outs) ++ extra).
  assert (map cp_name protos = [lit "ApxNode_Init_" ++ nm; lit "ApxNode_GetNodeData_" ++ nm; lit "ApxNode_IsConnected_" ++ nm]
    ++ (map (fun x => lit "ApxNode_Read_" ++ nm ++ lit "_" ++ x) (text_names W' (n_require nd')) ++ map (fun x => lit "ApxNode_Write_" ++ nm ++ lit "_" ++ x) (text_names W' (n_provide nd')))
    ++ map cp_name extra) as EN.
  { unfold protos. rewrite !map_app, !map_map. cbn [signal_proto cp_name].
    change (map (fun x : siginfo => si_func x) ins) with (map si_func ins). change (map (fun x : siginfo => si_func x) outs) with (map si_func outs). rewrite Fi, Fo. reflexivity. }
  assert (Forall one_word (map cp_name protos)) as OW.
  { assert (forall s : string, forallb (fun c => negb (c =? 32) && negb (c =? 40) && negb (c =? 42)) (lit s) = true -> one_word (lit s)) as K.
    { intros s X. apply Forall_forall. intros c I. rewrite forallb_forall in X. specialize (X c I). lia. }
    rewrite EN, !Forall_app. repeat apply conj.
    - do 3 (apply Forall_cons; [apply one_word_app; split; [apply K; reflexivity|exact On]|]). apply Forall_nil.
    - apply Forall_forall. intros x I. apply in_map_iff in I as (y & <- & I). rewrite Forall_forall in O1. rewrite !one_word_app. repeat apply conj; auto; apply K; reflexivity.
    - apply Forall_forall. intros x I. apply in_map_iff in I as (y & <- & I). rewrite Forall_forall in O2. rewrite !one_word_app. repeat apply conj; auto; apply K; reflexivity.
    - destruct EX as [->| ->]; cbn [map]; [constructor|]. constructor; [|constructor]. cbn [notify_proto cp_name]. unfold notify_name. apply one_word_app. split; [exact On|]. apply K. reflexivity. }
  assert (map function_name (map proto_text protos) = map cp_name protos) as ->.
  { rewrite map_map. apply map_ext_in. intros p I. apply function_name_proto.
    - assert (In (cp_ret p) [lit "apx_nodeData_t"; lit "bool"; lit "Std_ReturnType"; lit "void"]) as J.
      { unfold protos in I. apply in_app_or in I as [I|I]; [cbn in I; decompose [or] I; subst; cbn; tauto|].
        apply in_app_or in I as [I|I]; [apply in_map_iff in I as (s & <- & _); cbn; tauto|]. destruct EX as [->| ->]; [destruct I|]. destruct I as [<-|[]]. cbn. tauto. }
      intros K. cbn [In] in J. destruct J as [J|[J|[J|[J|[]]]]]; rewrite <- J in K; revert K; vm_compute; intuition discriminate.
    - rewrite Forall_forall in OW. apply OW. apply in_map. exact I. }
  rewrite EN.
  assert (forall p (a b : str), lit p ++ nm ++ lit "_" ++ a = lit p ++ nm ++ lit "_" ++ b -> a = b) as INJ.
  { intros p a b X. apply app_inv_head in X. apply app_inv_head in X. apply app_inv_head in X. exact X. }
  apply NoDup_app'; [|apply NoDup_app'; [apply NoDup_app'|destruct EX as [->| ->]; repeat constructor; intros []|]|].
  - repeat constructor; cbn [In]; intros K; decompose [or] K; try contradiction;
      match goal with H : _ ++ nm = _ ++ nm |- _ => first [apply (f_equal (fun l : str => nth_error l 8)) in H; discriminate|apply (f_equal (fun l : str => nth_error l 9)) in H; discriminate] end.
  - apply nodup_map; [apply INJ|exact N1].
  - apply nodup_map; [apply INJ|exact N2].
  - intros x A B. apply in_map_iff in A as (y & <- & _). apply in_map_iff in B as (z & B & _). apply (f_equal (fun l : str => nth_error l 8)) in B. discriminate.
  - intros x A B. destruct EX as [->| ->]; [destruct B|]. destruct B as [<-|[]]. cbn [notify_proto cp_name] in A. unfold notify_name in A.
    apply in_app_or in A as [A|A]; apply in_map_iff in A as (y & A & _).
    + exact (notify_not_read _ _ A).
    + exact (notify_not_write _ _ A).
  - intros x A B. apply in_app_or in B as [B|B].
    + apply in_app_or in B as [B|B]; apply in_map_iff in B as (y & <- & _); cbn [In] in A; decompose [or] A; try contradiction;
        match goal with H : _ = _ |- _ => first [apply (f_equal (fun l : str => nth_error l 8)) in H; discriminate] end.
    + destruct EX as [->| ->]; [destruct B|]. destruct B as [<-|[]]. cbn [notify_proto cp_name] in A. unfold notify_name in A.
      cbn [In] in A. decompose [or] A; try contradiction; match goal with H : _ = _ |- _ => apply (f_equal (@length Z)) in H; rewrite !app_length in H; cbn in H; lia end.
Qed.
Print Assumptions no_function_twice.

(** ** The callbacks *)

Lemma signals_length fuel op name W : forall ports off sigs, signals fuel op name W off ports sigs -> length sigs = length ports.
Proof. intros ports off sigs G. apply signals_names in G. apply (f_equal (@length _)) in G. rewrite !map_length in G. exact G. Qed.

Lemma chained_order a l x r y : Forall (fun s => 0 <= si_len s) (l ++ x :: r) -> chained a (l ++ x :: r) -> In y r -> si_offset x <= si_offset y.
Proof.
  intros F C I. apply chained_app in C as [_ C]. apply Forall_app in F as [_ F]. inversion F as [|? ? F1 F2]; subst. destruct C as [E C].
  pose proof (chained_later _ _ y F2 C I). lia.
Qed.
Lemma between l a c : chained a (map cb_sig l) -> Forall (fun s => 0 <= si_len s) (map cb_sig l) -> In c l -> has_func c = true ->
  exists f, first_callback l = Some f /\ si_offset (cb_sig f) <= si_offset (cb_sig c) <= last_offset l.
Proof.
  intros C F I HF.
  assert (exists f, first_callback l = Some f /\ si_offset (cb_sig f) <= si_offset (cb_sig c)) as (f & Ef & L1).
  { unfold first_callback. destruct (find has_func l) as [f|] eqn:E.
    - exists f. split; [reflexivity|]. apply find_split in E as (p & q & -> & _ & N). apply in_app_or in I as [I|[->|I]]; [|lia|].
      + rewrite Forall_forall in N. rewrite (N _ I) in HF. discriminate.
      + rewrite map_app in C, F. cbn [map] in C, F. apply (chained_order _ _ _ _ _ F C). apply in_map. exact I.
    - exfalso. apply (find_none _ _ E) in I. congruence. }
  exists f. split; [exact Ef|]. split; [exact L1|]. unfold last_offset. destruct (find has_func (rev l)) as [x|] eqn:E.
  - apply find_split in E as (p & q & E & _ & N). assert (l = rev q ++ x :: rev p) as El.
    { rewrite <- (rev_involutive l), E, rev_app_distr. cbn [rev]. rewrite <- app_assoc. reflexivity. }
    rewrite El in I, C, F. apply in_app_or in I as [I|[->|I]]; [|lia|].
    + apply in_split in I as (u & v & I). rewrite I, <- app_assoc in C, F. cbn [app] in C, F. rewrite map_app in C, F. cbn [map] in C, F.
      apply (chained_order _ _ _ _ _ F C). apply in_map. apply in_or_app. right. left. reflexivity.
    + apply in_rev in I. rewrite Forall_forall in N. rewrite (N _ I) in HF. discriminate.
  - exfalso. assert (In c (rev l)) as J by (apply in_rev in I; exact I). apply (find_none _ _ E) in J. congruence.
Qed.

Definition call_pair (H : theap) (l : list callback) (k : cbcall) (p : cproto) : Prop :=
  exists c f ref, In c l /\ cb_func c = Some f /\ isComplexType H (si_target (cb_sig c)) = Ok ref /\
    k = mk_cbcall (opt_text (si_name (cb_sig c))) (si_func (cb_sig c)) f (match arrayLen (si_target (cb_sig c)) with Some _ => true | None => false end) ref /\
    p = mk_cproto (lit "void") false f [(si_type (cb_sig c), ref, lit "value")].
Lemma f2_imp {A B} (P Q : A -> B -> Prop) a b : (forall x y, P x y -> Q x y) -> Forall2 P a b -> Forall2 Q a b.
Proof. intros I. induction 1; constructor; auto. Qed.
Lemma calls_app a b : calls (a ++ b) = calls a ++ calls b.
Proof. apply flat_map_app. Qed.
Lemma calls_paired H first last fs : forall l w parts, switch_parts H first last w l = Ok parts -> add_functions H l = (fs, None) ->
  (forall c, In c l -> has_func c = true -> exists f, first = Some f /\ si_offset (cb_sig f) <= si_offset (cb_sig c) <= last) ->
  Forall2 (call_pair H l) (calls parts) fs.
Proof.
  intros l. revert fs. induction l as [|c l IH]; intros fs w parts E A B; cbn [switch_parts add_functions] in *.
  - injection E as <-. injection A as <-. constructor.
  - assert (forall w' xs gs, switch_parts H first last w' l = Ok xs -> add_functions H l = (gs, None) -> Forall2 (call_pair H (c :: l)) (calls xs) gs) as R.
    { intros w' xs gs X Y. eapply f2_imp; [|apply (IH gs w' xs X Y); intros c0 I; apply B; right; exact I].
      intros k p (c0 & f & ref & I & Q). exists c0, f, ref. split; [right; exact I|exact Q]. }
    assert (calls (if w then [PComment (cb_offset_define c)] else []) = []) as CC by (destruct w; reflexivity).
    destruct (cb_func c) as [g|] eqn:G.
    + destruct (B c (or_introl eq_refl)) as (f & -> & L1 & L2); [unfold has_func; rewrite G; reflexivity|].
      destruct (Z.leb_spec (si_offset (cb_sig c)) last) as [_|?]; [|lia]. destruct (Z.leb_spec (si_offset (cb_sig f)) (si_offset (cb_sig c))) as [_|?]; [|lia].
      unfold code_fragment in E. rewrite G in E. destruct (isComplexType H (si_target (cb_sig c))) as [ref|e] eqn:IC; [|discriminate]. cbn [bind] in E.
      apply bind_ok in E as (xs & X & E). injection E as <-. destruct (add_functions H l) as [gs e] eqn:AF. injection A as <- ->.
      rewrite calls_app, CC. cbn [app].
      cbn [calls flat_map app]. constructor; [|exact (R _ _ _ X eq_refl)]. exists c, g, ref. split; [left; reflexivity|]. auto.
    + assert (forall y, code_fragment H c = Ok y -> calls [y] = []) as CF by (unfold code_fragment; rewrite G; intros y Y; injection Y as <-; reflexivity).
      destruct (si_offset (cb_sig c) <=? last).
      * destruct first as [f|]; [|discriminate]. destruct (si_offset (cb_sig f) <=? si_offset (cb_sig c)).
        -- apply bind_ok in E as (y & Y & E). apply bind_ok in E as (xs & X & E). injection E as <-. rewrite calls_app, CC. change (y :: xs) with ([y] ++ xs). rewrite calls_app, (CF _ Y). exact (R _ _ _ X A).
        -- apply bind_ok in E as (xs & X & E). injection E as <-. rewrite calls_app, CC. exact (R _ _ _ X A).
      * apply bind_ok in E as (xs & X & E). injection E as <-. rewrite calls_app, CC. exact (R _ _ _ X A).
Qed.

Lemma insert_name_perm {A} (key : A -> str) x l : Permutation (insert_name key x l) (x :: l).
Proof.
  induction l as [|y r IH]; cbn [insert_name]; [apply Permutation_refl|]. destruct (str_ltb _ _); [apply Permutation_refl|].
  eapply Permutation_trans; [apply perm_skip; exact IH|]. apply perm_swap.
Qed.
Lemma sorted_perm {A} (key : A -> str) l : Permutation (fold_right (insert_name key) [] l) l.
Proof.
  induction l as [|x l IH]; [constructor|]. cbn [fold_right]. eapply Permutation_trans; [apply insert_name_perm|]. constructor. exact IH.
Qed.
Lemma nodup_filter {A B} (key : A -> B) (p : A -> bool) l : NoDup (map key l) -> NoDup (map key (filter p l)).
Proof.
  induction l as [|x l IH]; intros N; cbn [filter map] in *; [constructor|]. inversion N as [|? ? N1 N2]; subst. destruct (p x); [|auto].
  cbn [map]. constructor; [|auto]. intros I. apply N1. apply in_map_iff in I as (y & E & I). apply filter_In in I as [I _]. apply in_map_iff. eauto.
Qed.

Lemma callbacks_typed version fuel sfx W nd name includes m direct synced st' W' nd' f c guard parts vars :
  generate_files version fuel new_gen sfx W nd name includes (Some m) direct synced = (st', Ok (W', nd', f)) ->
  generate fuel sfx W nd name (Some m) direct synced = Ok (W', nd', c) -> c_notifier c = Switch guard parts vars ->
  NoDup (text_names W' (n_require nd')) ->
  exists nm protos, (match name with Some s => Some s | None => n_name nd end) = Some nm /\ f_cbk f = Some (cbk_lines nm protos) /\
    Forall2 (well_typed vars (c_reads c)) (calls parts) protos.
Proof.
  intros E G EN ND. apply files_ok in E as (nm & W1 & W2 & ins & outs & cbs & fs & En & Ef & Ei & Ec & Eo & Ea & Ew & Es).
  apply generate_ok in G as (nm' & W1' & W2' & ins' & outs' & cbs' & En' & Ef' & Ei' & Ec' & Eo' & Et).
  assert (nm' = nm /\ W1' = W1) as (-> & ->) by (split; congruence). assert (W2' = W2 /\ ins' = ins) as (-> & ->) by (split; congruence). assert (cbs' = cbs /\ outs' = outs) as (-> & ->) by (split; congruence).
  destruct (gen_files_signals _ _ _ _ _ _ _ _ _ _ Ei Eo) as (SW & Gi & Go).
  destruct cbs as [l|]; [|cbn in Ec; apply bind_ok in Ec as (? & _ & Ec); discriminate].
  destruct (made_sorted _ _ _ _ _ _ _ Gi Ec l eq_refl) as (B & Sl & m' & Em & El). injection Em as <-. cbn [grown g_pending new_gen app] in Ea. rewrite B in Ea.
  exists nm, fs. rewrite Es. cbn [f_cbk given g_funs new_gen app]. split; [exact En|]. split; [reflexivity|].
  unfold generate_tail in Et. apply bind_ok in Et as (text & _ & T). apply bind_ok in T as (oi & Eoi & T). apply bind_ok in T as (ii & Eii & T).
  apply bind_ok in T as (reads & Er & T). apply bind_ok in T as (writes & Ewr & T). apply bind_ok in T as (nt & Ent & T). injection T as <-. cbn [c_notifier c_reads] in *. subst nt.
  unfold gen_notifier in Ent. destruct (sum_lens ins =? 0); [discriminate|]. apply bind_ok in Ent as (ps & SP & Ent). injection Ent as _ -> <-.
  pose proof (signals_chained _ _ _ _ _ _ _ Gi) as Ch. pose proof (signals_nonneg _ _ _ _ _ _ _ Gi) as Nn.
  assert (NoDup (map (fun s => opt_text (si_name s)) ins)) as ND'.
  { unfold text_names in ND. rewrite <- (map_map si_name opt_text), (signals_names _ _ _ _ _ _ _ Gi), map_map. exact ND. }
  assert (NoDup (map si_name ins)) as NDn by (rewrite <- (map_map si_name opt_text) in ND'; exact (NoDup_map_inv _ _ ND')).
  assert (NoDup (map si_func ins)) as NDf.
  { rewrite (signal_funcs _ _ _ _ _ _ _ Gi). apply nodup_map; [|exact ND]. intros x y X. do 4 apply app_inv_head in X. exact X. }
  eapply f2_imp; [|apply (calls_paired _ _ _ _ _ _ _ SP Ea)].
  - intros k p (cb & g & ref & I & Fg & IC & -> & ->).
    assert (In (cb_sig cb) ins) as Is by (rewrite <- Sl; apply in_map; exact I).
    exists (si_type (cb_sig cb)), (arrayLen (si_target (cb_sig cb))). cbn [cl_port cl_read cl_func cl_array cl_ref cp_ret cp_star cp_name cp_params].
    split; [|split; [destruct (arrayLen (si_target (cb_sig cb))); split; congruence|split; [|split; [|auto]]]].
    + assert (In (cb_var cb) (fold_right (insert_name (fun v => fst (fst v))) [] (rev (map cb_var (filter has_func l))))) as Iv.
      { rewrite sorted_in, <- in_rev. apply in_map. apply filter_In. split; [exact I|]. unfold has_func. rewrite Fg. reflexivity. }
      refine (filter_key (fun v : str * option str * option Z => fst (fst v)) _ (cb_var cb) _ Iv).
      eapply Permutation_NoDup; [apply Permutation_map; apply Permutation_sym; apply sorted_perm|]. rewrite map_rev. apply NoDup_rev.
      rewrite map_map. cbn [cb_var fst]. apply nodup_filter. rewrite <- (map_map cb_sig (fun s => opt_text (si_name s))), Sl. exact ND'.
    + intros A. unfold isComplexType in IC. destruct (si_target (cb_sig cb)) as [? ? ? ? [?|]| |]; cbn in *; congruence.
    + apply In_nth_error in Is as (i & Ni). destruct (gen_funcs_nth _ _ _ _ _ NDn _ _ i _ (fun x J => J) Er Ni) as (body & n & Nf & _).
      eexists. split; [|split; [|]].
      * apply (filter_key cf_name) with (x := mk_cfun (si_func (cb_sig cb)) (si_type (cb_sig cb)) (si_pointer (cb_sig cb)) body); [|exact (nth_error_In _ _ Nf)].
        rewrite (gen_funcs_all _ _ _ _ _ NDn _ _ (fun x J => J) Er). exact NDf.
      * reflexivity.
      * cbn [cf_pointer]. pose proof (signals_length _ _ _ _ _ _ _ Gi) as SL. destruct (nth_error (n_require nd') i) as [o|] eqn:No.
        -- destruct (signals_nth _ _ _ _ _ _ _ _ _ Gi No) as (s' & Ns' & S'). assert (s' = cb_sig cb) by congruence. subst s'. pose proof (sg_pointer _ _ _ _ _ _ _ S') as Q. cbn in Q. congruence.
        -- apply nth_error_None in No. assert (i < length ins)%nat by (apply nth_error_Some; congruence). lia.
  - intros c0 I HF. apply (between l 0); [rewrite Sl; exact Ch|rewrite Sl; exact Nn|exact I|exact HF].
Qed.
(** A new generator: the callback header declares exactly the called functions, in the
    order of the calls, and the types of the union, the Read functions and the
    prototypes agree. *)
Theorem callbacks_declared version fuel sfx W nd name includes m direct synced st' W' nd' f c guard parts vars :
  generate_files version fuel new_gen sfx W nd name includes (Some m) direct synced = (st', Ok (W', nd', f)) ->
  generate fuel sfx W nd name (Some m) direct synced = Ok (W', nd', c) -> c_notifier c = Switch guard parts vars ->
  NoDup (text_names W' (n_require nd')) ->
  exists cbk protos, f_cbk f = Some cbk /\ declared cbk = map proto_text protos /\ Forall2 (well_typed vars (c_reads c)) (calls parts) protos.
Proof.
  intros E G EN ND. destruct (callbacks_typed _ _ _ _ _ _ _ _ _ _ _ _ _ _ _ _ _ _ E G EN ND) as (nm & protos & _ & EC & F).
  exists (cbk_lines nm protos), protos. split; [exact EC|]. split; [apply declared_cbk|exact F].
Qed.
Print Assumptions callbacks_declared.

(** ** The function the initialisation installs *)

Lemma finalize_name sort compact W nd W' nd' : finalize sort compact W nd = Ok (W', nd') -> n_name nd' = n_name nd.
Proof.
  unfold finalize. destruct (n_final nd); [congruence|]. intros E. apply bind_ok in E as (nd1 & E1 & E). apply bind_ok in E as (W1 & _ & E).
  injection E as _ <-. cbn [n_name]. unfold sort_elements in E1.
  apply bind_ok in E1 as (ts & _ & E1). destruct sort; [apply bind_ok in E1 as (rs & _ & E1); apply bind_ok in E1 as (ps & _ & E1)|]; injection E1 as <-; reflexivity.
Qed.
Lemma handler_line version c : c_callbacks c = true ->
  In (stmt 3 (lit "nodeDataHandler.inPortDataWritten = " ++ opt_text (c_node c) ++ lit "_inPortDataWritten")) (source_front version c).
Proof. intros C. unfold source_front. rewrite C. do 23 (apply in_or_app; right). apply in_or_app. left. right. left. reflexivity. Qed.

(** With callbacks and input data, the function that the Init function installs is
    defined in the same file, provided the name of the node is not overridden. *)
Theorem handler_defined version fuel st sfx W nd name includes m direct synced st' W' nd' f nm :
  generate_files version fuel st sfx W nd name includes (Some m) direct synced = (st', Ok (W', nd', f)) ->
  NoDup (port_names W' (n_require nd')) -> NoDup (port_names W' (n_provide nd')) ->
  name = None \/ name = n_name nd -> n_name nd = Some nm -> one_word nm -> has_input fuel W' nd' ->
  exists h, In (lit "   nodeDataHandler.inPortDataWritten = " ++ h ++ lit ";") (f_source f) /\ In h (map function_name (defined (f_source f))).
Proof.
  intros E N1 N2 NM En O HI. destruct (declared_defined _ _ _ _ _ _ _ _ _ _ _ _ _ _ _ E N1 N2) as (nm' & ins & outs & extra & Gi & _ & En' & X1 & _ & _ & ->).
  assert (nm' = nm) as -> by (destruct NM as [->| ->]; [|destruct (n_name nd)]; congruence). rewrite (X1 HI).
  exists (notify_name nm). split.
  - apply files_ok in E as (nm2 & W1 & W2 & ins2 & outs2 & cbs & fs & En2 & Ef & Ei & Ec & Eo & Ea & Ew & Es).
    apply write_source_inv in Ew as (c & -> & _ & Cn & Cc & _). apply in_or_app. left. pose proof (handler_line version c Cc) as HL.
    rewrite Cn, (finalize_name _ _ _ _ _ _ Ef), En in HL. exact HL.
  - rewrite map_map. apply in_map_iff. exists (notify_proto (notify_name nm)). split.
    + apply function_name_proto; [vm_compute; intuition discriminate|]. cbn [notify_proto cp_name]. unfold notify_name. apply one_word_app. split; [exact O|].
      repeat constructor; discriminate.
    + apply in_or_app. right. apply in_or_app. right. left. reflexivity.
Qed.
Print Assumptions handler_defined.

(** ** Using a generator again *)

Lemma gen_ins_state fuel types name : forall ports st W off st' r, gen_ins fuel types name None st W off ports = (st', r) -> st' = st.
Proof.
  induction ports as [|o l IH]; intros st W off st' r E; cbn [gen_ins] in E; [congruence|].
  destruct (gen_signal fuel Unpack types name W off o) as [[W1 s]|e]; [|congruence]. cbn [create] in E.
  destruct (gen_ins fuel types name None st W1 (off + si_len s) l) as [st2 [[W2 x]|e]] eqn:R; apply IH in R; congruence.
Qed.
Definition plain (st : gstate) : Prop := g_vars st = [] /\ g_funs st = [] /\ g_pending st = [].
Lemma used_plain st : used (fun c => c = None) st -> plain st.
Proof.
  induction 1 as [|st version fuel sfx W nd name includes callbacks direct synced st' r U (V & F & P) Ok E]; [repeat split|]. subst callbacks.
  unfold generate_files in E.
  match type of E with match ?t with _ => _ end = _ => destruct t as [[[nm W1] nd1]|e] end; [|injection E as <- _; repeat split; assumption].
  destruct (gen_ins fuel (n_types nd1) nm None st W1 0 (n_require nd1)) as [st1 q] eqn:Ei. apply gen_ins_state in Ei as ->.
  destruct q as [[W2 ins]|e]; [|injection E as <- _; repeat split; assumption].
  destruct (gen_signals fuel Pack (n_types nd1) nm W2 0 (n_provide nd1)) as [[W3 outs]|e]; [|injection E as <- _; repeat split; assumption].
  rewrite P in E. cbn [by_offset fold_right add_functions] in E. cbn [g_vars g_funs g_pending g_notify] in E.
  match type of E with (let (_, _) := ?t in _) = _ => destruct t as [st2 q] eqn:Ew end.
  assert (plain st2) as PL.
  { unfold write_source in Ew. cbn [g_vars g_funs g_pending g_notify] in Ew.
    match type of Ew with match ?t with _ => _ end = _ => destruct t as [c|e] end; injection Ew as <- _; unfold plain; cbn [g_vars g_funs g_pending];
      rewrite V, F; repeat split; try assumption. destruct (if 0 <? sum_lens ins then _ else _); reflexivity. }
  destruct q as [src|e]; injection E as <- _; exact PL.
Qed.

(** A generator that was never given callbacks may be used again: for a node with input
    data it writes what a new one writes. *)
Theorem reuse_without_callbacks version fuel st sfx W nd name includes callbacks direct synced W' nd' f :
  used (fun c => c = None) st -> has_input fuel W' nd' ->
  (snd (generate_files version fuel st sfx W nd name includes callbacks direct synced) = Ok (W', nd', f) <->
   snd (generate_files version fuel new_gen sfx W nd name includes callbacks direct synced) = Ok (W', nd', f)).
Proof.
  intros U HI. apply used_plain in U as (V & F & P).
  assert (forall cbs fs nm ins, 0 < sum_lens ins -> ready st cbs fs nm ins = ready new_gen cbs fs nm ins) as RR.
  { intros cbs fs nm ins L. unfold ready. destruct (Z.ltb_spec 0 (sum_lens ins)) as [_|?]; [|lia]. destruct st as [v g p n]. cbn in V, F, P. subst. destruct cbs; reflexivity. }
  assert (forall cbs, g_pending (grown st cbs) = g_pending (grown new_gen cbs)) as GP.
  { intros cbs. destruct st as [v g p n]. cbn in V, F, P. subst. destruct cbs; reflexivity. }
  assert (forall st', (generate_files version fuel st sfx W nd name includes callbacks direct synced = (st', Ok (W', nd', f)) <->
    generate_files version fuel new_gen sfx W nd name includes callbacks direct synced = (st', Ok (W', nd', f)))) as X.
  { intros st'. rewrite !files_ok.
    split; intros (nm & W1 & W2 & ins & outs & cbs & fs & En & Ef & Ei & Ec & Eo & Ea & Ew & Es);
      destruct (gen_files_signals _ _ _ _ _ _ _ _ _ _ Ei Eo) as (SW & Gi & Go); apply (input_iff _ _ _ _ _ Gi) in HI;
      exists nm, W1, W2, ins, outs, cbs, fs; rewrite ?F, ?GP, ?(RR cbs fs nm ins HI) in *; rewrite <- ?GP in *; cbn [g_funs new_gen] in *; auto 12. }
  split; intros Y.
  - destruct (generate_files version fuel st sfx W nd name includes callbacks direct synced) as [st' q]. cbn [snd] in Y. subst q. rewrite (proj1 (X st') eq_refl). reflexivity.
  - destruct (generate_files version fuel new_gen sfx W nd name includes callbacks direct synced) as [st' q]. cbn [snd] in Y. subst q. rewrite (proj2 (X st') eq_refl). reflexivity.
Qed.
Print Assumptions reuse_without_callbacks.

(** ** The nodes of the repository's tests *)

Definition files_of (st : gstate) (text : str) (name : option str) (callbacks : option (list (str * option str))) : gstate * res (world * node * cfiles) :=
  match loads empty_world text with
  | Ok (W, nd) => generate_files (lit "0.4.1") 100 st [] W nd name [] callbacks [] true
  | Err e => (st, Err e)
  end.
Definition printed (l : list str) : str := flat_map (fun x => x ++ [NEWLINE]) l.
Definition header_of (x : gstate * res (world * node * cfiles)) : str := match snd x with Ok (_, _, f) => printed (f_header f) | Err _ => [] end.
Definition cbk_of (x : gstate * res (world * node * cfiles)) : str := match snd x with Ok (_, _, f) => match f_cbk f with Some l => printed l | None => [] end | Err _ => [] end.

Definition has_line (l : list str) (s : string) : bool := existsb (str_eqb (lit s)) l.
(** The finalized node of /repo/tests/generator_test.py: ports in the order of the text. *)
Definition test_files : gstate * res (world * node * cfiles) :=
  match (do '(W, nd) <- loads empty_world test_node_text; finalize false true W nd) with
  | Ok (W, nd) => generate_files (lit "0.4.1") 100 new_gen [] W nd None [] (Some test_callbacks) [] true
  | Err e => (new_gen, Err e)
  end.
Example ex_test_header : header_of test_files = lit "#ifndef APXNODE_TEST_H
#define APXNODE_TEST_H

#include <stdbool.h>
#include ""apx_nodeData.h""

//////////////////////////////////////////////////////////////////////////////
// CONSTANTS
//////////////////////////////////////////////////////////////////////////////

//////////////////////////////////////////////////////////////////////////////
// FUNCTION PROTOTYPES
//////////////////////////////////////////////////////////////////////////////
apx_nodeData_t * ApxNode_Init_Test(void);
apx_nodeData_t * ApxNode_GetNodeData_Test(void);
bool ApxNode_IsConnected_Test(void);

Std_ReturnType ApxNode_Read_Test_RU8FirstPort(uint8 *val);
Std_ReturnType ApxNode_Read_Test_RS16ARPort(sint16 *val);
Std_ReturnType ApxNode_Read_Test_RS32Port(sint32 *val);
Std_ReturnType ApxNode_Read_Test_RU8Port(uint8 *val);
Std_ReturnType ApxNode_Read_Test_RU8ARPort(uint8 *val);
Std_ReturnType ApxNode_Read_Test_LightRequest(LightRequest_T *val);
Std_ReturnType ApxNode_Read_Test_SoundRequest(SoundRequest_T *val);
Std_ReturnType ApxNode_Read_Test_RU8LastPort(uint8 *val);
Std_ReturnType ApxNode_Write_Test_SoundRequestAck(SoundRequest_T *val);
Std_ReturnType ApxNode_Write_Test_HapticRequest(HapticRequest_T *val);
Std_ReturnType ApxNode_Write_Test_PS8ARPort(sint8 *val);
Std_ReturnType ApxNode_Write_Test_PS8Port(sint8 val);
Std_ReturnType ApxNode_Write_Test_PU16ARPort(uint16 *val);
Std_ReturnType ApxNode_Write_Test_PU32Port(uint32 val);
void Test_inPortDataWritten(void *arg, apx_nodeData_t *nodeData, uint32_t offset, uint32_t len);

#endif //APXNODE_TEST_H
".
Proof. vm_compute. reflexivity. Qed.
Example ex_test_cbk : cbk_of test_files = lit "#ifndef APXNODE_TEST_CBK_H
#define APXNODE_TEST_CBK_H

//////////////////////////////////////////////////////////////////////////////
// INCLUDES
//////////////////////////////////////////////////////////////////////////////
#include ""Rte_Type.h""

//////////////////////////////////////////////////////////////////////////////
// FUNCTION PROTOTYPES
//////////////////////////////////////////////////////////////////////////////
void RS16ARPort_cb_func(sint16 *value);
void RU8Port_cb_func(uint8 value);
void SoundRequest_cb_func(SoundRequest_T *value);

#endif //APXNODE_TEST_CBK_H
".
Proof. vm_compute. reflexivity. Qed.
Example ex_only_p_header : header_of (files_of new_gen (lit "APX/1.2
N""TestSimpleOnlyP""
P""PS8Port""c:=-1
") None None) = lit "#ifndef APXNODE_TESTSIMPLEONLYP_H
#define APXNODE_TESTSIMPLEONLYP_H

#include <stdbool.h>
#include ""apx_nodeData.h""

//////////////////////////////////////////////////////////////////////////////
// CONSTANTS
//////////////////////////////////////////////////////////////////////////////

//////////////////////////////////////////////////////////////////////////////
// FUNCTION PROTOTYPES
//////////////////////////////////////////////////////////////////////////////
apx_nodeData_t * ApxNode_Init_TestSimpleOnlyP(void);
apx_nodeData_t * ApxNode_GetNodeData_TestSimpleOnlyP(void);
bool ApxNode_IsConnected_TestSimpleOnlyP(void);

Std_ReturnType ApxNode_Write_TestSimpleOnlyP_PS8Port(sint8 val);

#endif //APXNODE_TESTSIMPLEONLYP_H
".
Proof. vm_compute. reflexivity. Qed.
Example ex_callback_last :
  let x := files_of new_gen (lit "APX/1.2
N""TestCallbackLast""
R""RS32Port""l:=-2147483648
R""RU8Port""C:=255
") None (Some [(lit "RU8Port", Some (lit "RU8Port_cb_func"))]) in
  header_of x = lit "#ifndef APXNODE_TESTCALLBACKLAST_H
#define APXNODE_TESTCALLBACKLAST_H

#include <stdbool.h>
#include ""apx_nodeData.h""

//////////////////////////////////////////////////////////////////////////////
// CONSTANTS
//////////////////////////////////////////////////////////////////////////////

//////////////////////////////////////////////////////////////////////////////
// FUNCTION PROTOTYPES
//////////////////////////////////////////////////////////////////////////////
apx_nodeData_t * ApxNode_Init_TestCallbackLast(void);
apx_nodeData_t * ApxNode_GetNodeData_TestCallbackLast(void);
bool ApxNode_IsConnected_TestCallbackLast(void);

Std_ReturnType ApxNode_Read_TestCallbackLast_RS32Port(sint32 *val);
Std_ReturnType ApxNode_Read_TestCallbackLast_RU8Port(uint8 *val);
void TestCallbackLast_inPortDataWritten(void *arg, apx_nodeData_t *nodeData, uint32_t offset, uint32_t len);

#endif //APXNODE_TESTCALLBACKLAST_H
" /\ cbk_of x = lit "#ifndef APXNODE_TESTCALLBACKLAST_CBK_H
#define APXNODE_TESTCALLBACKLAST_CBK_H

//////////////////////////////////////////////////////////////////////////////
// INCLUDES
//////////////////////////////////////////////////////////////////////////////
#include ""Rte_Type.h""

//////////////////////////////////////////////////////////////////////////////
// FUNCTION PROTOTYPES
//////////////////////////////////////////////////////////////////////////////
void RU8Port_cb_func(uint8 value);

#endif //APXNODE_TESTCALLBACKLAST_CBK_H
".
Proof. vm_compute. split; reflexivity. Qed.

(** The hypotheses of the theorems hold for the test node, and what they say is not empty. *)
Example ex_header_declares :
  match test_files with
  | (_, Ok (W', nd', f)) =>
    has_input 100 W' nd' /\ distinct (text_names W' (n_require nd')) = true /\ distinct (text_names W' (n_provide nd')) = true /\
    forallb (fun s => forallb (fun c => negb (c =? 32) && negb (c =? 40) && negb (c =? 42)) s) (text_names W' (n_require nd') ++ text_names W' (n_provide nd')) = true /\
    length (declared (f_header f)) = 18%nat /\ declared (f_header f) = defined (f_source f) /\
    nth_error (map function_name (defined (f_source f))) 4 = Some (lit "ApxNode_Read_Test_RS16ARPort") /\
    nth_error (map function_name (defined (f_source f))) 17 = Some (lit "Test_inPortDataWritten") /\
    has_line (f_source f) "   nodeDataHandler.inPortDataWritten = Test_inPortDataWritten;" = true /\
    match test_file with
    | Ok (_, _, c) =>
      f_source f = source_lines (lit "0.4.1") c /\
      match c_notifier c with
      | Switch _ parts vars => map cl_func (calls parts) = [lit "RS16ARPort_cb_func"; lit "RU8Port_cb_func"; lit "SoundRequest_cb_func"] /\
          option_map declared (f_cbk f) = Some [lit "void RS16ARPort_cb_func(sint16 *value)"; lit "void RU8Port_cb_func(uint8 value)"; lit "void SoundRequest_cb_func(SoundRequest_T *value)"]
      | _ => False
      end
    | Err _ => False
    end
  | _ => False
  end.
Proof.
  vm_compute. split; [left; exists 1; split; reflexivity|]. repeat split.
Qed.

(** ** More about a used generator *)

(** The header does not depend on what the generator was used for. *)
Theorem header_history version fuel st1 st2 sfx W nd name includes callbacks direct synced st1' st2' W1 W2 n1 n2 f1 f2 :
  generate_files version fuel st1 sfx W nd name includes callbacks direct synced = (st1', Ok (W1, n1, f1)) ->
  generate_files version fuel st2 sfx W nd name includes callbacks direct synced = (st2', Ok (W2, n2, f2)) ->
  f_header f1 = f_header f2.
Proof.
  intros A B. apply files_ok in A as (nm & Wa & Wb & ins & outs & cbs & fs & En & Ef & Ei & Ec & Eo & _ & _ & ->).
  apply files_ok in B as (nm' & Wa' & Wb' & ins' & outs' & cbs' & fs' & En' & Ef' & Ei' & Ec' & Eo' & _ & _ & ->).
  assert (nm' = nm) as -> by congruence. rewrite Ef in Ef'. injection Ef' as <- <-. rewrite Ei in Ei'. injection Ei' as <- <-.
  rewrite Eo in Eo'. injection Eo' as _ <-. reflexivity.
Qed.
Print Assumptions header_history.

Definition two_ports : str := lit "APX/1.2
N""N""
R""A""C:=0
R""B""S:=0
".
Definition only_out : str := lit "APX/1.2
N""M""
P""X""C:=0
".
Definition first_a : option (list (str * option str)) := Some [(lit "A", Some (lit "a_func"))].

(** A generator used twice without callbacks gives the files of a new one. *)
Example ex_reuse :
  let st := fst (files_of (fst (files_of new_gen only_out None None)) two_ports None None) in
  used (fun c => c = None) st /\ g_notify st = Some (lit "N_inPortDataWritten") /\
  match snd (files_of st two_ports (Some (lit "Other")) first_a), snd (files_of new_gen two_ports (Some (lit "Other")) first_a) with
  | Ok (_, _, f), Ok (_, _, g) => f = g /\ option_map declared (f_cbk f) = Some [lit "void a_func(uint8 value)"] /\ length (f_source f) = 113%nat
  | _, _ => False
  end.
Proof.
  assert (U : forall st text name, used (fun c => c = None) st -> used (fun c => c = None) (fst (files_of st text name None))).
  { intros st text name U. unfold files_of. destruct (loads empty_world text) as [[W nd]|e]; [|exact U].
    eapply used_again; [exact U|reflexivity|]. apply surjective_pairing. }
  split; [apply U, U, used_new|]. vm_compute. repeat split.
Qed.

Definition source_of (x : gstate * res (world * node * cfiles)) : list str := match snd x with Ok (_, _, f) => f_source f | Err _ => [] end.
Definition count_line (l : list str) (s : string) : nat := length (filter (str_eqb (lit s)) l).

(** With another name for the node, the Init function installs a function that no file
    defines; so it does for a node without input data. *)
Theorem handler_name_refuted :
  (let x := source_of (files_of new_gen two_ports (Some (lit "Other")) first_a) in
   has_line x "   nodeDataHandler.inPortDataWritten = N_inPortDataWritten;" = true /\
   existsb (str_eqb (lit "N_inPortDataWritten")) (map function_name (defined x)) = false /\
   existsb (str_eqb (lit "Other_inPortDataWritten")) (map function_name (defined x)) = true) /\
  (let x := source_of (files_of new_gen only_out None (Some [])) in
   has_line x "   nodeDataHandler.inPortDataWritten = M_inPortDataWritten;" = true /\
   map function_name (defined x) = [lit "ApxNode_Init_M"; lit "ApxNode_GetNodeData_M"; lit "ApxNode_IsConnected_M"; lit "ApxNode_Write_M_X"]).
Proof. vm_compute. repeat split. Qed.

(** A generator used for a node with callbacks: the union of the next node has the
    members of both, so a member twice when both nodes have a port of that name, and the
    callback header of the second declares the callbacks of the first. *)
Theorem reuse_with_callbacks_refuted :
  let st := fst (files_of new_gen two_ports None first_a) in
  let x := files_of st two_ports (Some (lit "Again")) (Some [(lit "A", Some (lit "other_func"))]) in
  count_line (source_of x) "      uint8 A;" = 2%nat /\
  match snd x with
  | Ok (_, _, f) => option_map declared (f_cbk f) = Some [lit "void a_func(uint8 value)"; lit "void other_func(uint8 value)"]
  | Err _ => False
  end.
Proof. vm_compute. repeat split. Qed.

(** Generating a node without input data after one with: the source defines the
    notification function of the first node, which its header does not declare. *)
Theorem reuse_without_input_refuted :
  let st := fst (files_of new_gen two_ports None None) in
  match snd (files_of st only_out None None) with
  | Ok (_, _, f) =>
    map function_name (defined (f_source f)) = map function_name (declared (f_header f)) ++ [lit "N_inPortDataWritten"] /\
    length (declared (f_header f)) = 4%nat
  | Err _ => False
  end.
Proof. vm_compute. repeat split. Qed.

(** A call that raises leaves the callbacks of its node in the generator; they come out
    in the next file, where nothing is named so and two cases are the same. *)
Theorem reuse_after_failure_refuted :
  let bad := files_of new_gen (lit "APX/1.2
N""Bad""
R""Q""C:=0
P""Rec""{""a""C}
") None (Some [(lit "Q", Some (lit "q_func"))]) in
  let x := source_of (files_of (fst bad) two_ports None first_a) in
  (match snd bad with Err _ => true | Ok _ => false end) = true /\
  has_line x "#define APX_RX_OFFSET_Q 0u" = true /\ has_line x "#define APX_RX_OFFSET_A 0u" = true /\
  has_line x "      case APX_RX_OFFSET_Q:" = true /\ has_line x "      case APX_RX_OFFSET_A:" = true /\
  has_line x "         (void) ApxNode_Read_Bad_Q(&data.Q);" = true /\
  existsb (str_eqb (lit "ApxNode_Read_Bad_Q")) (map function_name (defined x)) = false.
Proof. vm_compute. repeat split. Qed.

(** One function for two ports of different types is declared with both types. *)
Theorem one_callback_refuted :
  match snd (files_of new_gen two_ports None (Some [(lit "A", Some (lit "f")); (lit "B", Some (lit "f"))])) with
  | Ok (_, _, f) => option_map declared (f_cbk f) = Some [lit "void f(uint8 value)"; lit "void f(uint16 value)"]
  | Err _ => False
  end.
Proof. vm_compute. reflexivity. Qed.

(** Two ports of the same name: the function of the last is defined twice, and the
    header declares one that is not defined. *)
Theorem same_names_refuted :
  match snd (files_of new_gen (lit "APX/1.2
N""N""
R""A""C:=0
R""A""c:=0
") None None) with
  | Ok (_, _, f) => firstn 2 (skipn 3 (defined (f_source f))) = [lit "Std_ReturnType ApxNode_Read_N_A(sint8 *val)"; lit "Std_ReturnType ApxNode_Read_N_A(sint8 *val)"] /\
      firstn 2 (skipn 3 (declared (f_header f))) = [lit "Std_ReturnType ApxNode_Read_N_A(uint8 *val)"; lit "Std_ReturnType ApxNode_Read_N_A(sint8 *val)"]
  | Err _ => False
  end.
Proof. vm_compute. repeat split. Qed.
