(** The conditions of [source_reads] and of the lemmas about the parts of the source,
    for the file [generate] makes of a node whose names fit. *)
From Coq Require Import ZifyBool ZifyNat Lia Permutation.
From Verif Require Import Py PyLemmas TypesModel TextModel TextProofs AttrModel NodeModel VmModel TypesSpec TypesProofs CompilerModel
  GenModel GenSpec GenProofs GenProofs2 GenProofs3 GenProofs4 NodeDataModel NodeInitProofs SigModel GenProofs5 GenProps GenFilesModel GenFilesSpec GenFilesProofs GenFilesProps CTextSpec CTextProofs CFileSpec CFileProofs CFileProofs2 CFitSpec.
From Verif Require NodeProofs.
Ltac Zify.zify_post_hook ::= Z.div_mod_to_equations.

(** ** The statements of one function *)

Lemma members_all sfx ms : members_fit sfx (TRec ms) <-> Forall (fun m => c_ident (fst m ++ sfx) /\ members_fit [] (snd m)) ms.
Proof.
  cbn [members_fit]. induction ms as [|[nm t] r IH]; [split; auto|]. rewrite IH. split; [intros [A B]; constructor; assumption|intros F; inversion F; auto].
Qed.

Lemma int_code_ok op e k : path e -> Forall oks (int_code op e k).
Proof.
  intros P. assert (okx e) as X by (destruct e; exact P || destruct P). unfold int_code. destruct (_ =? 1), op; repeat constructor; exact X.
Qed.
Lemma text_code_ok op e n : path e -> 1 <= n -> Forall oks (text_code op e n).
Proof.
  intros P N. assert (okx e) as X by (destruct e; exact P || destruct P). unfold text_code. destruct op; repeat constructor; cbn [oka oks]; auto; lia.
Qed.
Lemma gen_item_ok bf H sfx op :
  (forall d t, cable H d t -> members_fit [] t -> forall e lv off code lv' n, lv_ptr lv = true -> path e ->
     gen_item bf H sfx op None e d lv off = Ok (code, lv', n) -> Forall oks code /\ lv_ptr lv' = true) /\
  (forall es ms, cables H es ms -> Forall (fun m => members_fit [] (snd m)) ms -> forall var e lv off code lv' n, lv_ptr lv = true ->
     (forall nm, In nm (map fst ms) -> path (member_expr sfx var e (Some nm))) ->
     gen_members bf H sfx op var e es lv off = Ok (code, lv', n) -> Forall oks code /\ lv_ptr lv' = true).
Proof.
  apply cable_cables_ind.
  - intros nm c lo hi k K S _ e lv off code lv' n P O E.
    assert (R : resolve_data_element H (DPrim nm c lo hi None) = Ok (DPrim nm c lo hi None)) by reflexivity.
    rewrite (gen_item_num _ _ _ _ _ _ _ _ _ _ _ _ _ R), (gen_integer_ptr _ _ _ _ _ _ _ _ _ _ _ _ _ R K S P) in E. injection E as <- <- <-.
    split; [apply int_code_ok, O|exact P].
  - intros nm c lo hi k n K S N _ e lv off code lv' n' P O E. rewrite (gen_item_arr _ _ _ _ _ _ _ _ _ _ _ _ _ _ K S) in E. injection E as <- <- <-.
    split; [|reflexivity]. constructor; [|constructor]. apply oks_for. split; [lia|]. apply int_code_ok. exact O.
  - intros nm lo hi n N _ e lv off code lv' n' P O E. rewrite gen_item_str in E. unfold gen_string in E. rewrite P in E. cbn [bind] in E. injection E as <- <- <-.
    split; [|exact P]. exact (text_code_ok op e n O N).
  - intros nm es ms ND CS IH F e lv off code lv' n P O E. rewrite gen_item_rec in E. apply members_all in F.
    refine (IH _ None e _ off code lv' n _ _ E); [|reflexivity|].
    + eapply Forall_impl; [|exact F]. intros m M. exact (proj2 M).
    + intros x I. apply in_map_iff in I as (m & <- & I). rewrite Forall_forall in F. destruct (F _ I) as [A _]. rewrite app_nil_r in A. cbn [member_expr path opt_text]. auto.
  - intros nm r nm' c lo hi k R K S _ e lv off code lv' n P O E.
    rewrite (gen_item_num _ _ _ _ _ _ _ _ _ _ _ _ _ R), (gen_integer_ptr _ _ _ _ _ _ _ _ _ _ _ _ _ R K S P) in E. injection E as <- <- <-.
    split; [apply int_code_ok, O|exact P].
  - intros _ var e lv off code lv' n P _ E. injection E as <- <- <-. split; [constructor|exact P].
  - intros e0 es nm t ms E0 C IH CS IHS F var e lv off code lv' n P O E. cbn [gen_members] in E. rewrite E0 in E.
    apply bind_ok in E as ([[c1 lv1] n1] & E1 & E). fold (gen_members bf H sfx op var e) in E. apply bind_ok in E as ([[c2 lv2] n2] & E2 & E). injection E as <- <- <-.
    inversion F as [|? ? F1 F2]; subst. destruct (IH F1 _ _ _ _ _ _ P (O nm (or_introl eq_refl)) E1) as [A1 P1].
    destruct (IHS F2 _ _ _ _ _ _ _ P1 (fun x I => O x (or_intror I)) E2) as [A2 P2]. split; [apply Forall_app; auto|exact P2].
Qed.

Lemma code_ok code : Forall oks code -> Forall okf (map FCode code).
Proof. intros F. apply Forall_map. exact F. Qed.
Lemma func_ok H sfx op p d t off direct body n : cable H d t -> members_fit sfx t -> 0 <= off ->
  gen_func true H sfx op p d off direct = Ok (body, n) -> Forall okf body.
Proof.
  intros C M O E.
  assert (TOP : exists code lv, gen_item true H sfx op (Some p) EVal d (mk_lvars false None) off = Ok (code, lv, tlen t) /\ Forall oks code).
  { assert (NUM : forall k nm c lo hi, t = TInt k -> small k -> resolve_data_element H d = Ok (DPrim nm c lo hi None) -> kind_of c = Some k ->
      exists code lv, gen_item true H sfx op (Some p) EVal d (mk_lvars false None) off = Ok (code, lv, tlen t) /\ Forall oks code).
    { intros k nm c lo hi -> S R K. rewrite (gen_item_num _ _ _ _ _ _ _ _ _ _ _ _ _ R), (gen_integer_abs H op EVal d off _ _ _ _ _ k R K S). cbn [bind].
      do 2 eexists. split; [reflexivity|]. destruct (_ =? 1), op; repeat constructor; cbn [oka okx path]; auto. }
    destruct C as [nm c lo hi k K S|nm c lo hi k m K S N|nm lo hi m N|nm es ms ND CS|nm r nm' c lo hi k R K S].
    - exact (NUM k nm c lo hi eq_refl S eq_refl K).
    - rewrite (gen_item_arr _ _ _ _ _ _ _ _ _ _ _ _ _ _ K S). do 2 eexists. split; [reflexivity|]. constructor; [|constructor]. apply oks_for. split; [lia|]. apply int_code_ok. exact Logic.I.
    - rewrite gen_item_str. unfold gen_string. cbn [lv_ptr negb bind]. do 2 eexists. split; [reflexivity|].
      destruct op; repeat constructor; cbn [oka okx path]; auto; lia.
    - rewrite gen_item_rec. destruct (proj2 (gen_item_works true H sfx op) _ _ CS (Some p) EVal (mk_lvars true None) off eq_refl) as (code & lv' & G & _).
      cbn [lv_loop]. rewrite G. do 2 eexists. split; [reflexivity|]. apply members_all in M.
      refine (proj1 (proj2 (gen_item_ok true H sfx op) _ _ CS _ _ _ _ _ _ _ _ _ _ G)); [|reflexivity|].
      + eapply Forall_impl; [|exact M]. intros m X. exact (proj2 X).
      + intros x I. apply in_map_iff in I as (m & <- & I). rewrite Forall_forall in M. destruct (M _ I) as [A _]. destruct p; cbn [member_expr path opt_text]; auto.
    - exact (NUM k nm' c lo hi eq_refl S R K). }
  destruct TOP as (code & lv & G & F). unfold gen_func in E. rewrite G in E. cbn [bind] in E. apply bind_ok in E as (start & Es & E). injection E as <- <-.
  assert (Forall okf start) as Fs by (destruct (lv_ptr lv); injection Es as <-; repeat constructor; exact O).
  pose proof (proj1 (proj1 (image_lens H) _ _ C)) as T0.
  repeat (apply Forall_app; split); try exact Fs; try exact (code_ok _ F).
  - destruct (lv_ptr lv); repeat constructor.
  - destruct (lv_loop lv); repeat constructor.
  - destruct op; [repeat constructor|]. destruct (1 <? tlen t); repeat constructor.
  - destruct op; [repeat constructor; assumption|]. destruct (1 <? tlen t); repeat constructor.
Qed.

(** ** Names *)

Lemma upper_chars s : forallb name_char s = true -> forallb name_char (upper s) = true.
Proof.
  unfold upper. rewrite !forallb_forall. intros F x I. apply in_map_iff in I as (y & <- & I). specialize (F y I).
  destruct ((97 <=? y) && (y <=? 122)) eqn:L; [|exact F]. unfold name_char, letter, digit in *. lia.
Qed.

Lemma ident_app a b : match a with [] => False | c :: _ => letter c = true end -> forallb name_char a = true -> forallb name_char b = true -> (10 < length a)%nat -> c_ident (a ++ b).
Proof.
  intros A B C L. apply ident_long; [destruct a; [destruct A|exact A]|rewrite name_chars_app, B, C; reflexivity|rewrite app_length; lia].
Qed.

(** ** Signals *)

Section Signals.
Variable fuel : nat.
Variable op : dir.
Variable nm : str.
Variable W : world.
Hypothesis NAME : c_ident nm.

Lemma signal_ok off o s : signal fuel op nm W off o s -> port_fits W o ->
  c_ident (si_func s) /\ c_ident (opt_text (si_type s)) /\ forallb name_char (opt_text (si_name s)) = true /\ bytes_ok (si_init s).
Proof.
  intros [Sn So Sl Sf St Sp Sg Si Sk] [P1 P2]. rewrite Sn, Sf. split; [|split; [|split]].
  - destruct NAME as (_ & N & _). unfold func_name. destruct op; (apply ident_long; [reflexivity|rewrite !name_chars_app, N, P1; reflexivity|rewrite !app_length; cbn; lia]).
  - unfold ctypename in St. destruct (pt_elem (w_ports W o)) as [a c lo hi al|a es|a [i|r|k]]; try discriminate.
    + apply bind_ok in St as (x & X & St). injection St as <-. cbn [opt_text].
      unfold c_typename in X. destruct c; try discriminate; injection X as <-; (split; [reflexivity|split; [reflexivity|]]); vm_compute; intuition discriminate.
    + injection St as <-. exact P2.
  - exact P1.
  - unfold sig_init in Si. destruct (init_of (w_ports W o)); try exact (createInitData_ok _ _ _ _ _ Si). injection Si as <-. apply Forall_forall. intros x I. apply repeat_spec in I. unfold byte_ok. lia.
Qed.

Lemma signals_all : forall ports off sigs, signals fuel op nm W off ports sigs -> forall s, In s sigs -> exists o off, In o ports /\ signal fuel op nm W off o s.
Proof.
  induction ports as [|o r IH]; intros off [|s l] G x I; cbn [signals] in *; try contradiction. destruct G as [G1 G2]. destruct I as [<-|I].
  - exists o, off. split; [left; reflexivity|exact G1].
  - destruct (IH _ _ G2 x I) as (o' & off' & J & S). exists o', off'. split; [right; exact J|exact S].
Qed.
Lemma signals_ok ports off sigs : signals fuel op nm W off ports sigs -> Forall (port_fits W) ports -> forall s, In s sigs ->
  c_ident (si_func s) /\ c_ident (opt_text (si_type s)) /\ forallb name_char (opt_text (si_name s)) = true /\ bytes_ok (si_init s).
Proof. intros G F s I. destruct (signals_all _ _ _ G s I) as (o & off' & J & S). rewrite Forall_forall in F. exact (signal_ok _ _ _ S (F o J)). Qed.

Lemma table_ok ports sigs b : signals fuel op nm W 0 ports sigs -> Forall (port_fits W) ports -> NoDup (port_names W ports) -> init_table sigs = Ok b ->
  bytes_ok b /\ len b = sum_lens sigs.
Proof.
  intros G F ND E. unfold port_names in ND. rewrite <- (signals_names _ _ _ _ _ _ _ G) in ND. pose proof (sigs_offset _ _ _ _ _ _ _ G) as L.
  rewrite (init_table_all _ _ ND L E). split; [|exact L]. unfold bytes_ok. apply Forall_concat, Forall_map, Forall_forall. intros s I. exact (proj2 (proj2 (proj2 (signals_ok _ _ _ G F s I)))).
Qed.
Lemma funs_ok sfx direct ports ts sigs fs : signals fuel op nm W 0 ports sigs -> Forall2 (port_cable W) ports ts -> Forall (members_fit sfx) ts -> Forall (port_fits W) ports ->
  NoDup (port_names W ports) -> gen_funcs (w_types W) sfx op direct sigs sigs = Ok fs -> Forall okfun fs /\ map cf_name fs = map si_func sigs.
Proof.
  intros G F2 M F ND E. assert (map cf_name fs = map si_func sigs) as EN.
  { apply (gen_funcs_all _ _ _ _ _ (eq_ind_r (fun l => NoDup l) ND (signals_names _ _ _ _ _ _ _ G)) _ _ (fun x I => I) E). }
  split; [|exact EN]. apply Forall_forall. intros f I. apply In_nth_error in I as (i & Nf).
  assert (i < length ports)%nat as Li.
  { assert (i < length fs)%nat as X by (apply nth_error_Some; congruence). pose proof (f_equal (@length _) EN) as Y. pose proof (f_equal (@length _) (signals_names _ _ _ _ _ _ _ G)) as Z. rewrite !map_length in *. lia. }
  destruct (nth_error ports i) as [o|] eqn:No; [|apply nth_error_None in No; lia].
  destruct (NodeProofs.Forall2_nth _ _ _ _ _ F2 No) as (t & Nt & _).
  destruct (call_facts _ _ _ _ _ _ _ _ _ _ _ _ _ G F2 ND E No Nt) as (_ & P1 & _ & _ & d & p & body & n & ty & _ & C & _ & Nf' & Gf).
  destruct (signals_nth _ _ _ _ _ _ _ _ _ G No) as (s & Ns & S). rewrite Forall_forall in F, M.
  destruct (signal_ok _ _ _ S (F o (nth_error_In _ _ No))) as (A1 & A2 & _).
  destruct (gen_funcs_nth _ _ _ _ _ (eq_ind_r (fun l => NoDup l) ND (signals_names _ _ _ _ _ _ _ G)) _ _ i s (fun x I => I) E Ns) as (body' & n' & Nf'' & _).
  rewrite Nf in Nf', Nf''. injection Nf' as ->. injection Nf'' as E1 E2 _ _. unfold okfun. cbn [cf_name cf_type cf_body]. rewrite E1, E2.
  split; [exact A1|]. split; [exact A2|]. exact (func_ok _ _ _ _ _ _ _ _ _ _ C (M t (nth_error_In _ _ Nt)) P1 Gf).
Qed.
End Signals.

(** ** Callbacks *)

Lemma rx_define s : forallb name_char s = true -> c_ident (lit "APX_RX_OFFSET_" ++ upper s) /\ c_ident (lit "APX_RX_LEN_" ++ upper s).
Proof. intros N. pose proof (upper_chars _ N) as U. split; apply ident_app; try reflexivity; try exact U; cbn; lia. Qed.

Definition rx_notifier (c : cfile) : Prop :=
  match c_notifier c with
  | NoNotifier => False
  | Ignores => True
  | Switch g parts _ => match g with Some g => exists r, g = lit "APX_RX_" ++ r | None => True end /\ Forall rx_part parts /\
      Forall (fun x => match x with PCase _ _ k => calls_in (c_reads c) k | _ => True end) parts
  end.

Section Callbacks.
Variable W : world.
Variable m : list (str * option str).
Variable ins : list siginfo.
Variable reads : list str.
Hypothesis NAMES : forall s, In s ins -> c_ident (si_func s) /\ c_ident (opt_text (si_type s)) /\ forallb name_char (opt_text (si_name s)) = true.
Hypothesis CALLS : forall s f, In s ins -> lookup (si_name s) m = Some f -> c_ident f /\ c_ident (opt_text (si_name s)).
Hypothesis ARRAYS : forall s n, In s ins -> arrayLen (si_target s) = Some n -> 0 <= n.
Hypothesis READS : reads = map si_func ins.

Lemma callback_in x : In x (map (cb_of m) ins) -> exists s, In s ins /\ x = cb_of m s /\
  c_ident (cb_offset_define x) /\ c_ident (cb_len_define x) /\ (exists r, cb_offset_define x = lit "APX_RX_" ++ r) /\ (exists r, cb_len_define x = lit "APX_RX_" ++ r).
Proof.
  intros I. apply in_map_iff in I as (s & <- & I). exists s. split; [exact I|]. split; [reflexivity|]. destruct (NAMES s I) as (_ & _ & N).
  destruct (rx_define _ N) as [A B]. unfold cb_of. cbn [cb_offset_define cb_len_define]. split; [exact A|]. split; [exact B|].
  split; [exists (lit "OFFSET_" ++ upper (opt_text (si_name s)))|exists (lit "LEN_" ++ upper (opt_text (si_name s)))]; reflexivity.
Qed.
Lemma first_in l f : first_callback l = Some f -> In f l.
Proof. unfold first_callback. intros E. apply find_some in E as [I _]. exact I. Qed.
Lemma notifier_fits H n x : gen_notifier H n (Some (map (cb_of m) ins)) = Ok x -> notifier_ok x /\
  match x with
  | Switch g parts _ => match g with Some g => exists r, g = lit "APX_RX_" ++ r | None => True end /\ Forall rx_part parts /\
      Forall (fun x => match x with PCase _ _ (Some k) => In (cl_read k) reads | _ => True end) parts
  | _ => True
  end.
Proof.
  intros E. unfold gen_notifier in E. destruct (n =? 0); [injection E as <-; split; exact Logic.I|]. apply bind_ok in E as (parts & SP & E). injection E as <-. cbn [notifier_ok].
  assert (forall f, first_callback (map (cb_of m) ins) = Some f -> c_ident (cb_offset_define f) /\ exists r, cb_offset_define f = lit "APX_RX_" ++ r) as FC.
  { intros f Ef. destruct (callback_in f (first_in _ _ Ef)) as (s & _ & _ & A & _ & B & _). auto. }
  assert (forall y, In y parts -> parts_ok y /\ rx_part y /\ match y with PCase _ _ (Some k) => In (cl_read k) reads | _ => True end) as PO.
  { intros y I. destruct (fragments _ _ _ _ _ _ _ SP I) as [(s & ->)|(x & Ix & X)]; [repeat split|].
    destruct (callback_in x Ix) as (s & Is & -> & A1 & A2 & A3 & A4). unfold code_fragment in X. change (cb_func (cb_of m s)) with (lookup (si_name s) m) in X.
    destruct (lookup (si_name s) m) as [f|] eqn:L; [|injection X as <-; cbn [parts_ok rx_part]; auto].
    apply bind_ok in X as (ref & _ & X). injection X as <-. cbn [parts_ok rx_part cl_port cl_read cl_func cb_of cb_sig].
    destruct (CALLS s f Is L) as [C1 C2]. destruct (NAMES s Is) as (C3 & _). change (cb_sig (cb_of m s)) with s. split; [auto|]. split; [auto|]. rewrite READS. apply in_map, Is. }
  split; [split; [|split]|split; [|split]].
  - destruct (first_callback _) as [f|]; [|exact Logic.I]. destruct (_ =? 0); [exact Logic.I|]. apply FC. reflexivity.
  - apply Forall_forall. intros y I. apply PO, I.
  - apply Forall_forall. intros [[v t] a] I. apply sorted_in, in_rev, in_map_iff in I as (x & X & I). injection X as <- <- <-. apply filter_In in I as [I HF].
    destruct (callback_in x I) as (s & Is & -> & _). change (cb_sig (cb_of m s)) with s. unfold has_func in HF. change (cb_func (cb_of m s)) with (lookup (si_name s) m) in HF.
    destruct (lookup (si_name s) m) as [f|] eqn:L; [|discriminate]. unfold var_ok. cbn [fst snd]. split; [apply (CALLS s f Is L)|]. split; [apply (NAMES s Is)|].
    destruct (arrayLen (si_target s)) as [k|] eqn:A; [exact (ARRAYS s k Is A)|exact Logic.I].
  - destruct (first_callback _) as [f|]; [|exact Logic.I]. destruct (_ =? 0); [exact Logic.I|]. apply FC. reflexivity.
  - apply Forall_forall. intros y I. apply PO, I.
  - apply Forall_forall. intros y I. apply PO, I.
Qed.
End Callbacks.

Lemma generate_flags fuel sfx W nd name callbacks direct synced W' nd' c :
  generate fuel sfx W nd name callbacks direct synced = Ok (W', nd', c) ->
  c_node c = n_name nd' /\ c_callbacks c = (match callbacks with Some _ => true | None => false end) /\ c_synced c = synced.
Proof.
  unfold generate. intros E.
  apply bind_ok in E as (nm & En & E). apply bind_ok in E as ([W1 nd1] & Ef & E).
  apply bind_ok in E as ([W2 ins] & Ei & E). apply bind_ok in E as (cbs & Ec & E).
  apply bind_ok in E as ([W3 outs] & Eo & E). apply bind_ok in E as (text & Et & E).
  apply bind_ok in E as (oi & Eoi & E). apply bind_ok in E as (ii & Eii & E).
  apply bind_ok in E as (reads & Er & E). apply bind_ok in E as (writes & Ew & E).
  apply bind_ok in E as (nt & Ent & E). injection E as <- <- <-. auto.
Qed.

(** ** The generated file *)

Record good (version : str) (W : world) (nd : node) (c : cfile) (ds : list str) : Prop := mk_good {
  go_file : okfile c ds version;
  go_text : exists text, context_dumps false W [nd] = Ok text /\ concat ds = text ++ [10] /\ c_deflen c = len text + 1;
  go_names : NoDup (fun_names (file_units c ds));
  go_macros : macros (source_lines version c) = three c ++ c_lens c ++ c_offsets c;
  go_rx : rx (c_lens c ++ c_offsets c);
  go_out : len (c_outinit c) = c_outlen c;
  go_in : len (c_ininit c) = c_inlen c;
  go_outs : bytes_ok (c_outinit c);
  go_ins : bytes_ok (c_ininit c);
  go_notifier : if 0 <? c_inlen c then rx_notifier c else c_notifier c = NoNotifier
}.

Lemma array_nonneg H d t n : cable H d t -> arrayLen d = Some n -> 0 <= n.
Proof. intros C E. rewrite (target_array _ _ _ C) in E. destruct C; cbn [array_length] in E; try discriminate; injection E as <-; lia. Qed.
Lemma lens_nonneg l : Forall (fun s => 0 <= si_len s) l -> 0 <= sum_lens l.
Proof. induction 1 as [|s l A _ IH]; cbn [sum_lens]; lia. Qed.
Lemma filled (b : bytes) n : len b = n -> 0 < n -> b <> [].
Proof. intros E L ->. unfold len in E. cbn in E. lia. Qed.
Lemma bytes_nonneg b : bytes_ok b -> Forall (fun z => 0 <= z) b.
Proof. intros B. eapply Forall_impl; [|exact B]. intros z Z. unfold byte_ok in Z. lia. Qed.

Lemma fits_good version fuel sfx W nd name callbacks direct synced W' nd' c tin tout :
  generate fuel sfx W nd name callbacks direct synced = Ok (W', nd', c) -> ~ In 42 version ->
  node_fits sfx W' nd' (c_name c) (the_callbacks callbacks) tin tout -> exists ds, good version W' nd' c ds.
Proof.
  intros E V [Fnode Fname Ftext Fports Fcalls Fin Fout Fmem Freq Fprov].
  destruct (generate_flags _ _ _ _ _ _ _ _ _ _ _ E) as (Enode & Ecb & _).
  apply generate_inv in E as (W1 & nm & ins & outs & text & cbs & _ & _ & _ & G).
  destruct G as [Gi Go Gt Gii Goi Gr Gw Gc Gn Gnm Gd Gil Gol Glit Glens Goff]. rewrite Gnm in Fname.
  apply Forall_app in Fports as [Fp1 Fp2]. apply Forall_app in Fmem as [Fm1 Fm2].
  pose proof (text_names_distinct _ _ Freq) as N1. pose proof (text_names_distinct _ _ Fprov) as N2.
  destruct (table_ok _ _ _ _ Fname _ _ _ Gi Fp1 N1 Gii) as [Bi Li]. destruct (table_ok _ _ _ _ Fname _ _ _ Go Fp2 N2 Goi) as [Bo Lo].
  destruct (funs_ok _ _ _ _ Fname _ _ _ _ _ _ Gi Fin Fm1 Fp1 N1 Gr) as [Or Er]. destruct (funs_ok _ _ _ _ Fname _ _ _ _ _ _ Go Fout Fm2 Fp2 N2 Gw) as [Ow Ew].
  pose proof (literal_denotes text (Ftext text Gt)) as D. apply denoted_all in D as (ds & Dl & Dc).
  exists ds.
  pose proof (signals_nonneg _ _ _ _ _ _ _ Gi) as Nn. pose proof (signals_nonneg _ _ _ _ _ _ _ Go) as No.
  (* the callbacks *)
  set (l := match cbs with Some l => l | None => [] end) in *.
  assert (NAMES : forall s, In s ins -> c_ident (si_func s) /\ c_ident (opt_text (si_type s)) /\ forallb name_char (opt_text (si_name s)) = true).
  { intros s I. destruct (signals_ok _ _ _ _ Fname _ _ _ Gi Fp1 s I) as (A & B & C & _). auto. }
  assert (CB : exists m, (callbacks = None /\ l = [] \/ callbacks = Some m /\ cbs = Some (map (cb_of m) ins) /\ l = map (cb_of m) ins)).
  { destruct callbacks as [m|]; cbn [made_callbacks] in Gc.
    - apply bind_ok in Gc as (k & Gc & X). injection X as <-. apply create_callbacks_inv in Gc as [-> _]. exists m. right. auto.
    - injection Gc as <-. exists []. left. auto. }
  assert (DEF : forall x, In x l -> c_ident (cb_offset_define x) /\ c_ident (cb_len_define x) /\ 0 <= si_offset (cb_sig x) /\ 0 <= si_len (cb_sig x) /\
     (exists r, cb_offset_define x = lit "APX_RX_" ++ r) /\ (exists r, cb_len_define x = lit "APX_RX_" ++ r)).
  { intros x I. destruct CB as (m & [(_ & X)|(_ & _ & X)]); rewrite X in I; [destruct I|]. destruct (callback_in m ins NAMES x I) as (s & Is & -> & A1 & A2 & A3 & A4).
    change (cb_sig (cb_of m s)) with s. rewrite Forall_forall in Nn. pose proof (Nn s Is) as L0.
    pose proof (chained_later 0 ins s (proj2 (Forall_forall _ _) Nn) (signals_chained _ _ _ _ _ _ _ Gi) Is) as O0. auto 8. }
  assert (LENS : Forall (fun m => (c_ident (fst m) /\ 0 <= snd m) /\ exists r, fst m = lit "APX_RX_" ++ r) (c_lens c)).
  { rewrite Glens. apply Forall_map, Forall_forall. intros x I. apply (Permutation_in _ (by_len_perm l)) in I. destruct (DEF x I) as (A1 & A2 & A3 & A4 & A5 & A6). cbn [fst snd]. auto. }
  assert (OFFS : Forall (fun m => (c_ident (fst m) /\ 0 <= snd m) /\ exists r, fst m = lit "APX_RX_" ++ r) (c_offsets c)).
  { rewrite Goff. apply Forall_map, Forall_forall. intros x I. destruct (DEF x I) as (A1 & A2 & A3 & A4 & A5 & A6). cbn [fst snd]. auto. }
  assert (NOT : notifier_ok (c_notifier c) /\ if 0 <? c_inlen c then rx_notifier c else c_notifier c = NoNotifier).
  { pose proof (lens_nonneg _ Nn) as S0. destruct CB as (m & [(-> & _)|(-> & -> & _)]).
    - injection Gc as <-. unfold gen_notifier in Gn. unfold rx_notifier. rewrite Gil. destruct (Z.eqb_spec (sum_lens ins) 0) as [Z0|Z0]; injection Gn as <-; (split; [exact Logic.I|]).
      + rewrite Z0. reflexivity.
      + replace (0 <? sum_lens ins) with true by lia. exact Logic.I.
    - assert (AT : forall s, In s ins -> exists o t, In o (n_require nd') /\ si_name s = pt_name (w_ports W' o) /\ cable (w_types W') (si_target s) t).
      { intros s Is. destruct (signals_all _ _ _ _ _ _ _ Gi s Is) as (o & off & Io & S). apply In_nth_error in Io as Io'. destruct Io' as (i & No'). destruct (NodeProofs.Forall2_nth _ _ _ _ _ Fin No') as (t & _ & d & R & C).
        exists o, t. split; [exact Io|]. split; [exact (sg_name _ _ _ _ _ _ _ S)|]. pose proof (sg_target _ _ _ _ _ _ _ S) as T. assert (si_target s = d) as -> by congruence. exact C. }
      destruct (notifier_fits m ins (map cf_name (c_reads c)) NAMES) with (H := w_types W') (n := sum_lens ins) (x := c_notifier c) as [A B].
      + intros s f Is L. destruct (AT s Is) as (o & t & Io & Es & _). rewrite Forall_forall in Fcalls. specialize (Fcalls o Io). unfold callback_fits, the_callbacks in Fcalls.
        rewrite <- Es, <- lookup_for, L in Fcalls. exact Fcalls.
      + intros s n Is A. destruct (AT s Is) as (o & t & _ & _ & C). exact (array_nonneg _ _ _ _ C A).
      + exact Er.
      + exact Gn.
      + split; [exact A|]. unfold rx_notifier. rewrite Gil. unfold gen_notifier in Gn. destruct (Z.eqb_spec (sum_lens ins) 0) as [Z0|Z0]; [injection Gn as <-; rewrite Z0; reflexivity|].
        replace (0 <? sum_lens ins) with true by lia. apply bind_ok in Gn as (parts & _ & Gn). injection Gn as Gn. rewrite <- Gn in B |- *. destruct B as (B1 & B2 & B3). split; [exact B1|]. split; [exact B2|].
        eapply Forall_impl; [|exact B3]. intros [a b [k|]|k] X; exact X. }
  destruct NOT as [NOT1 NOT2].
  assert (KF : okfile c ds version).
  { constructor; rewrite ?Gnm, ?Enode, ?Gol, ?Gil; auto.
    - exact (filled _ _ Lo).
    - exact (filled _ _ Li).
    - exact (bytes_nonneg _ Bo).
    - exact (bytes_nonneg _ Bi).
    - rewrite Glit. exact Dl.
    - rewrite Glit. intros X. apply map_eq_nil in X. exact (split_on_ne _ _ X). }
  constructor; try assumption.
  - exists text. auto.
  - rewrite fun_names_are, Er, Ew, (signal_funcs _ _ _ _ _ _ _ Gi), (signal_funcs _ _ _ _ _ _ _ Go), Gnm.
    set (extra := match c_notifier c with NoNotifier => [] | _ => [notify_name nm] end).
    assert (extra = [] \/ extra = [notify_name nm]) as EX by (unfold extra; destruct (c_notifier c); auto). clearbody extra.
    assert (forall p (a b : str), lit p ++ nm ++ lit "_" ++ a = lit p ++ nm ++ lit "_" ++ b -> a = b) as INJ.
    { intros p a b X. apply app_inv_head in X. apply app_inv_head in X. apply app_inv_head in X. exact X. }
    change (map (fun x => lit "ApxNode_" ++ lit "Read_" ++ nm ++ lit "_" ++ x)) with (map (fun x => lit "ApxNode_Read_" ++ nm ++ lit "_" ++ x)).
    change (map (fun x => lit "ApxNode_" ++ lit "Write_" ++ nm ++ lit "_" ++ x)) with (map (fun x => lit "ApxNode_Write_" ++ nm ++ lit "_" ++ x)).
    rewrite (app_assoc (map _ (text_names W' (n_require nd')))).
    apply NoDup_app'; [|apply NoDup_app'; [apply NoDup_app'|destruct EX as [->| ->]; repeat constructor; intros []|]|].
    + repeat constructor; cbn [In]; intros K; decompose [or] K; try contradiction;
        match goal with H : _ ++ nm = _ ++ nm |- _ => first [apply (f_equal (fun l : str => nth_error l 8)) in H; discriminate|apply (f_equal (fun l : str => nth_error l 9)) in H; discriminate] end.
    + apply nodup_map; [apply INJ|exact Freq].
    + apply nodup_map; [apply INJ|exact Fprov].
    + intros x A B. apply in_map_iff in A as (y & <- & _). apply in_map_iff in B as (z & B & _). apply (f_equal (fun l : str => nth_error l 8)) in B. discriminate.
    + intros x A B. destruct EX as [->| ->]; [destruct B|]. destruct B as [<-|[]]. unfold notify_name in A.
      apply in_app_or in A as [A|A]; apply in_map_iff in A as (y & A & _).
      * exact (notify_not_read _ _ A).
      * exact (notify_not_write _ _ A).
    + intros x A B. apply in_app_or in B as [B|B].
      * apply in_app_or in B as [B|B]; apply in_map_iff in B as (y & <- & _); cbn [In] in A; decompose [or] A; try contradiction;
          match goal with H : _ = _ |- _ => first [apply (f_equal (fun l : str => nth_error l 8)) in H; discriminate] end.
      * destruct EX as [->| ->]; [destruct B|]. destruct B as [<-|[]]. unfold notify_name in A.
        cbn [In] in A. decompose [or] A; try contradiction; match goal with H : _ = _ |- _ => apply (f_equal (@length Z)) in H; rewrite !app_length in H; cbn in H; lia end.
  - rewrite source_macros.
    + rewrite Ecb. destruct CB as (m & [(-> & X)|(-> & _)]); [|reflexivity]. rewrite Glens, Goff, X. reflexivity.
    + rewrite Gd. pose proof (len_nonneg text). lia.
    + rewrite Gil. apply lens_nonneg, Nn.
    + rewrite Gol. apply lens_nonneg, No.
    + eapply Forall_impl; [|exact LENS]. intros x X. exact (proj1 X).
    + eapply Forall_impl; [|exact OFFS]. intros x X. exact (proj1 X).
  - apply Forall_app. split; [eapply Forall_impl; [|exact LENS]|eapply Forall_impl; [|exact OFFS]]; intros x X; exact (proj2 X).
  - rewrite Gol. exact Lo.
  - rewrite Gil. exact Li.
Qed.
