(** Properties C31 to C36: the data of a node. *)
From Coq Require Import ZifyBool ZifyNat Lia Sorted.
From Verif Require Import Py PyLemmas TypesModel CompilerModel VmModel TypesSpec TypesProofs
  CompilerProofs VmProofs VmPackProofs VmUnpackProofs CompilerProps VmProps
  TextModel SigModel AttrModel NodeModel ParserModel RmfModel FileModel FileProofs
  NodeDataModel NodeDataSpec NodeDataProofs NodeInitProofs.
Ltac Zify.zify_post_hook ::= Z.div_mod_to_equations.

(** ** Vocabulary *)

Definition content (F : heap) (k : option nat) : bytes := match k with Some k => f_data (F k) | None => [] end.
Definition out_data (F : heap) (D : ndata) : bytes := content F (d_out D).
Definition in_data (F : heap) (D : ndata) : bytes := content F (d_in D).

(** NodeData was built for a node whose ports mean these types: faithful ones, and
    require types with distinct member names. *)
Record good (fuel : nat) (W : world) (nd : node) (F : heap) (k : nat) (W' : world) (F' : heap) (k' : nat)
    (D : ndata) (ins outs : list ty) : Prop := mk_good {
  g_separate : separate nd;
  g_built : node_data fuel W nd F k = Ok (W', F', k', D);
  g_ins : Forall2 (port_means W') (n_require nd) ins;
  g_outs : Forall2 (port_means W') (n_provide nd) outs;
  g_rins : Forall regular ins;
  g_routs : Forall regular outs;
  g_pleasant : Forall pleasant ins
}.

(** Some state of the node data after a history of operations. *)
Definition reached (W' : world) (F' : heap) (D : ndata) (live heard : bool) (ops : list nop)
    (F3 : heap) (D3 : ndata) (rs : list reply) : Prop :=
  exists F2, attached F' F2 D live /\ Forall op_ok ops /\ crun W' F2 (with_client D heard) ops = (F3, D3, rs).

(** ** The node of tests/node_data_test.py *)

Definition test_text : str := lit "APX/1.2
N""TestNode""
T""InactiveActive_T""C(0,3)
P""VehicleSpeed""S:=65535
P""MainBeam""T[0]:=3
P""TotalDistance""L:=0xFFFFFFFF
P""ComplexRecordSignal""{""SensorData""{""x""S""y""S""z""S}""TimeStamp""L}:={{65535,65535,65535},0xFFFFFFFF}
R""RheostatLevelRqst""C:=255
R""StrSignal""a[8]:=""""
R""RecordSignal""{""Name""a[8]""Id""L""Data""S[3]}:={"""",0xFFFFFFFF,{0,0,0}}
".

Definition blank : file := mk_file KFile (mk_finfo [] 0 0 None 0 []) false false false [].

(** Building the data of the node with text [s]; [None] if something raises. *)
Definition build (s : str) : option (world * node * (world * heap * nat * ndata)) :=
  match loads empty_world s with
  | Ok (W, nd) =>
    match node_data 100 W nd (fun _ => blank) 0 with
    | Ok r => Some (W, nd, r)
    | Err _ => None
    end
  | Err _ => None
  end.

(** A computed version of [denotes] for the examples. *)
Fixpoint denote (n : nat) (H : theap) (e : delem) : option ty :=
  match n with
  | O => None
  | S m =>
    match e with
    | DPrim _ c _ _ a =>
      match kind_of c, a with
      | Some k, None => Some (TInt k)
      | Some k, Some n => Some (TArr k n)
      | None, None => Some TChr
      | None, Some n => Some (TStr n)
      end
    | DRec _ es =>
      match (fix go l := match l with
                         | [] => Some []
                         | e :: r => match de_name e, denote m H e, go r with
                                     | Some nm, Some t, Some ms => Some ((nm, t) :: ms)
                                     | _, _, _ => None
                                     end
                         end) es with
      | Some ms => Some (TRec ms)
      | None => None
      end
    | DRef _ (RObj o) => denote m H (dt_elem (H o))
    | _ => None
    end
  end.
Lemma denote_sound : forall n H e t, denote n H e = Some t -> denotes H n e t.
Proof.
  induction n as [|n IH]; intros H e t E; [discriminate|].
  destruct e as [nm c lo hi a|nm es|nm [i|s|o]]; cbn [denote] in E; try discriminate.
  - destruct (kind_of c) as [k|] eqn:K; destruct a; invc E; try (constructor; exact K);
      destruct c; try discriminate; constructor.
  - match type of E with match ?g with _ => _ end = _ => destruct g as [ms|] eqn:G; [|discriminate] end.
    invc E. constructor. revert ms G. induction es as [|e es IHes]; intros ms G; [invc G; constructor|].
    destruct (de_name e) as [m|] eqn:N; [|discriminate]. destruct (denote n H e) as [t|] eqn:T; [|discriminate].
    match type of G with match ?g with _ => _ end = _ => destruct g as [ms'|] eqn:G'; [|discriminate] end.
    invc G. constructor; auto.
  - constructor. auto.
Qed.

Definition test_ins : list ty :=
  [TInt U8; TStr 8; TRec [(lit "Name", TStr 8); (lit "Id", TInt U32); (lit "Data", TArr U16 3)]].
Definition test_outs : list ty :=
  [TInt U16; TInt U8; TInt U32;
   TRec [(lit "SensorData", TRec [(lit "x", TInt U16); (lit "y", TInt U16); (lit "z", TInt U16)]);
         (lit "TimeStamp", TInt U32)]].

Lemma build_inv s W nd W' F' k' D : build s = Some (W, nd, (W', F', k', D)) ->
  loads empty_world s = Ok (W, nd) /\ node_data 100 W nd (fun _ => blank) 0 = Ok (W', F', k', D).
Proof.
  unfold build. intros E. destruct (loads empty_world s) as [[W0 nd0]|]; [|discriminate].
  destruct (node_data _ W0 nd0 _ _) as [r|] eqn:B; [|discriminate]. invc E. auto.
Qed.

Lemma test_facts :
  match build test_text with
  | Some (W, nd, (W', F', k', D)) =>
    n_require nd = [4%nat; 5%nat; 6%nat] /\ n_provide nd = [0%nat; 1%nat; 2%nat; 3%nat] /\
    denote 100 (w_types W') (pt_elem (w_ports W' 4)) = nth_error test_ins 0 /\ init_of (w_ports W 4) = IVInt 255 /\
    denote 100 (w_types W') (pt_elem (w_ports W' 5)) = nth_error test_ins 1 /\ init_of (w_ports W 5) = IVStr [] /\
    denote 100 (w_types W') (pt_elem (w_ports W' 6)) = nth_error test_ins 2 /\ init_of (w_ports W 6) = IVList [IVStr []; IVInt 4294967295; IVList [IVInt 0; IVInt 0; IVInt 0]] /\
    denote 100 (w_types W') (pt_elem (w_ports W' 0)) = nth_error test_outs 0 /\ init_of (w_ports W 0) = IVInt 65535 /\
    denote 100 (w_types W') (pt_elem (w_ports W' 1)) = nth_error test_outs 1 /\ init_of (w_ports W 1) = IVInt 3 /\
    denote 100 (w_types W') (pt_elem (w_ports W' 2)) = nth_error test_outs 2 /\ init_of (w_ports W 2) = IVInt 4294967295 /\
    denote 100 (w_types W') (pt_elem (w_ports W' 3)) = nth_error test_outs 3 /\ init_of (w_ports W 3) = IVList [IVList [IVInt 65535; IVInt 65535; IVInt 65535]; IVInt 4294967295]
  | None => False
  end.
Proof. vm_compute. repeat split. Qed.

(** The hypotheses of the theorems below hold for this node. *)
Example test_good : exists W nd W' F' k' D,
  build test_text = Some (W, nd, (W', F', k', D)) /\
  good 100 W nd (fun _ => blank) 0 W' F' k' D test_ins test_outs /\
  0 < total test_ins /\ 0 < total test_outs /\
  Forall2 (fun o t => first_bytes t (init_of (w_ports W o)) <> None) (n_require nd) test_ins /\
  Forall2 (fun o t => first_bytes t (init_of (w_ports W o)) <> None) (n_provide nd) test_outs.
Proof.
  destruct (build test_text) as [[[W nd] [[[W' F'] k'] D]]|] eqn:E; [|pose proof test_facts as X; rewrite E in X; contradiction].
  exists W, nd, W', F', k', D. split; [reflexivity|].
  pose proof test_facts as X. rewrite E in X. apply build_inv in E as [_ Bl].
  destruct X as (R & P & M1 & V1 & M2 & V2 & M3 & V3 & M4 & V4 & M5 & V5 & M6 & V6 & M7 & V7).
  rewrite R, P in *. unfold test_ins, test_outs in *. cbn [nth_error] in *.
  split; [split|].
  - unfold separate. rewrite R, P. cbn [In]. intros o. lia.
  - exact Bl.
  - rewrite R. repeat apply Forall2_cons; try apply Forall2_nil; exists 100%nat; apply denote_sound; assumption.
  - rewrite P. repeat apply Forall2_cons; try apply Forall2_nil; exists 100%nat; apply denote_sound; assumption.
  - repeat (apply Forall_cons || apply Forall_nil || split); cbn; try lia; try discriminate; repeat constructor; lia.
  - repeat (apply Forall_cons || apply Forall_nil || split); cbn; try lia; try discriminate; repeat constructor; lia.
  - repeat (apply Forall_cons || apply Forall_nil); left; try exact I. cbn. split; [repeat constructor|].
    repeat constructor; cbn; intuition discriminate.
  - split; [reflexivity|]. split; [reflexivity|].
    split; repeat (apply Forall2_cons || apply Forall2_nil); rewrite ?V1, ?V2, ?V3, ?V4, ?V5, ?V6, ?V7; vm_compute; discriminate.
Qed.

(** What happens to a node when its files are attached and open, a client listens
    and [ops] are done: the replies, output file, input file and the lock. *)
Definition scenario (s : str) (ops : list nop) : option (list reply * bytes * bytes * bool) :=
  match build s with
  | Some (_, _, (W, F, _, D)) =>
    let F := match d_out D with Some k => upd F k (with_open (with_managed (F k) true) true) | None => F end in
    let '(F, D, rs) := crun W F (with_client D true) ops in
    Some (rs, out_data F D, in_data F D, d_locked D)
  | None => None
  end.

(** ** C31 *)

Definition layout (fuel : nat) (W : world) (ports : list nat) (s : side) (size : Z) : Prop :=
  map pm_port (s_map s) = ports /\ consecutive 0 (s_map s) size /\
  Forall (fun m => packLen fuel (w_types W) (pt_elem (w_ports W (pm_port m))) = Ok (pm_len m)) (s_map s).

Lemma laid_layout fuel d W : forall l i a maps progs inits,
  laid fuel d W i a l maps progs inits ->
  map pm_port maps = l /\ consecutive a maps (a + sum_len maps) /\
  Forall (fun m => packLen fuel (w_types W) (pt_elem (w_ports W (pm_port m))) = Ok (pm_len m)) maps.
Proof.
  induction l as [|o l IH]; intros i a maps progs inits L;
    destruct maps as [|m maps], progs as [|p progs], inits as [|b inits]; try contradiction.
  - cbn [map consecutive sum_len]. split; [reflexivity|]. split; [lia|constructor].
  - cbn [laid] in L. destruct L as (A & B & C & (tg & D1 & D2 & D3 & D4) & L).
    apply IH in L as (X & Y & Z). cbn [map consecutive sum_len]. rewrite X, A. split; [reflexivity|].
    split; [|constructor; [rewrite A; exact D2|exact Z]].
    split; [exact B|]. rewrite Z.add_assoc. exact Y.
Qed.

(** The ranges follow each other from 0 to the size of the file, each as long as
    packLen says, and the file has just that many bytes. *)
Theorem port_layout fuel W nd F k W' F' k' D :
  separate nd -> node_data fuel W nd F k = Ok (W', F', k', D) ->
  layout fuel W' (n_require nd) (d_inside D) (len (in_data F' D)) /\
  layout fuel W' (n_provide nd) (d_outside D) (len (out_data F' D)).
Proof.
  intros Sep E.
  apply node_data_inv in E as (S & (m1 & p1 & i1 & L1 & E1 & Q1 & F1) & (m2 & p2 & i2 & L2 & E2 & Q2 & F2) & _); auto.
  apply laid_layout in L1, L2. rewrite Z.add_0_l in *.
  unfold layout, in_data, out_data. rewrite E1, E2. cbn [s_map].
  assert (len (content F' (d_in D)) = sum_len m1) as ->.
  { destruct (d_in D); [|symmetry; exact F1]. destruct F1 as (_ & (_ & B & _) & _). cbn [content]. rewrite B. exact Q1. }
  assert (len (content F' (d_out D)) = sum_len m2) as ->.
  { destruct (d_out D); [|symmetry; exact F2]. destruct F2 as (_ & (_ & B & _) & _). cbn [content]. rewrite B. exact Q2. }
  auto.
Qed.
Print Assumptions port_layout.

Example ex_layout :
  match build test_text with
  | Some (_, nd, (W', F', _, D)) =>
    n_require nd = [4%nat; 5%nat; 6%nat] /\
    s_map (d_inside D) = [mk_portmap 0 1 4; mk_portmap 1 8 5; mk_portmap 9 18 6] /\ len (in_data F' D) = 27 /\
    s_map (d_outside D) = [mk_portmap 0 2 0; mk_portmap 2 1 1; mk_portmap 3 4 2; mk_portmap 7 10 3] /\
    len (out_data F' D) = 17
  | None => False
  end.
Proof. vm_compute. repeat split. Qed.

(** The file made for a side announces its size and is named after the node. *)
Theorem port_files fuel W nd F k W' F' k' D :
  separate nd -> node_data fuel W nd F k = Ok (W', F', k', D) ->
  (forall i, d_in D = Some i -> f_length (F' i) = len (f_data (F' i)) /\ f_kind (F' i) = KInput /\
     f_handled (F' i) = true /\ exists nm, n_name nd = Some nm /\ f_name (F' i) = nm ++ lit ".in") /\
  (forall i, d_out D = Some i -> f_length (F' i) = len (f_data (F' i)) /\ f_kind (F' i) = KOutput /\
     exists nm, n_name nd = Some nm /\ f_name (F' i) = nm ++ lit ".out") /\
  (exists nm text, n_name nd = Some nm /\ f_name (F' (d_def D)) = nm ++ lit ".apx" /\
     context_dumps false W [nd] = Ok text /\ f_data (F' (d_def D)) = text).
Proof.
  intros Sep E.
  apply node_data_inv in E as (S & (m1 & p1 & i1 & L1 & E1 & Q1 & F1) & (m2 & p2 & i2 & L2 & E2 & Q2 & F2) & _ & _ & _ & _ & _ & X); auto.
  destruct X as (text & b & T & A & Db & _ & nm & N & Nm).
  split; [|split].
  - intros i Di. rewrite Di in F1. destruct F1 as (_ & (B1 & B2 & B3 & _) & B4 & B5). rewrite B2, B3. auto.
  - intros i Di. rewrite Di in F2. destruct F2 as (_ & (B1 & B2 & B3 & _) & B4 & B5). rewrite B2, B3. auto.
  - exists nm, text. split; [auto|]. split; [auto|]. split; [auto|]. rewrite Db.
    unfold encode_ascii in A. destruct (forallb _ _); invc A. reflexivity.
Qed.
Print Assumptions port_files.

Example ex_files :
  match build test_text with
  | Some (_, _, (W', F', _, D)) =>
    option_map (fun k => f_name (F' k)) (d_in D) = Some (lit "TestNode.in") /\
    option_map (fun k => f_name (F' k)) (d_out D) = Some (lit "TestNode.out") /\
    f_name (F' (d_def D)) = lit "TestNode.apx"
  | None => False
  end.
Proof. vm_compute. repeat split. Qed.

Lemma sane_tlen H : (forall o, sane (dt_elem (H o))) ->
  (forall n e t, denotes H n e t -> sane e -> 0 <= tlen t) /\
  (forall n es ms, members H n es ms -> sane (DRec None es) -> 0 <= mlen ms).
Proof.
  intros SH. apply denotes_members_ind.
  - intros. cbn [tlen]. lia.
  - intros. cbn [tlen sane] in *. lia.
  - intros. cbn [tlen]. lia.
  - intros. cbn [tlen sane] in *. lia.
  - intros n nm es ms M IH S. apply IH. exact S.
  - intros n nm o t D IH S. apply IH, SH.
  - intros n S. rewrite mlen_nil. lia.
  - intros n e es nm t ms N D IHe M IHm S. rewrite mlen_cons. cbn [sane] in S. destruct S as [S1 S2].
    specialize (IHe S1). specialize (IHm S2). lia.
Qed.

Lemma laid_nonneg fuel d W : sane_world W -> forall l i a maps progs inits,
  laid fuel d W i a l maps progs inits -> Forall (fun m => 0 <= pm_len m) maps.
Proof.
  intros [SH SP]. induction l as [|o l IH]; intros i a maps progs inits L;
    destruct maps as [|m maps], progs as [|p progs], inits as [|b inits]; try contradiction; constructor.
  - cbn [laid] in L. destruct L as (A & B & C & (tg & D1 & D2 & D3 & D4) & L).
    apply compileProg_iff in D3 as (t & Ac & _). destruct (proj1 (accepts_denotes (w_types W)) _ _ _ Ac) as [n Dn].
    assert (M : means (w_types W) (pt_elem (w_ports W o)) t).
    { clear -D1 Dn. unfold resolve_data_element in D1. revert D1. generalize (pt_elem (w_ports W o)).
      generalize MAX_RECURSE_DEPTH. intros c. induction c as [|c IH]; intros e R; cbn [resolve_loop] in R.
      - destruct (is_reference e); [discriminate|]. invc R. exists n. exact Dn.
      - destruct e as [nm cd lo hi a|nm es|nm [i|s|o']]; try discriminate; try (invc R; exists n; exact Dn).
        destruct (IH _ R) as [n' D']. exists (S n'). constructor. exact D'. }
    rewrite (means_packLen _ _ _ _ _ M D2). destruct M as [n' M]. eapply (proj1 (sane_tlen _ SH)); eauto.
  - cbn [laid] in L. destruct L as (_ & _ & _ & _ & L). eauto.
Qed.

Lemma consecutive_find : forall maps a b x, consecutive a maps b -> Forall (fun m => 0 <= pm_len m) maps ->
  a <= b /\ (forall m, In m maps -> a <= pm_offset m) /\
  (a <= x < b -> exists i m, nth_error maps i = Some m /\ inside m x /\
     forall j m', nth_error maps j = Some m' -> inside m' x -> j = i).
Proof.
  induction maps as [|m maps IH]; intros a b x C N.
  - cbn [consecutive] in C. split; [lia|]. split; [intros m []|intros; lia].
  - cbn [consecutive] in C. destruct C as [A C]. inversion N; subst.
    destruct (IH _ _ x C H2) as (Le & Low & Ex). split; [lia|]. split.
    { intros m' [->|I]; [lia|]. specialize (Low m' I). lia. }
    intros X. destruct (Z.ltb_spec x (pm_offset m + pm_len m)).
    + exists 0%nat, m. split; [reflexivity|]. split; [unfold inside; lia|].
      intros [|j] m' N' I'; [reflexivity|]. exfalso. cbn in N'. apply nth_error_In, Low in N'. unfold inside in I'. lia.
    + destruct Ex as (i & m' & N' & I' & U); [lia|]. exists (S i), m'. split; [exact N'|]. split; [exact I'|].
      intros [|j] m2 N2 I2.
      * cbn in N2. invc N2. unfold inside in I2. lia.
      * f_equal. apply (U j m2 N2 I2).
Qed.

(** Every byte of the file belongs to exactly one port. *)
Theorem layout_exact_cover fuel W nd F k W' F' k' D :
  separate nd -> node_data fuel W nd F k = Ok (W', F', k', D) -> sane_world W' ->
  (forall x, 0 <= x < len (in_data F' D) ->
     exists i m, nth_error (s_map (d_inside D)) i = Some m /\ inside m x /\
       forall j m', nth_error (s_map (d_inside D)) j = Some m' -> inside m' x -> j = i) /\
  (forall x, 0 <= x < len (out_data F' D) ->
     exists i m, nth_error (s_map (d_outside D)) i = Some m /\ inside m x /\
       forall j m', nth_error (s_map (d_outside D)) j = Some m' -> inside m' x -> j = i).
Proof.
  intros Sep E SW. pose proof (port_layout _ _ _ _ _ _ _ _ _ Sep E) as [(_ & C1 & _) (_ & C2 & _)].
  apply node_data_inv in E as (S & (m1 & p1 & i1 & L1 & E1 & _) & (m2 & p2 & i2 & L2 & E2 & _) & _); auto.
  apply laid_nonneg in L1, L2; auto. rewrite E1, E2 in *. cbn [s_map] in *.
  split; intros x X.
  - exact (proj2 (proj2 (consecutive_find _ _ _ x C1 L1)) X).
  - exact (proj2 (proj2 (consecutive_find _ _ _ x C2 L2)) X).
Qed.
Print Assumptions layout_exact_cover.

Example ex_cover :
  match build test_text with
  | Some (_, _, (_, _, _, D)) =>
    map (fun x => map pm_port (filter (fun m => (pm_offset m <=? x) && (x <? pm_offset m + pm_len m)) (s_map (d_outside D))))
      [0; 1; 2; 3; 6; 7; 16] = [[0%nat]; [0%nat]; [1%nat]; [2%nat]; [2%nat]; [3%nat]; [3%nat]]
  | None => False
  end.
Proof. vm_compute. reflexivity. Qed.

(** ** C32 *)

Definition pictures (F : heap) (D : ndata) (s : astate) : Prop :=
  out_data F D = concat (a_parts s) /\ in_data F D = a_in s /\ s_values (d_outside D) = a_vals s /\
  d_locked D = a_stuck s.

Lemma sim_pictures W ins outs live heard F D s : sim W ins outs live heard F D s -> pictures F D s.
Proof.
  intros [Lin SB Lout SP SV SN SZ SL SC SO SI SIL SIO SA]. split; [|split; [|auto]].
  - unfold out_data, content. destruct (d_out D) as [i|]; [apply SO|].
    apply sized_concat in SZ. destruct (concat (a_parts s)) as [|z l] eqn:E; [reflexivity|].
    rewrite len_cons in SZ. pose proof (len_nonneg l). lia.
  - unfold in_data, content. destruct (d_in D) as [i|]; [apply SI|].
    destruct (a_in s) as [|z l] eqn:E; [reflexivity|]. rewrite len_cons in SIL. pose proof (len_nonneg l). lia.
Qed.

Lemma reached_sim fuel W nd F k W' F' k' D ins outs live heard ops F3 D3 rs :
  good fuel W nd F k W' F' k' D ins outs -> reached W' F' D live heard ops F3 D3 rs ->
  exists s, arun ins outs live heard (first_state outs D) ops s rs /\
    sim W' ins outs live heard F3 D3 s.
Proof.
  intros [G1 G2 G3 G4 G5 G6 G7] (F2 & At & Ok & Cr).
  pose proof (first_sim _ _ _ _ _ _ _ _ _ F2 ins outs live heard G1 G2 G3 G4 G5 G6 G7 At) as S0.
  destruct (sim_run _ _ _ _ _ ops _ _ _ S0 Ok) as (s & A & S). rewrite Cr in *. cbn [fst snd] in *. eauto.
Qed.

(** The node data behave as an abstract node with one byte string and one value
    per provide port and one array of input bytes, for every history of writes,
    reads and arriving data. *)
Theorem node_data_refines fuel W nd F k W' F' k' D ins outs live heard ops F3 D3 rs :
  good fuel W nd F k W' F' k' D ins outs -> reached W' F' D live heard ops F3 D3 rs ->
  exists s, arun ins outs live heard (first_state outs D) ops s rs /\ pictures F3 D3 s.
Proof.
  intros G R. destruct (reached_sim _ _ _ _ _ _ _ _ _ _ _ _ _ _ _ _ _ G R) as (s & A & S).
  exists s. split; [exact A|]. eapply sim_pictures; eauto.
Qed.
Print Assumptions node_data_refines.

Example ex_run :
  scenario test_text
    [NWrite 1 (VInt 1); NValue 1; NWrite 2 (VInt 258); NRead 0;
     NArrive 0 (7 :: lit "ab") false; NRead 1; NArrive 0 [8] true; NRead 0; NWrite 4 (VInt 0)] =
  Some ([AStored [(2, 1)]; AValue (OVal (VInt 1)); AStored [(3, 4)]; AValue (OVal (VInt 255));
         ACalls [(0%nat, VInt 7); (1%nat, VStr (lit "ab"))]; AValue (OVal (VStr (lit "ab")));
         ACalls []; AValue (OVal (VInt 8)); AFailed []],
        [255; 255; 1; 2; 1; 0; 0; 255; 255; 255; 255; 255; 255; 255; 255; 255; 255],
        [8; 97; 98; 0; 0; 0; 0; 0; 0; 0; 0; 0; 0; 0; 0; 0; 0; 255; 255; 255; 255; 0; 0; 0; 0; 0; 0], false).
Proof. vm_compute. reflexivity. Qed.

(** The value of the last write to port [i] that was stored. *)
Fixpoint last_stored (i : Z) (ops : list nop) (rs : list reply) : option pyval :=
  match ops, rs with
  | op :: ops', r :: rs' =>
    match last_stored i ops' rs' with
    | Some v => Some v
    | None => match op, r with
              | NWrite j v, AStored _ => if j =? i then Some v else None
              | _, _ => None
              end
    end
  | _, _ => None
  end.

Lemma arun_parts ins outs live heard : 0 < total outs -> forall ops s s' rs, arun ins outs live heard s ops s' rs ->
  forall i t, nth_error outs i = Some t -> length (a_parts s) = length outs -> length (a_vals s) = length outs ->
  match last_stored (Z.of_nat i) ops rs with
  | Some v => nth_error (a_parts s') i = enc t v /\ enc t v <> None /\ nth_error (a_vals s') i = Some (OVal v)
  | None => nth_error (a_parts s') i = nth_error (a_parts s) i /\ nth_error (a_vals s') i = nth_error (a_vals s) i
  end.
Proof.
  intros T. induction 1 as [s|s op s1 r ops s2 rs St _ IH]; intros i t N Lp Lv; [split; reflexivity|].
  assert (K : (i < length outs)%nat) by (apply nth_error_Some; congruence).
  cbn [last_stored].
  assert (Step : length (a_parts s1) = length outs /\ length (a_vals s1) = length outs /\
    match (match op, r with NWrite j v, AStored _ => if j =? Z.of_nat i then Some v else None | _, _ => None end) with
    | Some v => nth_error (a_parts s1) i = enc t v /\ enc t v <> None /\ nth_error (a_vals s1) i = Some (OVal v)
    | None => nth_error (a_parts s1) i = nth_error (a_parts s) i /\ nth_error (a_vals s1) i = nth_error (a_vals s) i
    end).
  { destruct St; cbn [a_parts a_vals]; try solve [auto]; try lia.
    - assert (Ki : (i0 < length outs)%nat) by (apply nth_error_Some; congruence).
      rewrite !replaced_length by lia. split; [auto|]. split; [auto|].
      rewrite !replaced_nth by lia. destruct (Z.eqb_spec (Z.of_nat i0) (Z.of_nat i)) as [Q|Q].
      + assert (i0 = i) as -> by lia. rewrite Nat.eqb_refl. assert (t0 = t) as -> by congruence.
        rewrite H2. split; [auto|]. split; [congruence|auto].
      + destruct (Nat.eqb_spec i i0); [lia|]. auto. }
  destruct Step as (L1 & L2 & X). specialize (IH i t N L1 L2).
  destruct (last_stored (Z.of_nat i) ops rs) as [v|]; [exact IH|]. destruct IH as [-> ->]. exact X.
Qed.

(** After any history, the bytes of a provide port are the encoding of the last
    value stored in it (its initial bytes if there was none), and that value is
    what read_provide_port returns.  Nothing else ever changes them. *)
Theorem last_write_wins fuel W nd F k W' F' k' D ins outs live heard ops F3 D3 rs i t :
  good fuel W nd F k W' F' k' D ins outs -> reached W' F' D live heard ops F3 D3 rs ->
  0 < total outs -> nth_error outs i = Some t ->
  match last_stored (Z.of_nat i) ops rs with
  | Some v => enc t v = Some (part_of outs (out_data F3 D3) i) /\
              read_provide_port W' D3 (Z.of_nat i) = Done (OVal v)
  | None => part_of outs (out_data F3 D3) i = part_of outs (out_data F' D) i /\
            read_provide_port W' D3 (Z.of_nat i) = read_provide_port W' D (Z.of_nat i)
  end.
Proof.
  intros G R T N. pose proof G as [G1 G2 G3 G4 G5 G6 G7].
  destruct (reached_sim _ _ _ _ _ _ _ _ _ _ _ _ _ _ _ _ _ G R) as (s & A & S).
  destruct R as (F2 & At & Ok & Cr).
  pose proof (first_sim _ _ _ _ _ _ _ _ _ F2 ins outs live heard G1 G2 G3 G4 G5 G6 G7 At) as S0.
  assert (Read : forall F0 D0 s0, sim W' ins outs live heard F0 D0 s0 ->
    exists x, nth_error (a_vals s0) i = Some x /\ read_provide_port W' D0 (Z.of_nat i) = Done x /\
    nth_error (a_parts s0) i = Some (part_of outs (out_data F0 D0) i)).
  { intros F0 D0 s0 X. destruct (sim_value _ _ _ _ _ _ _ _ (Z.of_nat i) X) as (s1 & St & _).
    assert (K : (i < length outs)%nat) by (apply nth_error_Some; congruence).
    cbn [cstep fst snd] in St. inversion St; subst.
    - assert (i0 = i) as -> by lia. exists v. split; [auto|].
      destruct (read_provide_port W' D0 (Z.of_nat i)) as [x|e|]; cbn [reply_of] in *; try discriminate.
      split; [congruence|].
      rewrite (proj1 (sim_pictures _ _ _ _ _ _ _ _ X)). eapply part_of_concat; eauto. apply X.
    - unfold len in *. lia. }
  destruct (Read _ _ _ S) as (x & X1 & X2 & X3).
  pose proof (arun_parts _ _ _ _ T _ _ _ _ A i t N) as P.
  specialize (P ltac:(rewrite (sized_length outs); [auto|apply S0]) ltac:(apply S0)).
  destruct (last_stored (Z.of_nat i) ops rs) as [v|].
  - destruct P as (P1 & P2 & P3). rewrite P1 in X3. split; [congruence|]. rewrite X2. congruence.
  - destruct P as [P1 P2]. destruct (Read _ _ _ S0) as (y & Y1 & Y2 & Y3). split.
    + assert (out_data F2 (with_client D heard) = out_data F' D) as Same.
      { unfold out_data. change (d_out (with_client D heard)) with (d_out D). destruct At as [_ At].
        destruct (d_out D) as [j|]; [|reflexivity]. apply At. }
      rewrite P1, Y3, Same in X3. congruence.
    + rewrite X2. transitivity (Done y); [congruence|]. rewrite <- Y2. reflexivity.
Qed.
Print Assumptions last_write_wins.

Example ex_last_write :
  scenario test_text [NWrite 0 (VInt 1); NWrite 1 (VInt 0); NWrite 0 (VInt 2); NArrive 0 [1] false; NValue 0; NValue 2] =
  Some ([AStored [(0, 2)]; AStored [(2, 1)]; AStored [(0, 2)]; ACalls [(0%nat, VInt 1)]; AValue (OVal (VInt 2));
         AValue (OInit (IVInt 4294967295))],
        [2; 0; 0; 255; 255; 255; 255; 255; 255; 255; 255; 255; 255; 255; 255; 255; 255],
        [1; 0; 0; 0; 0; 0; 0; 0; 0; 0; 0; 0; 0; 0; 0; 0; 0; 255; 255; 255; 255; 0; 0; 0; 0; 0; 0], false).
Proof. vm_compute. reflexivity. Qed.

(** One write to an unlocked node: a value of the type is stored in the bytes of
    its port, all other bytes stay, and the file manager is told that range. *)
Theorem write_stores fuel W nd F k W' F' k' D ins outs live heard ops F3 D3 rs i t v b :
  good fuel W nd F k W' F' k' D ins outs -> reached W' F' D live heard ops F3 D3 rs ->
  0 < total outs -> nth_error outs i = Some t -> d_locked D3 = false ->
  roomy t v -> enc t v = Some b ->
  exists F4 D4, cstep W' F3 D3 (NWrite (Z.of_nat i) v) =
      (F4, D4, AStored (if live then [(port_start outs i, tlen t)] else [])) /\
    out_data F4 D4 = overwritten (out_data F3 D3) (port_start outs i) b /\
    in_data F4 D4 = in_data F3 D3 /\ d_locked D4 = false.
Proof.
  intros G R T N L Y E. destruct (reached_sim _ _ _ _ _ _ _ _ _ _ _ _ _ _ _ _ _ G R) as (s & _ & S).
  destruct (sim_write _ _ _ _ _ _ _ _ (Z.of_nat i) v S) as (s1 & St & S1).
  destruct (cstep W' F3 D3 (NWrite (Z.of_nat i) v)) as [[F4 D4] r] eqn:C. cbn [fst snd] in *.
  exists F4, D4. pose proof (sim_pictures _ _ _ _ _ _ _ _ S) as (P1 & P2 & _ & P4).
  pose proof (sim_pictures _ _ _ _ _ _ _ _ S1) as (Q1 & Q2 & _ & Q4).
  assert (K : (i < length outs)%nat) by (apply nth_error_Some; congruence).
  inversion St; subst; try (assert (i0 = i) as -> by lia); try congruence; try lia.
  - assert (t0 = t) as -> by congruence. assert (b0 = b) as -> by congruence.
    split; [reflexivity|]. rewrite Q1, P1, P2, Q2, Q4. cbn [a_parts a_in a_stuck].
    split; [|auto]. unfold overwritten.
    pose proof (enc_len t (proj1 (proj1 (Forall_forall _ _) (g_routs _ _ _ _ _ _ _ _ _ _ _ G) t (nth_error_In _ _ N))) v b E) as Lb.
    rewrite Lb. symmetry. eapply concat_replaced; eauto. apply G. apply S.
  - assert (t0 = t) as -> by congruence.
    match goal with X : roomy t v -> _ |- _ => rewrite X in E by auto end. discriminate.
  - unfold len in *. lia.
Qed.
Print Assumptions write_stores.

Example ex_write_record :
  scenario test_text
    [NWrite 3 (VDict [(lit "SensorData", VDict [(lit "x", VInt 1); (lit "y", VInt 2); (lit "z", VInt 3)]);
                      (lit "TimeStamp", VInt 4)])] =
  Some ([AStored [(7, 10)]],
        [255; 255; 3; 255; 255; 255; 255; 1; 0; 2; 0; 3; 0; 4; 0; 0; 0],
        [255; 0; 0; 0; 0; 0; 0; 0; 0; 0; 0; 0; 0; 0; 0; 0; 0; 255; 255; 255; 255; 0; 0; 0; 0; 0; 0], false).
Proof. vm_compute. reflexivity. Qed.

(** ** C33 *)

Lemma reached_sides fuel W nd F k W' F' k' D ins outs live heard ops F3 D3 rs :
  good fuel W nd F k W' F' k' D ins outs -> reached W' F' D live heard ops F3 D3 rs ->
  (exists l, tlaid Unpack W' 0 0 l ins (s_map (d_inside D3)) (s_progs (d_inside D3))) /\
  s_bytemap (d_inside D3) = spread (s_map (d_inside D3)).
Proof.
  intros G R. destruct (reached_sim _ _ _ _ _ _ _ _ _ _ _ _ _ _ _ _ _ G R) as (s & _ & S).
  split; apply S.
Qed.

Lemma filter_seq_sorted f : forall n a, StronglySorted lt (filter f (seq a n)).
Proof.
  induction n as [|n IH]; intros a; cbn [seq filter]; [constructor|].
  destruct (f a); [|apply IH]. constructor; [apply IH|]. apply Forall_forall. intros x I.
  apply filter_In in I as [I _]. apply in_seq in I. lia.
Qed.

(** [affected] says what it should: the ports with a byte in the range, each once,
    in the order of the layout. *)
Theorem affected_meaning ts off n i :
  (In i (affected ts off n) <->
   exists t x, nth_error ts i = Some t /\ off <= x < off + n /\ port_start ts i <= x < port_start ts i + tlen t) /\
  StronglySorted lt (affected ts off n).
Proof.
  split; [|apply filter_seq_sorted]. unfold affected. rewrite filter_In, in_seq. split.
  - intros [_ E]. destruct (nth_error ts i) as [t|]; [|discriminate].
    exists t, (Z.max (port_start ts i) off). split; [reflexivity|]. lia.
  - intros (t & x & N & X & Y). assert (i < length ts)%nat by (apply nth_error_Some; congruence).
    split; [lia|]. rewrite N. lia.
Qed.
Print Assumptions affected_meaning.

Example ex_affected : affected test_ins 0 1 = [0%nat] /\ affected test_ins 8 2 = [1%nat; 2%nat] /\
  affected test_ins 0 27 = [0%nat; 1%nat; 2%nat] /\ affected test_ins 3 0 = [].
Proof. vm_compute. repeat split. Qed.

(** byte_to_port yields exactly the ports that have a byte in the range, in layout
    order; ranges that leave the file are refused. *)
Theorem byte_to_port_exact fuel W nd F k W' F' k' D ins outs live heard ops F3 D3 rs off n :
  good fuel W nd F k W' F' k' D ins outs -> reached W' F' D live heard ops F3 D3 rs ->
  0 <= off ->
  (off + n <= total ins -> off <= total ins ->
   exists ms, byte_to_port W' D3 off n = Ok ms /\
     map Some ms = map (nth_error (s_map (d_inside D3))) (affected ins off n) /\
     (forall m, In m ms <-> In m (s_map (d_inside D3)) /\ exists x, off <= x < off + n /\ inside m x)) /\
  (total ins < off + n \/ total ins < off -> byte_to_port W' D3 off n = Err ValueError).
Proof.
  intros G R O. destruct (reached_sides _ _ _ _ _ _ _ _ _ _ _ _ _ _ _ _ _ G R) as ([l L] & B).
  pose proof (spread_len _ _ _ _ _ _ _ _ L) as SL. split.
  - intros E1 E2. destruct (byte_to_port_ok _ _ _ _ L B off n O E1 E2) as (ms & M & Q).
    exists ms. split; [exact M|]. split; [exact Q|].
    destruct (tlaid_length _ _ _ _ _ _ _ _ L) as (_ & LM & _ & Rg).
    assert (At : forall m i, nth_error (s_map (d_inside D3)) i = Some m ->
      exists t, nth_error ins i = Some t /\ pm_offset m = port_start ins i /\ pm_len m = tlen t).
    { intros m i N. assert (K : (i < length ins)%nat)
        by (rewrite <- LM; apply nth_error_Some; congruence).
      destruct (nth_error ins i) as [t|] eqn:Nt; [|apply nth_error_None in Nt; lia].
      destruct (tlaid_nth _ _ _ _ _ _ _ _ _ _ L Nt) as (m' & M1 & _ & _ & M4 & M5 & _).
      assert (m' = m) as -> by congruence. exists t. split; [auto|]. split; [lia|auto]. }
    intros m. split.
    + intros I. assert (I' : In (Some m) (map Some ms)) by (apply in_map; exact I).
      rewrite Q in I'. apply in_map_iff in I' as (i & N & I'). split; [eapply nth_error_In; eauto|].
      apply affected_meaning in I' as (t & x & Nt & X & Y).
      destruct (At m i N) as (t' & Nt' & E3 & E4). assert (t' = t) as -> by congruence.
      exists x. split; [exact X|]. unfold inside. rewrite E3, E4. exact Y.
    + intros [I (x & X & Y)]. apply In_nth_error in I as [i N]. destruct (At m i N) as (t & Nt & E3 & E4).
      assert (I : In i (affected ins off n)).
      { apply affected_meaning. exists t, x. unfold inside in Y. rewrite E3, E4 in Y. auto. }
      apply (in_map (nth_error (s_map (d_inside D3)))) in I. rewrite <- Q, N in I.
      apply in_map_iff in I as (m' & E & I). congruence.
  - intros X. unfold byte_to_port. rewrite B, SL.
    destruct (Z.ltb_spec (total ins) off); [reflexivity|].
    destruct (Z.ltb_spec (total ins) (off + n)); [reflexivity|lia].
Qed.
Print Assumptions byte_to_port_exact.

Example ex_byte_to_port :
  match build test_text with
  | Some (_, _, (W', _, _, D)) =>
    byte_to_port W' D 8 2 = Ok [mk_portmap 1 8 5; mk_portmap 9 18 6] /\
    byte_to_port W' D 26 1 = Ok [mk_portmap 9 18 6] /\
    byte_to_port W' D 27 0 = Ok [] /\ byte_to_port W' D 26 2 = Err ValueError /\
    byte_to_port W' D 28 0 = Err ValueError
  | None => False
  end.
Proof. vm_compute. repeat split. Qed.

(** ** C34 *)

Lemma deliver_all ts data l : (forall i, In i l -> exists t v, nth_error ts i = Some t /\ readable t (part_of ts data i) = Some v) ->
  exists calls, deliver ts data l = (calls, true) /\ map fst calls = l /\
    Forall (fun c => exists t, nth_error ts (fst c) = Some t /\ readable t (part_of ts data (fst c)) = Some (snd c)) calls.
Proof.
  induction l as [|i l IH]; intros A.
  - exists []. repeat split. constructor.
  - destruct (A i (or_introl eq_refl)) as (t & v & N & R).
    destruct IH as (calls & E & M & F); [intros; apply A; right; auto|].
    exists ((i, v) :: calls). cbn [deliver]. rewrite N, R, E. split; [reflexivity|].
    cbn [map fst]. rewrite M. split; [reflexivity|]. constructor; [|exact F]. exists t. auto.
Qed.

(** The last part of a remote write stores its bytes and calls the listener once
    for every port with a changed byte, in layout order, with the value that the
    port has now, provided these values can be read. *)
Theorem arrival_announced fuel W nd F k W' F' k' D ins outs live ops F3 D3 rs off d :
  good fuel W nd F k W' F' k' D ins outs -> reached W' F' D live true ops F3 D3 rs ->
  d_locked D3 = false -> bytes_ok d -> 0 <= off -> off + len d <= total ins ->
  let data' := overwritten (in_data F3 D3) off d in
  (forall i t, In i (affected ins off (len d)) -> nth_error ins i = Some t ->
     readable t (part_of ins data' i) <> None) ->
  exists F4 D4 calls, cstep W' F3 D3 (NArrive off d false) = (F4, D4, ACalls calls) /\
    in_data F4 D4 = data' /\ out_data F4 D4 = out_data F3 D3 /\ d_locked D4 = false /\
    map fst calls = affected ins off (len d) /\
    Forall (fun c => exists t, nth_error ins (fst c) = Some t /\
              readable t (part_of ins data' (fst c)) = Some (snd c)) calls.
Proof.
  intros G R Lk B O E data' A. destruct (reached_sim _ _ _ _ _ _ _ _ _ _ _ _ _ _ _ _ _ G R) as (s & _ & S).
  destruct (sim_arrive _ _ _ _ _ _ _ _ off d false S B) as (s1 & St & S1).
  destruct (cstep W' F3 D3 (NArrive off d false)) as [[F4 D4] r] eqn:C. cbn [fst snd] in *.
  pose proof (sim_pictures _ _ _ _ _ _ _ _ S) as (P1 & P2 & _ & P4).
  pose proof (sim_pictures _ _ _ _ _ _ _ _ S1) as (Q1 & Q2 & _ & Q4).
  pose proof (sim_inlen _ _ _ _ _ _ _ _ S) as IL.
  assert (Dl : exists calls, deliver ins data' (affected ins off (len d)) = (calls, true) /\
    map fst calls = affected ins off (len d) /\
    Forall (fun c => exists t, nth_error ins (fst c) = Some t /\ readable t (part_of ins data' (fst c)) = Some (snd c)) calls).
  { apply deliver_all. intros i I. pose proof I as I0. apply affected_meaning in I as (t & x & N & _).
    specialize (A i t I0 N). destruct (readable t (part_of ins data' i)) as [v|] eqn:Rd; [|congruence]. eauto. }
  destruct Dl as (calls & D1 & D2 & D3').
  inversion St; subst.
  - lia.
  - assert (data'0 : firstn (Z.to_nat off) (a_in s) ++ d ++ skipn (Z.to_nat (off + len d)) (a_in s) = data').
    { unfold data', overwritten. rewrite P2. reflexivity. }
    rewrite data'0 in *. cbn [negb andb] in *.
    match goal with X : deliver _ _ _ = _ |- _ => rewrite D1 in X; invc X end.
    rewrite <- P4, Lk in *. cbn [orb negb] in *.
    exists F4, D4. eexists. split; [reflexivity|]. rewrite Q1, Q2, Q4, P1. cbn [a_in a_parts a_stuck]. auto.
Qed.
Print Assumptions arrival_announced.

Example ex_arrival :
  scenario test_text [NArrive 8 [0; 65; 0] false; NArrive 0 [] false; NArrive 26 [1; 1] false] =
  Some ([ACalls [(1%nat, VStr []);
                 (2%nat, VDict [(lit "Name", VStr (lit "A")); (lit "Id", VInt 4294967295);
                                (lit "Data", VList [VInt 0; VInt 0; VInt 0])])];
         ACalls []; ACalls []],
        [255; 255; 3; 255; 255; 255; 255; 255; 255; 255; 255; 255; 255; 255; 255; 255; 255],
        [255; 0; 0; 0; 0; 0; 0; 0; 0; 65; 0; 0; 0; 0; 0; 0; 0; 255; 255; 255; 255; 0; 0; 0; 0; 0; 0], false).
Proof. vm_compute. reflexivity. Qed.

(** Reading a port gives the value of its present bytes, so listeners and readers
    agree. *)
Theorem read_gives_present_value fuel W nd F k W' F' k' D ins outs live heard ops F3 D3 rs i t v :
  good fuel W nd F k W' F' k' D ins outs -> reached W' F' D live heard ops F3 D3 rs ->
  d_locked D3 = false -> 0 < total ins -> nth_error ins i = Some t ->
  readable t (part_of ins (in_data F3 D3) i) = Some v ->
  read_require_port W' F3 D3 (Z.of_nat i) = (D3, Done v).
Proof.
  intros G R Lk T N Rd. destruct (reached_sim _ _ _ _ _ _ _ _ _ _ _ _ _ _ _ _ _ G R) as (s & _ & S).
  pose proof (sim_pictures _ _ _ _ _ _ _ _ S) as (P1 & P2 & _ & P4). rewrite P2 in Rd.
  pose proof S as [[lin Lin] SB Lout SP SV SN SZ SL SC SO SI SIL SIO SA].
  destruct (tlaid_nth _ _ _ _ _ _ _ _ _ _ Lin N) as (m & M1 & M2 & M3 & M4 & M5 & M6 & M7).
  unfold read_require_port. rewrite (port_entry_ok W' lin ins Unpack _ _ i t m Lin N M1).
  rewrite M4, M5, Z.add_0_l. destruct (d_in D3) as [fi|] eqn:Di; [|lia].
  destruct SI as (_ & Kd & Hd & Dt).
  pose proof (unpack_require_ok W' F3 D3 lin ins i t fi Lin SP N Di ltac:(rewrite Dt; exact SIO) ltac:(rewrite Dt; exact SIL)) as U.
  rewrite Lk, Dt in U. unfold unlocked_read in U. rewrite Rd in U. exact U.
Qed.
Print Assumptions read_gives_present_value.

(** ** C35 *)

(** A write that raises changes neither file nor any port value. *)
Theorem rejected_write_changes_nothing fuel W nd F k W' F' k' D ins outs live heard ops F3 D3 rs i v F4 D4 calls :
  good fuel W nd F k W' F' k' D ins outs -> reached W' F' D live heard ops F3 D3 rs ->
  0 < total outs -> cstep W' F3 D3 (NWrite i v) = (F4, D4, AFailed calls) ->
  out_data F4 D4 = out_data F3 D3 /\ in_data F4 D4 = in_data F3 D3 /\
  forall j, 0 <= j < len outs -> read_provide_port W' D4 j = read_provide_port W' D3 j.
Proof.
  intros G R T C. destruct (reached_sim _ _ _ _ _ _ _ _ _ _ _ _ _ _ _ _ _ G R) as (s & _ & S).
  destruct (sim_write _ _ _ _ _ _ _ _ i v S) as (s1 & St & S1). rewrite C in *. cbn [fst snd] in *.
  pose proof (sim_pictures _ _ _ _ _ _ _ _ S) as (P1 & P2 & P3 & P4).
  pose proof (sim_pictures _ _ _ _ _ _ _ _ S1) as (Q1 & Q2 & Q3 & Q4).
  assert (X : a_parts s1 = a_parts s /\ a_vals s1 = a_vals s /\ a_in s1 = a_in s).
  { inversion St; subst; auto. lia. }
  destruct X as (X1 & X2 & X3). split; [congruence|]. split; [congruence|].
  intros j J.
  assert (Read : forall F0 D0 s0, sim W' ins outs live heard F0 D0 s0 ->
    exists x, nth_error (a_vals s0) (Z.to_nat j) = Some x /\ read_provide_port W' D0 j = Done x).
  { intros F0 D0 s0 X. destruct (sim_value _ _ _ _ _ _ _ _ j X) as (s2 & Sv & _).
    cbn [cstep fst snd] in Sv. inversion Sv; subst.
    - exists v0. rewrite Nat2Z.id. split; [auto|].
      destruct (read_provide_port W' D0 (Z.of_nat i0)) as [x|e|]; cbn [reply_of] in *; try discriminate. congruence.
    - lia. }
  destruct (Read _ _ _ S) as (x & N & ->). destruct (Read _ _ _ S1) as (y & N' & ->). congruence.
Qed.
Print Assumptions rejected_write_changes_nothing.

Example ex_rejected :
  scenario test_text [NWrite 1 (VInt 2); NWrite 1 (VInt 256); NValue 1] =
  Some ([AStored [(2, 1)]; AFailed []; AValue (OVal (VInt 2))],
        [255; 255; 2; 255; 255; 255; 255; 255; 255; 255; 255; 255; 255; 255; 255; 255; 255],
        [255; 0; 0; 0; 0; 0; 0; 0; 0; 0; 0; 0; 0; 0; 0; 0; 0; 255; 255; 255; 255; 0; 0; 0; 0; 0; 0], true).
Proof. vm_compute. reflexivity. Qed.

(** It does however leave the lock behind: every later write and every later read
    of an input waits for ever. *)
Theorem rejected_write_locks fuel W nd F k W' F' k' D ins outs live heard ops F3 D3 rs i t v :
  good fuel W nd F k W' F' k' D ins outs -> reached W' F' D live heard ops F3 D3 rs ->
  0 < total outs -> nth_error outs i = Some t -> d_locked D3 = false -> enc t v = None ->
  exists F4 D4, cstep W' F3 D3 (NWrite (Z.of_nat i) v) = (F4, D4, AFailed []) /\ d_locked D4 = true.
Proof.
  intros G R T N L E. destruct (reached_sim _ _ _ _ _ _ _ _ _ _ _ _ _ _ _ _ _ G R) as (s & _ & S).
  destruct (sim_write _ _ _ _ _ _ _ _ (Z.of_nat i) v S) as (s1 & St & S1).
  destruct (cstep W' F3 D3 (NWrite (Z.of_nat i) v)) as [[F4 D4] r] eqn:C. cbn [fst snd] in *.
  exists F4, D4. pose proof (sim_pictures _ _ _ _ _ _ _ _ S) as (P1 & P2 & _ & P4).
  pose proof (sim_pictures _ _ _ _ _ _ _ _ S1) as (Q1 & Q2 & _ & Q4).
  assert (K : (i < length outs)%nat) by (apply nth_error_Some; congruence).
  inversion St; subst; try (assert (i0 = i) as -> by lia); try congruence; try lia.
  - assert (t0 = t) as -> by congruence. rewrite Q4. split; reflexivity.
  - unfold len in *. lia.
Qed.
Print Assumptions rejected_write_locks.

Lemma stuck_step ins outs live heard s op s' r : astep ins outs live heard s op s' r -> a_stuck s = true -> a_stuck s' = true.
Proof. intros H; destruct H; cbn [a_stuck]; intros; try congruence; auto. rewrite H5. reflexivity. Qed.
Lemma stuck_run ins outs live heard s ops s' rs : arun ins outs live heard s ops s' rs -> a_stuck s = true -> a_stuck s' = true.
Proof. induction 1; auto. intros; eauto using stuck_step. Qed.

Lemma reached_more W' F' D live heard ops F3 D3 rs ops2 : reached W' F' D live heard ops F3 D3 rs -> Forall op_ok ops2 ->
  exists rs2, reached W' F' D live heard (ops ++ ops2) (fst (fst (crun W' F3 D3 ops2))) (snd (fst (crun W' F3 D3 ops2))) rs2.
Proof.
  intros (F2 & At & Ok & Cr) O2.
  assert (App : forall l1 l2 Fa Da, exists r2, crun W' Fa Da (l1 ++ l2) =
    (fst (crun W' (fst (fst (crun W' Fa Da l1))) (snd (fst (crun W' Fa Da l1))) l2), r2)).
  { induction l1 as [|x l1 IH]; intros l2 Fa Da.
    - cbn [app crun fst snd]. eexists. apply surjective_pairing.
    - cbn [app crun]. destruct (cstep W' Fa Da x) as [[F1 D1] y].
      destruct (IH l2 F1 D1) as [r2 E]. rewrite E.
      destruct (crun W' F1 D1 l1) as [[F5 D5] xs]. cbn [fst snd].
      destruct (crun W' F5 D5 l2) as [[F6 D6] xs2]. cbn [fst snd]. eauto. }
  destruct (App ops ops2 F2 (with_client D heard)) as [r2 E]. rewrite Cr in E. cbn [fst snd] in E.
  exists r2, F2. split; [exact At|]. split; [apply Forall_app; auto|].
  rewrite E. destruct (crun W' F3 D3 ops2) as [[Fx Dx] rx]. reflexivity.
Qed.

(** The lock is never released again, whatever happens. *)
Theorem locked_for_ever fuel W nd F k W' F' k' D ins outs live heard ops F3 D3 rs ops2 F4 D4 rs2 i v t :
  good fuel W nd F k W' F' k' D ins outs -> reached W' F' D live heard ops F3 D3 rs ->
  d_locked D3 = true -> Forall op_ok ops2 -> crun W' F3 D3 ops2 = (F4, D4, rs2) ->
  d_locked D4 = true /\
  (nth_error outs i = Some t -> snd (cstep W' F4 D4 (NWrite (Z.of_nat i) v)) = AWaits []) /\
  (nth_error ins i = Some t -> 0 < total ins -> snd (cstep W' F4 D4 (NRead (Z.of_nat i))) = AWaits []).
Proof.
  intros G R L O X.
  destruct (reached_sim _ _ _ _ _ _ _ _ _ _ _ _ _ _ _ _ _ G R) as (s & _ & S).
  destruct (sim_run _ _ _ _ _ ops2 _ _ _ S O) as (s2 & A & S2). rewrite X in *. cbn [fst snd] in *.
  pose proof (sim_pictures _ _ _ _ _ _ _ _ S) as (_ & _ & _ & P4).
  pose proof (sim_pictures _ _ _ _ _ _ _ _ S2) as (_ & _ & _ & Q4).
  assert (a_stuck s2 = true) as K by (eapply stuck_run; eauto; congruence).
  split; [congruence|]. split.
  - intros N. assert (Kl : (i < length outs)%nat) by (apply nth_error_Some; congruence).
    destruct (sim_write _ _ _ _ _ _ _ _ (Z.of_nat i) v S2) as (s3 & St & _).
    destruct (cstep W' F4 D4 (NWrite (Z.of_nat i) v)) as [Y r]. cbn [fst snd] in *.
    inversion St; subst; try congruence. unfold len in *. lia.
  - intros N T. assert (Kl : (i < length ins)%nat) by (apply nth_error_Some; congruence).
    destruct (sim_read _ _ _ _ _ _ _ _ (Z.of_nat i) S2) as (s3 & St & _).
    destruct (cstep W' F4 D4 (NRead (Z.of_nat i))) as [Y r]. cbn [fst snd] in *.
    inversion St; subst; try congruence. unfold len in *. lia.
Qed.
Print Assumptions locked_for_ever.

(** So "a rejected write leaves the node usable" is wrong, and so is the same for
    arriving text that is not UTF-8. *)
Theorem rejected_write_harmless_refuted :
  option_map (fun x => fst (fst (fst x)))
    (scenario test_text [NWrite 1 (VInt 256); NWrite 0 (VInt 1); NRead 0; NArrive 0 [1] false]) =
  Some [AFailed []; AWaits []; AWaits []; AWaits []] /\
  option_map (fun x => fst (fst (fst x)))
    (scenario test_text [NArrive 1 [200] false; NArrive 1 [65] false; NWrite 0 (VInt 1); NRead 0]) =
  Some [AFailed []; AWaits []; AWaits []; AWaits []].
Proof. vm_compute. split; reflexivity. Qed.
Print Assumptions rejected_write_harmless_refuted.

(** ** C36 *)

Lemma laid_first fuel d W : forall l i a maps progs inits ts,
  laid fuel d W i a l maps progs inits -> Forall2 (port_means W) l ts -> Forall regular ts ->
  Forall2 (fun o t => first_bytes t (init_of (w_ports W o)) <> None) l ts ->
  sized ts inits /\
  forall j o t, nth_error l j = Some o -> nth_error ts j = Some t ->
    nth_error inits j = first_bytes t (init_of (w_ports W o)).
Proof.
  induction l as [|o l IH]; intros i a maps progs inits ts L M R FB;
    destruct maps as [|m maps], progs as [|p progs], inits as [|b inits]; try contradiction;
    inversion M; subst; inversion FB; subst.
  - split; [constructor|]. intros [|j] o t; discriminate.
  - inversion R as [|y0 ys [Wf Lt] Rs]; subst. cbn [laid] in L. destruct L as (A & B & C & (tg & D1 & D2 & D3 & D4) & L).
    destruct (IH _ _ _ _ _ _ L H3 Rs H6) as [S N].
    rewrite (means_packLen _ _ _ _ _ H1 D2) in D4.
    destruct (first_bytes y (init_of (w_ports W o))) as [b'|] eqn:Fb; [|congruence].
    pose proof (turn_first _ _ _ _ _ _ _ (means_target _ _ _ _ H1 D1) Wf Fb D4) as ->.
    split.
    + constructor; [|exact S]. unfold first_bytes in Fb.
      destruct (init_of (w_ports W o)); try (eapply init_bytes_len; eauto; fail).
      invc Fb. unfold zeros, len. rewrite repeat_length. pose proof (tlen_nonneg y Wf). lia.
    + intros [|j] o' t' N1 N2; cbn [nth_error] in *; [congruence|]. eauto.
Qed.

Lemma same_init l W W' o : same_but_elems l W W' -> init_of (w_ports W' o) = init_of (w_ports W o).
Proof.
  intros (_ & _ & _ & E & _). specialize (E o). rewrite <- E. reflexivity.
Qed.

Definition initialised (W : world) (ports : list nat) (ts : list ty) (data : bytes) : Prop :=
  forall i o t, nth_error ports i = Some o -> nth_error ts i = Some t ->
    first_bytes t (init_of (w_ports W o)) = Some (part_of ts data i).

(** If the init values of a side have the shape of their types, the file of that
    side starts with the init value of each port in the bytes of that port. *)
Theorem initial_contents fuel W nd F k W' F' k' D ins outs :
  good fuel W nd F k W' F' k' D ins outs ->
  (Forall2 (fun o t => first_bytes t (init_of (w_ports W o)) <> None) (n_require nd) ins ->
   initialised W (n_require nd) ins (in_data F' D)) /\
  (Forall2 (fun o t => first_bytes t (init_of (w_ports W o)) <> None) (n_provide nd) outs ->
   initialised W (n_provide nd) outs (out_data F' D)).
Proof.
  intros [G1 G2 G3 G4 G5 G6 G7].
  apply node_data_inv in G2 as (S & (m1 & p1 & i1 & L1 & E1 & Q1 & F1) & (m2 & p2 & i2 & L2 & E2 & Q2 & F2) & _); auto.
  assert (Cv : forall l ts, Forall2 (fun o t => first_bytes t (init_of (w_ports W o)) <> None) l ts ->
    Forall2 (fun o t => first_bytes t (init_of (w_ports W' o)) <> None) l ts).
  { induction 1; constructor; auto. rewrite (same_init _ _ _ _ S). auto. }
  assert (Fin : forall n (b : bytes), len b = n -> (n = 0 -> [] = b)).
  { intros n [|z b]; [reflexivity|]. rewrite len_cons. pose proof (len_nonneg b). lia. }
  split; intros FB i o t No Nt; apply Cv in FB.
  - destruct (laid_first _ _ _ _ _ _ _ _ _ _ L1 G3 G5 FB) as [Sz N].
    specialize (N i o t No Nt). rewrite (same_init _ _ _ _ S) in N. rewrite <- N.
    rewrite (part_of_concat _ _ _ _ G5 Sz Nt). do 2 f_equal. unfold in_data, content.
    destruct (d_in D); [destruct F1 as (_ & (_ & B & _) & _); auto|]. symmetry. eapply Fin; eauto.
  - destruct (laid_first _ _ _ _ _ _ _ _ _ _ L2 G4 G6 FB) as [Sz N].
    specialize (N i o t No Nt). rewrite (same_init _ _ _ _ S) in N. rewrite <- N.
    rewrite (part_of_concat _ _ _ _ G6 Sz Nt). do 2 f_equal. unfold out_data, content.
    destruct (d_out D); [destruct F2 as (_ & (_ & B & _) & _); auto|]. symmetry. eapply Fin; eauto.
Qed.
Print Assumptions initial_contents.

(** Init values with ASCII text only. *)
Fixpoint plain (v : ivalue) : Prop :=
  match v with
  | IVStr s => Forall (fun c => 0 <= c < 128) s
  | IVList l => (fix go l := match l with [] => True | x :: r => plain x /\ go r end) l
  | _ => True
  end.
Lemma plain_list x l : plain (IVList (x :: l)) -> plain x /\ plain (IVList l).
Proof. exact (fun H => H). Qed.

Lemma value_items k n l : value_of (TArr k n) (IVList l) =
  (fix go l := match l with
               | [] => Some (VList [])
               | IVInt z :: r => match go r with Some (VList x) => Some (VList (VInt z :: x)) | _ => None end
               | _ => None
               end) l.
Proof. reflexivity. Qed.

Lemma init_items_enc k n : small k -> forall l x, value_of (TArr k n) (IVList l) = Some x ->
  exists xs, x = VList xs /\ length xs = length l /\
    (Forall (fun v => exists z, v = VInt z /\ kmin k <= z <= kmax k) xs ->
     exists b, init_items k l = Some b /\ enc_ints k (length xs) xs = Some b).
Proof.
  intros Sk. induction l as [|[|z|s|y] l IH]; intros x E; try discriminate.
  - invc E. exists []. repeat split. intros _. exists []. split; reflexivity.
  - rewrite value_items in E. rewrite value_items in IH.
    match type of E with match ?g with _ => _ end = _ => destruct g as [r|] eqn:Er; [|discriminate] end.
    destruct (IH r eq_refl) as (xs & -> & L & X). invc E. exists (VInt z :: xs). split; [reflexivity|].
    split; [cbn [length]; congruence|]. intros F. inversion F as [|? ? (z' & Ez & Rz) Fs]; subst. invc Ez.
    destruct (X Fs) as (b & B1 & B2). exists (num_le (width k) z' ++ b).
    cbn [init_items length enc_ints enc_int]. rewrite B1, B2.
    replace (in_range k z') with true by (unfold in_range; lia). split; reflexivity.
Qed.

Fixpoint value_members (ms : list (str * ty)) (l : list ivalue) : option dict :=
  match ms, l with
  | [], [] => Some []
  | (nm, t) :: ms', x :: l' =>
    match value_of t x, value_members ms' l' with Some a, Some d => Some ((nm, a) :: d) | _, _ => None end
  | _, _ => None
  end.
Lemma value_rec ms : forall l, value_of (TRec ms) (IVList l) = match value_members ms l with Some d => Some (VDict d) | None => None end.
Proof.
  cbn [value_of]. induction ms as [|[nm t] ms IH]; intros [|x l]; try reflexivity.
  cbn [value_members]. rewrite IH. destruct (value_of t x); [|reflexivity]. destruct (value_members ms l); reflexivity.
Qed.

Lemma exactm_rec ms d : exact (TRec ms) (VDict d) = exactm ms d.
Proof. reflexivity. Qed.

(** An init value that stands for a value of the type has the bytes of that value. *)
Theorem init_is_encoding t : wf_ty t -> distinct t -> forall v x, plain v ->
  value_of t v = Some x -> exact t x ->
  exists b, init_bytes t v = Some b /\ enc t x = Some b.
Proof.
  induction t as [k|k n| |n|ms IH] using ty_ind2; intros W D v x P V X; destruct v as [|z|s|l]; try discriminate.
  - invc V. cbn [exact] in X. exists (num_le (width k) z). split; [reflexivity|]. cbn [enc enc_int].
    replace (in_range k z) with true by (unfold in_range; lia). reflexivity.
  - destruct (init_items_enc k n (proj1 W) l x V) as (xs & -> & L & Y). destruct X as [X1 X2].
    destruct (Y X2) as (b & B1 & B2). exists b. rewrite init_bytes_arr.
    replace (len l =? n) with true by (unfold len in *; lia). split; [exact B1|]. cbn [enc].
    replace (Z.to_nat n) with (length xs) by (unfold len in *; lia). exact B2.
  - invc V. cbn [plain] in P. exists (fit n s). cbn [init_bytes enc]. rewrite (utf8_encode_ascii s P).
    replace (forallb byte_okb (firstn (Z.to_nat n) s)) with true; [split; reflexivity|].
    symmetry. apply forallb_forall. intros c I. apply byte_okb_spec.
    assert (In c s) by (rewrite <- (firstn_skipn (Z.to_nat n) s); apply in_or_app; auto).
    rewrite Forall_forall in P. specialize (P c H). unfold byte_ok. lia.
  - rewrite value_rec in V. destruct (value_members ms l) as [d|] eqn:Vm; [|discriminate]. invc V.
    rewrite exactm_rec in X. rewrite init_bytes_rec, enc_rec.
    apply wf_rec in W as [_ W]. apply distinct_rec in D as [ND D].
    assert (Main : forall pre, Forall (fun nm => dget nm pre = None) (map fst ms) ->
      exists b, init_members ms l = Some b /\ encm (pre ++ d) ms = Some b); [|exact (Main [] ltac:(apply Forall_forall; reflexivity))].
    revert l d Vm X P W ND D. induction IH as [|[nm t] ms IHt _ IHm]; intros [|v l] d Vm X P W ND D pre Pre; try discriminate.
    + exists []. split; reflexivity.
    + cbn [value_members] in Vm. destruct (value_of t v) as [a|] eqn:Va; [|discriminate].
      destruct (value_members ms l) as [d'|] eqn:Vd; [|discriminate]. invc Vm.
      cbn [exactm] in X. destruct X as (_ & Xa & Xd). apply plain_list in P as [Pv Pl].
      inversion W as [|? ? [_ Wt] Ws]; subst. inversion D; subst. cbn [map fst snd] in *.
      inversion ND; subst. inversion Pre as [|? ? Pn Ps]; subst.
      destruct (IHt Wt H1 v a Pv Va Xa) as (b & B1 & B2).
      destruct (IHm l d' Vd Xd Pl Ws H4 H2 (pre ++ [(nm, a)])) as (c & C1 & C2).
      { apply Forall_forall. intros n0 I. rewrite Forall_forall in Ps. specialize (Ps n0 I).
        clear -Ps I H3. revert Ps. induction pre as [|[p q] pre IHp]; cbn [app dget].
        - destruct (str_eqb nm n0) eqn:E; [apply str_eqb_eq in E; subst; contradiction|reflexivity].
        - destruct (str_eqb p n0); auto. }
      rewrite <- app_assoc in C2. cbn [app] in C2.
      exists (b ++ c). cbn [init_members encm]. rewrite B1, C1. split; [reflexivity|].
      assert (dget nm (pre ++ (nm, a) :: d') = Some a) as ->.
      { clear -Pn. induction pre as [|[p q] pre IHp]; cbn [app dget] in *; [rewrite str_eqb_refl; reflexivity|].
        destruct (str_eqb p nm); [discriminate|auto]. }
      rewrite B2, C2. reflexivity.
Qed.
Print Assumptions init_is_encoding.

Example ex_init_bytes :
  first_bytes (TRec [(lit "a", TStr 3); (lit "b", TArr S16 2)]) (IVList [IVStr (lit "x"); IVList [IVInt (-1); IVInt 2]]) =
    Some [120; 0; 0; 255; 255; 2; 0] /\
  value_of (TRec [(lit "a", TStr 3); (lit "b", TArr S16 2)]) (IVList [IVStr (lit "x"); IVList [IVInt (-1); IVInt 2]]) =
    Some (VDict [(lit "a", VStr (lit "x")); (lit "b", VList [VInt (-1); VInt 2])]).
Proof. vm_compute. split; reflexivity. Qed.

(** A require port reads as its init value until data arrive. *)
Theorem initial_value_read fuel W nd F k W' F' k' D ins outs live heard F2 i o t v x :
  good fuel W nd F k W' F' k' D ins outs -> attached F' F2 D live ->
  Forall2 (fun o t => first_bytes t (init_of (w_ports W o)) <> None) (n_require nd) ins ->
  nth_error (n_require nd) i = Some o -> nth_error ins i = Some t -> flat t -> 0 < total ins ->
  init_of (w_ports W o) = v -> plain v -> value_of t v = Some x -> exact t x ->
  read_require_port W' F2 (with_client D heard) (Z.of_nat i) = (with_client D heard, Done x).
Proof.
  intros G At FB No Nt Fl T Iv P V X.
  assert (R : reached W' F' D live heard [] F2 (with_client D heard) []).
  { exists F2. split; [exact At|]. split; [constructor|reflexivity]. }
  destruct (proj1 (Forall_forall _ _) (g_rins _ _ _ _ _ _ _ _ _ _ _ G) t (nth_error_In _ _ Nt)) as [Wt _].
  assert (Lk : d_locked D = false).
  { destruct G as [G1 G2 _ _ _ _ _]. apply node_data_inv in G2 as (_ & _ & _ & Lk & _); auto. }
  eapply read_gives_present_value; eauto.
  assert (in_data F2 (with_client D heard) = in_data F' D) as ->.
  { unfold in_data. cbn [with_client d_in]. destruct At as [At _]. unfold content.
    destruct (d_in D); [apply At|reflexivity]. }
  pose proof (proj1 (initial_contents _ _ _ _ _ _ _ _ _ _ _ G) FB i o t No Nt) as B.
  destruct (init_is_encoding t Wt (flat_distinct t Fl) v x P V X) as (b & B1 & B2).
  assert (first_bytes t v = Some b) as B3 by (destruct v; try exact B1; destruct t; discriminate).
  rewrite Iv, B3 in B. invc B.
  destruct (exact_dec t Wt (flat_distinct t Fl) x X) as (b' & E1 & _ & _ & E2).
  rewrite (readable_flat _ _ Fl). congruence.
Qed.
Print Assumptions initial_value_read.

Example ex_initial :
  option_map (fun x => fst (fst (fst x))) (scenario test_text [NRead 0; NRead 1; NRead 2]) =
  Some [AValue (OVal (VInt 255)); AValue (OVal (VStr []));
        AValue (OVal (VDict [(lit "Name", VStr []); (lit "Id", VInt 4294967295);
                             (lit "Data", VList [VInt 0; VInt 0; VInt 0])]))].
Proof. vm_compute. reflexivity. Qed.

(** Without the shape condition it fails: item counts that are wrong in two ports
    can cancel out, and the values move into the bytes of the neighbour.  (Text
    outside ASCII is no problem here: such a node gets no data at all, as its
    definition cannot be encoded.) *)
Theorem initial_values_refuted :
  option_map (fun x => fst (fst (fst x)))
    (scenario (lit "N""A""
R""a""C[2]:={1}
R""b""C[1]:={2,3}") [NRead 0; NRead 1]) =
  Some [AValue (OVal (VList [VInt 1; VInt 2])); AValue (OVal (VList [VInt 3]))] /\
  option_map (fun x => fst (fst (fst x)))
    (scenario (lit "N""A""
R""a""a[4]:=""" ++ [233] ++ lit """") [NRead 0]) = None.
Proof. vm_compute. split; reflexivity. Qed.
Print Assumptions initial_values_refuted.
