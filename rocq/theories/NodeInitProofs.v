(** Lemmas about the data of a node: initial bytes and the state after construction. *)
From Coq Require Import ZifyBool ZifyNat Lia.
From Verif Require Import Py PyLemmas TypesModel CompilerModel VmModel TypesSpec TypesProofs
  CompilerProofs VmProofs VmPackProofs VmUnpackProofs CompilerProps VmProps
  TextModel SigModel AttrModel NodeModel RmfModel FileModel FileProofs NodeDataModel NodeDataSpec NodeDataProofs.
Ltac Zify.zify_post_hook ::= Z.div_mod_to_equations.

(** ** Initial bytes *)

Lemma int_bytes_num c k z : kind_of c = Some k -> small k -> int_bytes c z = Ok (num_le (width k) z).
Proof.
  intros K S. destruct c; cbn in K; try discriminate; injection K as <-; cbn in S; try contradiction;
    cbn [int_bytes width num_le]; rewrite ?land_255, ?shiftr_div by lia;
    rewrite ?Z.div_div by lia; reflexivity.
Qed.

Lemma land_255_ok z : byte_ok (Z.land z 255).
Proof. rewrite land_255. unfold byte_ok. lia. Qed.

Lemma int_bytes_ok c z b : int_bytes c z = Ok b -> bytes_ok b.
Proof. destruct c; intros E; invc E; repeat constructor; apply land_255_ok. Qed.

Lemma init_scalar_ok c v b : init_scalar c v = Ok b -> bytes_ok b.
Proof.
  destruct v; cbn [init_scalar]; intros E; try discriminate; eauto using int_bytes_ok.
  apply bind_ok in E as (z & _ & E). eauto using int_bytes_ok.
Qed.

Lemma init_chars_ok : forall n s b, init_chars n s = Ok b -> bytes_ok b.
Proof.
  induction n as [|n IH]; intros s b E; [invc E; constructor|]. cbn [init_chars] in E.
  destruct s as [|c s].
  - apply bind_ok in E as (r & E & Q). invc Q. constructor; [unfold byte_ok; lia|exact (IH _ _ E)].
  - destruct (byte_okb c) eqn:C; [|discriminate]. apply bind_ok in E as (r & E & Q). invc Q.
    constructor; [apply byte_okb_spec; exact C|exact (IH _ _ E)].
Qed.

Lemma concat_res_ok {A} (f : A -> res bytes) l : (forall x b, In x l -> f x = Ok b -> bytes_ok b) ->
  forall b, concat_res f l = Ok b -> bytes_ok b.
Proof.
  induction l as [|x l IH]; intros F b E; [invc E; constructor|]. cbn [concat_res] in E.
  apply bind_ok in E as (a & Ea & E). apply bind_ok in E as (c & Ec & E). invc E.
  apply bytes_ok_app. split; [eapply F; [left; reflexivity|exact Ea]|].
  apply IH; auto. intros y d I. apply F. right; exact I.
Qed.

Lemma init_inner_ok H : forall fuel e v b, init_inner fuel H e v = Ok b -> bytes_ok b.
Proof.
  induction fuel as [|fuel IH]; intros e v b E; [discriminate|]. cbn [init_inner] in E.
  destruct e as [nm c lo hi a|nm es|nm [i|s|o]]; try discriminate; [| |eauto].
  - assert (S : forall l, concat_res (init_scalar c) l = Ok b -> bytes_ok b)
      by (intros l; apply concat_res_ok; intros; eauto using init_scalar_ok).
    destruct c, a; try discriminate; try (eapply init_scalar_ok; exact E);
      destruct v; try discriminate; try (eapply S; exact E); eapply init_chars_ok; exact E.
  - destruct v; try discriminate. destruct (negb _); [discriminate|].
    eapply concat_res_ok; [|exact E]. intros x c _ X. exact (IH _ _ _ X).
Qed.

Lemma createInitData_ok fuel H e v b : createInitData fuel H e v = Ok b -> bytes_ok b.
Proof.
  destruct e as [nm c lo hi a|nm es|nm r]; cbn [createInitData]; intros E; eauto using init_inner_ok.
  destruct v; try discriminate. destruct (negb _); [discriminate|].
  eapply concat_res_ok; [|exact E]. intros x c _ X. exact (init_inner_ok _ _ _ _ _ X).
Qed.

Lemma turn_init_ok fuel H tg v n b : turn_init fuel H tg v n = Ok b -> bytes_ok b.
Proof.
  unfold turn_init, mk_zeros. destruct v; eauto using createInitData_ok.
  destruct (n <? 0); intros E; [discriminate|]. invc E. apply bytes_ok_repeat0.
Qed.

Lemma concat_res_ext {A} (f g : A -> res bytes) l b : concat_res f l = Ok b ->
  (forall x c, In x l -> f x = Ok c -> g x = Ok c) -> concat_res g l = Ok b.
Proof.
  revert b. induction l as [|x l IH]; intros b E F; [exact E|]. cbn [concat_res] in *.
  apply bind_ok in E as (a & Ea & E). apply bind_ok in E as (c & Ec & E).
  rewrite (F x a) by (auto; left; reflexivity). cbn [bind].
  rewrite (IH c Ec) by (intros; apply F; auto; right; auto). exact E.
Qed.

Lemma init_inner_more H : forall fuel e v b, init_inner fuel H e v = Ok b ->
  forall fuel', (fuel <= fuel')%nat -> init_inner fuel' H e v = Ok b.
Proof.
  induction fuel as [|fuel IH]; intros e v b E fuel' L; [discriminate|].
  destruct fuel' as [|k']; [lia|]. cbn [init_inner] in *.
  destruct e as [nm c lo hi a|nm es|nm [i|s|o]]; try discriminate; [exact E| |apply (IH _ _ _ E); lia].
  destruct v; try discriminate. destruct (negb _); [discriminate|].
  eapply concat_res_ext; [exact E|]. intros x c _ X. apply (IH _ _ _ X). lia.
Qed.

Lemma createInitData_more H fuel e v b : createInitData fuel H e v = Ok b ->
  forall fuel', (fuel <= fuel')%nat -> createInitData fuel' H e v = Ok b.
Proof.
  destruct e as [nm c lo hi a|nm es|nm r]; cbn [createInitData]; intros E f' L; eauto using init_inner_more.
  destruct v; try discriminate. destruct (negb _); [discriminate|].
  eapply concat_res_ext; [exact E|]. intros x c _ X. apply (init_inner_more _ _ _ _ _ X). lia.
Qed.

Fixpoint init_members (ms : list (str * ty)) (l : list ivalue) : option bytes :=
  match ms, l with
  | [], [] => Some []
  | (_, t) :: ms', x :: l' =>
    match init_bytes t x, init_members ms' l' with Some a, Some b => Some (a ++ b) | _, _ => None end
  | _, _ => None
  end.
Lemma init_bytes_rec ms l : init_bytes (TRec ms) (IVList l) = init_members ms l.
Proof.
  reflexivity.
Qed.
Fixpoint init_items (k : kind) (l : list ivalue) : option bytes :=
  match l with
  | [] => Some []
  | IVInt z :: r => match init_items k r with Some b => Some (num_le (width k) z ++ b) | None => None end
  | _ => None
  end.
Lemma init_bytes_arr k n l : init_bytes (TArr k n) (IVList l) = if len l =? n then init_items k l else None.
Proof.
  cbn [init_bytes]. destruct (len l =? n); [|reflexivity].
  induction l as [|[|z|s|y] l IH]; try reflexivity. cbn [init_items]. rewrite <- IH. reflexivity.
Qed.

Lemma init_items_ok c k l b : kind_of c = Some k -> small k -> init_items k l = Some b ->
  concat_res (init_scalar c) l = Ok b.
Proof.
  intros K S. revert b. induction l as [|[|z|s|y] l IH]; intros b E; try discriminate; [invc E; reflexivity|].
  cbn [init_items] in E. destruct (init_items k l) as [r|]; [|discriminate]. invc E.
  cbn [concat_res init_scalar]. rewrite (int_bytes_num c k z K S). cbn [bind]. rewrite (IH r eq_refl). reflexivity.
Qed.

Lemma init_items_len k l b : init_items k l = Some b -> len b = Z.of_nat (width k) * len l.
Proof.
  revert b. induction l as [|[|z|s|y] l IH]; intros b E; try discriminate.
  - invc E. change (@len Z []) with 0. change (@len ivalue []) with 0. lia.
  - cbn [init_items] in E. destruct (init_items k l) as [r|]; [|discriminate]. invc E.
    rewrite len_app, num_le_len, len_cons, (IH r eq_refl). lia.
Qed.

Lemma init_chars_fit : forall n s, forallb byte_okb (firstn n s) = true ->
  init_chars n s = Ok (firstn n (s ++ repeat 0 n)).
Proof.
  assert (Z0 : forall n, init_chars n [] = Ok (repeat 0 n)).
  { induction n as [|n IH]; [reflexivity|]. cbn [init_chars]. rewrite IH. reflexivity. }
  assert (G : forall m n s, (n <= m)%nat -> forallb byte_okb (firstn n s) = true ->
    init_chars n s = Ok (firstn n (s ++ repeat 0 m))).
  { intros m. induction n as [|n IH]; intros s L F; [reflexivity|].
    destruct s as [|c s].
    - rewrite Z0. cbn [app]. f_equal.
      replace m with (S n + (m - S n))%nat by lia. rewrite repeat_app, firstn_app, repeat_length, Nat.sub_diag.
      rewrite firstn_all2 by (rewrite repeat_length; lia). cbn [firstn]. rewrite app_nil_r. reflexivity.
    - cbn [firstn forallb] in F. apply andb_prop in F as [F1 F2]. cbn [init_chars]. rewrite F1.
      rewrite (IH s) by (auto; lia). reflexivity. }
  intros. apply G; auto.
Qed.

Lemma den_init H : (forall n e t, denotes H n e t -> wf_ty t -> forall fuel v b, (n <= fuel)%nat ->
    init_bytes t v = Some b -> init_inner fuel H e v = Ok b) /\
  (forall n es ms, members H n es ms -> Forall (fun m => wf_ty (snd m)) ms -> forall fuel l b, (n <= fuel)%nat ->
    init_members ms l = Some b ->
    len l = len es /\ concat_res (fun p => init_inner fuel H (fst p) (snd p)) (combine es l) = Ok b).
Proof.
  apply denotes_members_ind.
  - intros n nm c lo hi k K W [|fuel] v b L E; [lia|]. cbn [init_bytes] in E.
    destruct v as [|z|s|l]; try discriminate. invc E. cbn [wf_ty] in W. cbn [init_inner].
    rewrite <- (int_bytes_num c k z K W). destruct c; try discriminate; try reflexivity.
    all: cbn in K; invc K; destruct W.
  - intros n nm c lo hi k a K W [|fuel] v b L E; [lia|].
    destruct v as [|z|s|l]; try discriminate. rewrite init_bytes_arr in E.
    destruct (len l =? a); [|discriminate]. destruct W as [W _]. cbn [init_inner].
    pose proof (init_items_ok c k l b K W E) as X. destruct c; try discriminate; try exact X.
    all: cbn in K; invc K; destruct W.
  - intros n nm lo hi W. destruct W.
  - intros n nm lo hi a W [|fuel] v b L E; [lia|]. cbn [init_bytes] in E.
    destruct v as [|z|s|l]; try discriminate.
    destruct (forallb byte_okb (firstn (Z.to_nat a) s)) eqn:F; [|discriminate]. invc E.
    cbn [init_inner]. rewrite (init_chars_fit _ _ F). reflexivity.
  - intros n nm es ms M IH W [|fuel] v b L E; [lia|].
    destruct v as [|z|s|l]; try discriminate. rewrite init_bytes_rec in E.
    cbn [init_inner]. apply wf_rec in W as [_ W].
    destruct (IH) with (fuel := fuel) (l := l) (b := b) as [Ll Lc]; auto; try lia.
    { eapply Forall_impl; [|exact W]. intros m X. exact (proj2 X). }
    rewrite Ll, Z.eqb_refl. exact Lc.
  - intros n nm o t D IH W [|fuel] v b L E; [lia|]. cbn [init_inner]. apply IH; auto. lia.
  - intros n W fuel l b L E. destruct l; [|discriminate]. invc E. auto.
  - intros n e es nm t ms N D IHe M IHm W fuel l b L E. inversion W; subst.
    destruct l as [|x l]; [discriminate|]. cbn [init_members] in E.
    destruct (init_bytes t x) as [a|] eqn:Ea; [|discriminate].
    destruct (init_members ms l) as [c|] eqn:Ec; [|discriminate]. invc E.
    destruct (IHm H3 fuel l c L Ec) as [Ll Lc]. rewrite !len_cons, Ll. split; [reflexivity|].
    cbn [combine concat_res fst snd]. rewrite (IHe H2 fuel x a L Ea). cbn [bind]. rewrite Lc. reflexivity.
Qed.

Lemma means_init H e t v b : means H e t -> wf_ty t -> init_bytes t v = Some b ->
  exists n, forall fuel, (n <= fuel)%nat -> createInitData fuel H e v = Ok b.
Proof.
  intros [n D] W E. exists n. intros fuel L.
  destruct e as [nm c lo hi a|nm es|nm r]; cbn [createInitData]; try (eapply (proj1 (den_init H)); eauto).
  inversion D as [| | | |n0 nm0 es0 ms M|]; subst. destruct v as [|z|s|l]; try discriminate. rewrite init_bytes_rec in E.
  apply wf_rec in W as [_ W].
  destruct (proj2 (den_init H) n0 es ms M) with (fuel := fuel) (l := l) (b := b) as [Ll Lc]; auto; try lia.
  { eapply Forall_impl; [|exact W]. intros m X. exact (proj2 X). }
  rewrite Ll, Z.eqb_refl. exact Lc.
Qed.

Lemma means_init_unique H e t v b fuel b' : means H e t -> wf_ty t -> init_bytes t v = Some b ->
  createInitData fuel H e v = Ok b' -> b' = b.
Proof.
  intros M W E C. destruct (means_init H e t v b M W E) as [n X].
  specialize (X (Nat.max n fuel) ltac:(lia)).
  apply createInitData_more with (fuel' := Nat.max n fuel) in C; [|lia]. congruence.
Qed.

Lemma turn_first H tg t v b fuel b' : means H tg t -> wf_ty t -> first_bytes t v = Some b ->
  turn_init fuel H tg v (tlen t) = Ok b' -> b' = b.
Proof.
  intros M W E T. pose proof (tlen_nonneg t W). unfold turn_init, first_bytes in *.
  destruct v; try (eapply means_init_unique; eauto; fail).
  unfold mk_zeros in T. replace (tlen t <? 0) with false in T by lia. invc E. congruence.
Qed.

Lemma init_bytes_len t : wf_ty t -> forall v b, init_bytes t v = Some b -> len b = tlen t.
Proof.
  induction t as [k|k n| |n|ms IH] using ty_ind2; intros W v b E; destruct v as [|z|s|l]; try discriminate.
  - invc E. apply num_le_len.
  - rewrite init_bytes_arr in E. destruct (Z.eqb_spec (len l) n); [|discriminate].
    apply init_items_len in E. cbn [tlen]. lia.
  - cbn [init_bytes] in E. destruct (forallb _ _); [|discriminate]. invc E. apply fit_len. cbn in *. lia.
  - rewrite init_bytes_rec in E. apply wf_rec in W as [_ W]. change (tlen (TRec ms)) with (mlen ms).
    revert l b E. induction ms as [|[nm t] ms IHm]; intros l b E.
    + destruct l; invc E. reflexivity.
    + destruct l as [|x l]; [discriminate|]. cbn [init_members] in E. inversion W; subst. inversion IH; subst.
      destruct (init_bytes t x) as [a|] eqn:Ea; [|discriminate].
      destruct (init_members ms l) as [c|] eqn:Ec; [|discriminate]. invc E.
      rewrite len_app. rewrite (IHm H4 H2 l c Ec). cbn [snd] in *. rewrite (H3 ltac:(tauto) x a Ea), mlen_cons. reflexivity.
Qed.

(** ** Construction *)

Definition side_file (d : dir) (n : Z) (data : bytes) (f : file) : Prop :=
  f_kind f = (match d with Unpack => KInput | Pack => KOutput end) /\ f_data f = data /\ f_length f = n /\
  f_managed f = false /\ f_isOpen f = false /\ f_address f = None.

Lemma new_file_inv k name n data f : new_file k name n (Some data) = Ok f ->
  len data = n /\ f = mk_file k (mk_finfo name n 0 None 0 (zeros 32)) false false false data.
Proof.
  unfold new_file, mk_zeros. destruct (Z.ltb_spec n 0); [discriminate|]. cbn [bind].
  destruct (Z.eqb_spec (len data) n); [|discriminate]. cbn [negb]. intros E. invc E. split; [auto|].
  f_equal. rewrite splice_in by (unfold zeros, len; rewrite ?repeat_length; lia).
  cbn [Z.to_nat firstn app]. rewrite skipn_all2; [rewrite app_nil_r; reflexivity|].
  unfold zeros, len. rewrite repeat_length. lia.
Qed.

Lemma create_side_inv fuel d W nd ports W' s fo :
  create_side fuel d W nd ports = Ok (W', s, fo) ->
  same_but_elems ports W W' /\
  exists maps progs inits, laid fuel d W' 0 0 ports maps progs inits /\
    s = mk_side (sum_len maps) (concat inits) maps (spread maps) progs
          (map (fun o => first_value (w_ports W o)) ports) /\
    len (concat inits) = sum_len maps /\
    match fo with
    | Some f => 0 < sum_len maps /\ side_file d (sum_len maps) (concat inits) f /\ f_handled f = false /\
        exists name, n_name nd = Some name /\
          f_name f = name ++ lit (match d with Unpack => ".in" | Pack => ".out" end)
    | None => sum_len maps = 0
    end.
Proof.
  unfold create_side. destruct ports as [|o l] eqn:Ep.
  - intros E. invc E. split; [apply same_refl|]. exists [], [], []. repeat split.
  - rewrite <- Ep. intros E. apply bind_ok in E as ([W1 s1] & E1 & E).
    apply add_all_inv in E1 as (S & maps & progs & inits & L & ->).
    cbn [empty_side s_offset s_init s_map s_bytemap s_progs s_values app] in *.
    rewrite Z.add_0_l in *. change (@len bytes []) with 0 in L.
    destruct (Z.eqb_spec (len (concat inits)) (sum_len maps)) as [Q|Q]; cbn [negb] in E; [|discriminate].
    pose proof (len_nonneg (concat inits)).
    destruct (Z.ltb_spec 0 (sum_len maps)).
    + destruct (n_name nd) as [name|]; [|discriminate]. apply bind_ok in E as (f & Ef & E). invc E.
      split; [exact S|]. exists maps, progs, inits. split; [exact L|]. split; [reflexivity|]. split; [exact Q|].
      apply new_file_inv in Ef as [_ ->]. split; [auto|]. split; [repeat split|].
      split; [reflexivity|]. exists name. split; [reflexivity|]. destruct d; reflexivity.
    + invc E. split; [exact S|]. exists maps, progs, inits. split; [exact L|]. split; [reflexivity|].
      split; [exact Q|lia].
Qed.

(** Require and provide ports are different objects. *)
Definition separate (nd : node) : Prop := forall o, In o (n_require nd) -> ~ In o (n_provide nd).

Lemma laid_untouched fuel d W W' lx : forall l i a maps progs inits,
  same_but_elems lx W W' -> (forall o, In o l -> ~ In o lx) ->
  laid fuel d W i a l maps progs inits -> laid fuel d W' i a l maps progs inits.
Proof.
  induction l as [|o l IH]; intros i a maps progs inits S N L;
    destruct maps as [|m maps], progs as [|p progs], inits as [|b inits]; try exact L.
  cbn [laid] in *. destruct L as (A & B & C & D & L).
  assert (E : w_ports W' o = w_ports W o).
  { apply (proj2 (proj2 (proj2 (proj2 S)))). apply N. left. reflexivity. }
  rewrite E. rewrite (proj1 S). split; [auto|]. split; [auto|]. split; [auto|]. split; [auto|].
  apply IH; auto. intros o' I. apply N. right. exact I.
Qed.

(** What is known about one side after construction. *)
Definition side_built (fuel : nat) (d : dir) (W W' : world) (ports : list nat) (s : side) (F : heap)
    (fo : option nat) (nm : option str) : Prop :=
  exists maps progs inits, laid fuel d W' 0 0 ports maps progs inits /\
    s = mk_side (sum_len maps) (concat inits) maps (spread maps) progs
          (map (fun o => first_value (w_ports W o)) ports) /\
    len (concat inits) = sum_len maps /\
    match fo with
    | Some k => 0 < sum_len maps /\ side_file d (sum_len maps) (concat inits) (F k) /\
        f_handled (F k) = (match d with Unpack => true | Pack => false end) /\
        exists name, nm = Some name /\
          f_name (F k) = name ++ lit (match d with Unpack => ".in" | Pack => ".out" end)
    | None => sum_len maps = 0
    end.

Lemma node_data_inv fuel W nd F k W' F' k' D :
  separate nd -> node_data fuel W nd F k = Ok (W', F', k', D) ->
  same_but_elems (n_require nd ++ n_provide nd) W W' /\
  side_built fuel Unpack W W' (n_require nd) (d_inside D) F' (d_in D) (n_name nd) /\
  side_built fuel Pack W W' (n_provide nd) (d_outside D) F' (d_out D) (n_name nd) /\
  d_locked D = false /\ d_client D = false /\
  (d_in D = None \/ d_out D = None \/ d_in D <> d_out D) /\
  (forall j, (j < k)%nat -> F' j = F j) /\
  (forall j, d_in D = Some j \/ d_out D = Some j \/ d_def D = j -> (k <= j < k')%nat) /\
  exists text b, context_dumps false W [nd] = Ok text /\ encode_ascii text = Ok b /\
    f_data (F' (d_def D)) = b /\ f_kind (F' (d_def D)) = KOutput /\
    exists name, n_name nd = Some name /\ f_name (F' (d_def D)) = name ++ lit ".apx".
Proof.
  intros Sep E. unfold node_data in E.
  apply bind_ok in E as (text & Et & E).
  apply bind_ok in E as ([[W1 ins] fin] & E1 & E).
  apply bind_ok in E as ([[W2 outs] fout] & E2 & E).
  apply bind_ok in E as (fdef & Ed & E).
  apply create_side_inv in E1 as (S1 & m1 & p1 & i1 & L1 & -> & Q1 & F1).
  apply create_side_inv in E2 as (S2 & m2 & p2 & i2 & L2 & -> & Q2 & F2).
  assert (Def : exists b, encode_ascii text = Ok b /\ f_data fdef = b /\ f_kind fdef = KOutput /\
    exists name, n_name nd = Some name /\ f_name fdef = name ++ lit ".apx").
  { unfold create_definition in Ed. destruct (n_name nd) as [name|]; [|discriminate].
    apply bind_ok in Ed as (f & Ef & Ed). apply bind_ok in Ed as (b & Eb & Ed).
    apply bind_ok in Ed as ([[f2 r] ev] & Ew & Ed). invc Ed.
    unfold new_file, mk_zeros in Ef. pose proof (len_nonneg text).
    replace (len text <? 0) with false in Ef by lia. cbn [bind] in Ef. invc Ef.
    assert (Lb : len b = len text) by (unfold encode_ascii in Eb; destruct (forallb _ _); invc Eb; reflexivity).
    unfold write2 in Ew. cbn [f_kind] in Ew. unfold output_write, file_write in Ew. cbn [f_data] in Ew.
    assert (Lz : len (zeros (len text)) = len text) by (unfold zeros, len; rewrite repeat_length; lia).
    rewrite Lz, Lb in Ew. replace ((0 <? 0) || (len text <? 0 + len text)) with false in Ew by lia.
    cbn [with_data f_managed f_isOpen andb] in Ew. rewrite !andb_false_r in Ew. cbn [andb] in Ew. invc Ew.
    exists b. split; [exact Eb|]. split; [|split; [reflexivity|exists name; split; reflexivity]].
    cbn [with_data f_data]. rewrite splice_in by lia. cbn [Z.to_nat firstn app Z.add].
    rewrite skipn_all2; [apply app_nil_r|]. unfold len in *. lia. }
  destruct Def as (b & Eb & Db & Kb & nb & Nb & Nmb).
  assert (Inits : forall o, In o (n_provide nd) -> first_value (w_ports W1 o) = first_value (w_ports W o)).
  { intros o _. unfold first_value. rewrite (same_init _ _ _ o S1). reflexivity. }
  assert (L1' : laid fuel Unpack W2 0 0 (n_require nd) m1 p1 i1).
  { eapply laid_untouched; [exact S2| |exact L1]. exact Sep. }
  destruct fin as [fin|], fout as [fout|]; cbn [option_map new_file_id] in E; invc E;
    cbn [d_inside d_outside d_in d_out d_locked d_client d_def];
    (split; [eapply same_trans; eauto|]).
  all: split;
    [exists m1, p1, i1; split; [exact L1'|]; split; [reflexivity|]; split; [exact Q1|];
     first [exact F1|unfold upd; rewrite ?Nat.eqb_refl;
     repeat match goal with |- context [Nat.eqb ?a ?b] => destruct (Nat.eqb_spec a b); [exfalso; lia|] end;
     destruct F1 as (A1 & (B1 & B2 & B3 & B4 & B5 & B6) & A2 & A3);
     split; [exact A1|]; split; [repeat split; assumption|]; split; [reflexivity|exact A3]]|].
  all: split;
    [exists m2, p2, i2; split; [exact L2|]; split; [f_equal; apply map_ext_in; exact Inits|]; split; [exact Q2|];
     first [exact F2|unfold upd; rewrite ?Nat.eqb_refl;
     repeat match goal with |- context [Nat.eqb ?a ?b] => destruct (Nat.eqb_spec a b); [exfalso; lia|] end;
     exact F2]|].
  all: split; [reflexivity|]; split; [reflexivity|].
  all: split; [first [left; reflexivity|right; left; reflexivity|right; right; intros X; injection X; lia]|].
  all: split; [intros j J; unfold upd;
    repeat match goal with |- context [Nat.eqb ?a ?b] => destruct (Nat.eqb_spec a b); [exfalso; lia|] end; reflexivity|].
  all: split; [intros j J; intuition (try discriminate; try (match goal with H : Some _ = Some _ |- _ => injection H end); lia)|].
  all: exists text; eexists; split; [exact Et|]; split; [exact Eb|]; unfold upd; rewrite Nat.eqb_refl;
    split; [reflexivity|]; split; [exact Kb|]; exists nb; auto.
Qed.

(** ** The first state *)

Fixpoint cut (ts : list ty) (data : bytes) : list bytes :=
  match ts with
  | [] => []
  | t :: r => firstn (Z.to_nat (tlen t)) data :: cut r (skipn (Z.to_nat (tlen t)) data)
  end.

Lemma cut_sized ts : forall data, Forall regular ts -> len data = total ts -> sized ts (cut ts data).
Proof.
  induction ts as [|t ts IH]; intros data R L; [constructor|]. inversion R as [|t' ts' [W _] Rs]; subst.
  cbn [total cut] in *. pose proof (tlen_nonneg t W). pose proof (total_nonneg ts Rs).
  constructor; [rewrite len_firstn; lia|]. apply IH; auto. rewrite len_skipn. lia.
Qed.

Lemma cut_concat ts : forall data, Forall regular ts -> len data = total ts -> concat (cut ts data) = data.
Proof.
  induction ts as [|t ts IH]; intros data R L.
  - destruct data as [|z l]; [reflexivity|]. cbn [total] in L. rewrite len_cons in L. pose proof (len_nonneg l). lia.
  - inversion R as [|t' ts' [W _] Rs]; subst.
    cbn [total cut concat] in *. pose proof (tlen_nonneg t W). pose proof (total_nonneg ts Rs).
    rewrite IH; [apply firstn_skipn|auto|rewrite len_skipn; lia].
Qed.

Lemma cut_nth ts : forall data i t, Forall regular ts -> nth_error ts i = Some t ->
  nth_error (cut ts data) i = Some (part_of ts data i).
Proof.
  induction ts as [|t0 ts IH]; intros data [|i] t R N; try discriminate.
  - cbn [cut nth_error]. unfold part_of, port_start. cbn [nth_error firstn total Z.to_nat skipn]. reflexivity.
  - inversion R as [|t' ts' [W _] Rs]; subst. cbn [nth_error] in N. cbn [cut nth_error].
    rewrite (IH _ _ _ Rs N). unfold part_of, port_start. cbn [nth_error firstn total]. rewrite N.
    rewrite VmProofs.skipn_skipn. do 3 f_equal. pose proof (tlen_nonneg t0 W).
    pose proof (port_end ts i t Rs N) as P. unfold port_start in P. lia.
Qed.

Lemma part_of_concat ts parts i t : Forall regular ts -> sized ts parts -> nth_error ts i = Some t ->
  nth_error parts i = Some (part_of ts (concat parts) i).
Proof.
  intros R S. revert i. induction S as [|t0 b0 ts parts E S IH]; intros [|i] N; try discriminate.
  - cbn [nth_error] in *. invc N. unfold part_of, port_start.
    cbn [nth_error firstn total concat]. change (Z.to_nat 0) with 0%nat. cbn [skipn].
    rewrite <- E, to_nat_len, firstn_app, Nat.sub_diag, firstn_all.
    cbn [firstn]. rewrite app_nil_r. reflexivity.
  - inversion R as [|t' ts' [W _] Rs]; subst. cbn [nth_error] in *. rewrite (IH Rs _ N).
    unfold part_of, port_start. cbn [nth_error firstn total concat]. rewrite N. f_equal. f_equal.
    pose proof (port_end ts i t Rs N) as P. unfold port_start in P. pose proof (len_nonneg b0).
    rewrite skipn_app, (skipn_all2 b0) by (unfold len in *; lia). cbn [app]. f_equal. unfold len in *. lia.
Qed.

(** The files of [D] have the same content in both heaps; [live] tells whether the
    output file is attached and open in the second. *)
Definition attached (F F' : heap) (D : ndata) (live : bool) : Prop :=
  match d_in D with
  | Some k => f_kind (F' k) = f_kind (F k) /\ f_handled (F' k) = f_handled (F k) /\ f_data (F' k) = f_data (F k)
  | None => True
  end /\
  match d_out D with
  | Some k => f_kind (F' k) = f_kind (F k) /\ f_data (F' k) = f_data (F k) /\
      f_managed (F' k) && f_isOpen (F' k) = live
  | None => True
  end.

Definition first_state (outs : list ty) (D : ndata) : astate :=
  mk_astate (cut outs (s_init (d_outside D))) (s_values (d_outside D)) (s_init (d_inside D)) false.

Lemma laid_inits_ok fuel d W : forall l i a maps progs inits,
  laid fuel d W i a l maps progs inits -> bytes_ok (concat inits).
Proof.
  induction l as [|o l IH]; intros i a maps progs inits L;
    destruct maps as [|m maps], progs as [|p progs], inits as [|b inits]; try contradiction; [constructor|].
  cbn [laid] in L. destruct L as (_ & _ & _ & (tg & _ & _ & _ & T) & L). cbn [concat].
  apply bytes_ok_app. split; [eapply turn_init_ok; eauto|eauto].
Qed.

Lemma Forall2_length {A B} (R : A -> B -> Prop) l l' : Forall2 R l l' -> length l = length l'.
Proof. induction 1; cbn; congruence. Qed.

Lemma first_sim fuel W nd F k W' F' k' D F2 ins outs live heard :
  separate nd -> node_data fuel W nd F k = Ok (W', F', k', D) ->
  Forall2 (port_means W') (n_require nd) ins -> Forall2 (port_means W') (n_provide nd) outs ->
  Forall regular ins -> Forall regular outs -> Forall pleasant ins ->
  attached F' F2 D live ->
  sim W' ins outs live heard F2 (with_client D heard) (first_state outs D).
Proof.
  intros Sep E Mi Mo Ri Ro Pl At.
  apply node_data_inv in E as (S & (m1 & p1 & i1 & L1 & E1 & Q1 & F1) & (m2 & p2 & i2 & L2 & E2 & Q2 & Ff2) & Lk & _ & Ap & _); auto.
  pose proof (laid_inits_ok _ _ _ _ _ _ _ _ _ L1) as Ok1.
  eapply laid_tlaid in L1; eauto. destruct L1 as [L1 T1].
  eapply laid_tlaid in L2; eauto. destruct L2 as [L2 T2].
  destruct At as [At1 At2].
  assert (LQ2 : len (concat i2) = total outs) by lia.
  constructor; cbn [with_client d_inside d_outside d_in d_out d_locked d_client first_state a_parts a_vals a_in a_stuck];
    rewrite ?E1, ?E2; cbn [s_map s_progs s_bytemap s_values s_init]; eauto.
  - rewrite map_length. eapply Forall2_length; eauto.
  - apply cut_sized; auto.
  - destruct (d_out D) as [fo|].
    + destruct At2 as (A & B & C). destruct Ff2 as (T & (B1 & B2 & _) & _). rewrite A, B, B1, B2, cut_concat; auto.
      rewrite <- T2. auto.
    + lia.
  - destruct (d_in D) as [fi|].
    + destruct At1 as (A & B & C). destruct F1 as (T & (B1 & B2 & _) & B3 & _). rewrite A, B, C, B1, B2, B3, <- T1. auto.
    + lia.
  - lia.
Qed.
