(** Lemmas on the compiler: which elements it accepts and which code it makes. *)
From Coq Require Import ZifyBool ZifyNat Lia.
From Verif Require Import Py PyLemmas TypesModel CompilerModel VmModel TypesSpec TypesProofs.
Ltac Zify.zify_post_hook ::= Z.div_mod_to_equations.

Definition sop (d : dir) (k : kind) : Z :=
  match d, k with
  | Pack, U8 => 3 | Pack, U16 => 4 | Pack, U32 => 5 | Pack, S8 => 6 | Pack, S16 => 7 | Pack, S32 => 8
  | Unpack, U8 => 16 | Unpack, U16 => 17 | Unpack, U32 => 18
  | Unpack, S8 => 19 | Unpack, S16 => 20 | Unpack, S32 => 21
  | _, _ => 0
  end.
Definition aop (d : dir) (k : kind) : Z :=
  match d, k with
  | Pack, U8 => 10 | Pack, U16 => 11 | Pack, U32 => 12
  | Pack, S8 => 13 | Pack, S16 => 14 | Pack, S32 => 15
  | Unpack, U8 => 23 | Unpack, U16 => 24 | Unpack, U32 => 25
  | Unpack, S8 => 26 | Unpack, S16 => 27 | Unpack, S32 => 28
  | _, _ => 0
  end.
Definition strop (d : dir) : Z := match d with Pack => 9 | Unpack => 22 end.

(** The code of a type without the program header. *)
Fixpoint body (d : dir) (t : ty) : bytes :=
  match t with
  | TInt k => [sop d k]
  | TArr k n => [aop d k; n mod 256; (n / 256) mod 256]
  | TChr => []
  | TStr n => [strop d; n mod 256; (n / 256) mod 256]
  | TRec ms =>
    29 :: (fix go l := match l with
                       | [] => []
                       | (nm, t) :: r => 30 :: nm ++ 0 :: body d t ++ go r
                       end) ms ++ [31]
  end.

Fixpoint mbody (d : dir) (l : list (str * ty)) : bytes :=
  match l with
  | [] => []
  | (nm, t) :: r => 30 :: nm ++ 0 :: body d t ++ mbody d r
  end.
Lemma body_rec d ms : body d (TRec ms) = 29 :: mbody d ms ++ [31].
Proof.
  cbn [body]. f_equal. f_equal. induction ms as [|[nm t] ms IH]; [reflexivity|].
  cbn [mbody]. rewrite IH. reflexivity.
Qed.

Definition head (d : dir) (n : Z) : bytes :=
  [prog_op d; n mod 256; (n / 256) mod 256; (n / 65536) mod 256; (n / 16777216) mod 256].

Lemma progHeader_false d n prog : progHeader (prog_op d) n false prog = prog ++ head d n.
Proof. unfold progHeader, head. rewrite !land_255, !shiftr_div by lia. reflexivity. Qed.
Lemma progHeader_true d n prog : progHeader (prog_op d) n true prog = head d n ++ prog.
Proof. unfold progHeader, head. rewrite !land_255, !shiftr_div by lia. reflexivity. Qed.

Lemma scalar_op_small d c k : kind_of c = Some k -> small k ->
  scalar_op d c = Some (sop d k, Z.of_nat (width k)).
Proof. destruct d, c; cbn; intros E S; inversion E; subst; cbn in S; try tauto; reflexivity. Qed.
Lemma array_op_small d c k : kind_of c = Some k -> small k ->
  array_op d c = Some (aop d k, Z.of_nat (width k)).
Proof. destruct d, c; cbn; intros E S; inversion E; subst; cbn in S; try tauto; reflexivity. Qed.

Lemma scalar_op_inv d c p : scalar_op d c = Some p -> exists k, kind_of c = Some k /\ small k.
Proof. destruct d, c; cbn; intros E; inversion E; eexists; split; reflexivity || exact I. Qed.
Lemma array_op_inv d c p : array_op d c = Some p ->
  c = CSTR \/ exists k, kind_of c = Some k /\ small k.
Proof.
  destruct d, c; cbn; intros E; inversion E; auto; right; eexists; split; reflexivity || exact I.
Qed.

Definition put (d : dir) (header : bool) (t : ty) (prog : bytes) : bytes :=
  match header, t with
  | false, _ => prog ++ body d t
  | true, TRec _ => head d (tlen t) ++ prog ++ body d t
  | true, _ => prog ++ head d (tlen t) ++ body d t
  end.

Lemma isArray_target H nm o : target (dt_elem (H o)) -> isArray H (DRef nm (RObj o)) = Ok false.
Proof.
  unfold isArray, resolve_data_element, MAX_RECURSE_DEPTH. cbn [resolve_loop].
  destruct (dt_elem (H o)) as [? ? ? ? [a|]|?|]; cbn; tauto || reflexivity.
Qed.

Lemma recordSelect_ok e nm prog : de_name e = Some nm -> bytes_ok nm ->
  recordSelect e prog = Ok (prog ++ [OPCODE_RECORD_SELECT] ++ nm ++ [0]).
Proof.
  intros E B. unfold recordSelect. rewrite E.
  assert (forallb byte_okb nm = true) as ->; [|reflexivity].
  apply forallb_forall. intros x I. apply byte_okb_spec.
  unfold bytes_ok in B. rewrite Forall_forall in B. auto.
Qed.

Lemma compile_accepts d H :
  (forall n e t, accepts H n e t -> forall header prog,
     compileElement n d H e header prog = Ok (put d header t prog, tlen t)) /\
  (forall n es ms, acc_members H n es ms -> forall prog z,
     fold_left (fun acc c =>
            do '(p, z) <- acc;
            do p <- recordSelect c p;
            do '(p, m) <- compileElement n d H c false p;
            Ok (p, z + m)) es (Ok (prog, z)) = Ok (prog ++ mbody d ms, z + mlen ms)).
Proof.
  apply accepts_members_ind; intros.
  - cbn [compileElement]. unfold isArray, resolve_data_element, MAX_RECURSE_DEPTH.
    cbn [resolve_loop bind arrayLen]. erewrite scalar_op_small by eauto.
    unfold put. destruct header; [rewrite progHeader_false, <- app_assoc|]; reflexivity.
  - cbn [compileElement]. unfold isArray, resolve_data_element, MAX_RECURSE_DEPTH.
    cbn [resolve_loop bind arrayLen compileArray]. erewrite array_op_small by eauto.
    unfold put, arrayInstr. rewrite land_255, land_255, shiftr_div by lia.
    destruct header; [rewrite progHeader_false, <- app_assoc|]; reflexivity.
  - cbn [compileElement]. unfold isArray, resolve_data_element, MAX_RECURSE_DEPTH.
    cbn [resolve_loop bind arrayLen compileArray].
    assert (array_op d CSTR = Some (strop d, 1)) as -> by (destruct d; reflexivity).
    unfold put, arrayInstr. rewrite land_255, land_255, shiftr_div by lia.
    replace (1 * a) with a by lia.
    destruct header; [rewrite progHeader_false, <- app_assoc|]; reflexivity.
  - cbn [compileElement]. unfold isArray, resolve_data_element, MAX_RECURSE_DEPTH.
    cbn [resolve_loop bind arrayLen]. rewrite H0. cbn [bind].
    change (0 + mlen ms) with (mlen ms). unfold put.
    rewrite body_rec. fold (mlen ms).
    destruct header; [rewrite progHeader_true|]; unfold OPCODE_RECORD_ENTER, OPCODE_RECORD_LEAVE;
      rewrite <- !app_assoc; reflexivity.
  - destruct n; [specialize (H0 header prog); discriminate|]. cbn [compileElement].
    rewrite isArray_target by assumption. cbn [bind].
    specialize (H0 header prog). cbn [compileElement] in H0.
    assert (isArray H (dt_elem (H o)) = Ok false) as EA.
    { destruct (dt_elem (H o)) as [? ? ? ? [b|]|?|]; cbn in t0; tauto || reflexivity. }
    rewrite EA in H0. cbn [bind] in H0.
    destruct (dt_elem (H o)); cbn in t0; try tauto; exact H0.
  - cbn [fold_left mbody]. rewrite app_nil_r, mlen_nil. f_equal. f_equal. lia.
  - cbn [fold_left bind]. erewrite recordSelect_ok by eauto. cbn [bind].
    rewrite H0. cbn [bind]. unfold put. rewrite H1.
    cbn [mbody]. rewrite mlen_cons. unfold OPCODE_RECORD_SELECT.
    f_equal. f_equal; [|lia]. cbn [app]. rewrite <- !app_assoc. cbn [app].
    rewrite <- !app_assoc. reflexivity.
Qed.

Lemma compile_fold_err d H n e : forall es,
  fold_left (fun acc c =>
            do '(p, z) <- acc;
            do p <- recordSelect c p;
            do '(p, m) <- compileElement n d H c false p;
            Ok (p, z + m)) es (Err e) = Err e.
Proof. induction es; [reflexivity|exact IHes]. Qed.

Lemma compile_inv d H : forall n e header prog r,
  compileElement n d H e header prog = Ok r -> exists t, accepts H n e t.
Proof.
  induction n as [|n IH]; intros e header prog r C; [discriminate|].
  assert (IHm : forall es p z r,
    fold_left (fun acc c =>
            do '(p, z) <- acc;
            do p <- recordSelect c p;
            do '(p, m) <- compileElement n d H c false p;
            Ok (p, z + m)) es (Ok (p, z)) = Ok r -> exists ms, acc_members H n es ms).
  { clear C r. induction es as [|c es IHes]; intros p z r C.
    - exists []. constructor.
    - cbn [fold_left bind] in C.
      destruct (recordSelect c p) as [p1|] eqn:ES; cbn [bind] in C;
        [|rewrite compile_fold_err in C; discriminate].
      destruct (compileElement n d H c false p1) as [[p2 m]|] eqn:EC; cbn [bind] in C;
        [|rewrite compile_fold_err in C; discriminate].
      apply IHes in C as [ms Hms]. apply IH in EC as [t Ht].
      unfold recordSelect in ES. destruct (de_name c) as [nm|] eqn:EN; [|discriminate].
      destruct (forallb byte_okb nm) eqn:EB; [|discriminate].
      exists ((nm, t) :: ms). constructor; auto.
      unfold bytes_ok. apply Forall_forall. rewrite forallb_forall in EB.
      intros x I. apply byte_okb_spec. auto. }
  cbn [compileElement] in C.
  apply bind_ok in C as (arr & Ha & C).
  assert (Direct : forall e1, target e1 ->
    (match e1 with
      | DPrim _ c _ _ _ =>
        match scalar_op d c with
        | Some (op, l) =>
          Ok ((if header then progHeader (prog_op d) l false prog else prog) ++ [op], l)
        | None => Err NotImplementedError
        end
      | DRec _ es =>
        do '(prog, packLen) <-
          fold_left (fun acc c =>
            do '(p, n0) <- acc;
            do p <- recordSelect c p;
            do '(p, m) <- compileElement n d H c false p;
            Ok (p, n0 + m)) es (Ok (prog ++ [OPCODE_RECORD_ENTER], 0));
        let prog := prog ++ [OPCODE_RECORD_LEAVE] in
        Ok ((if header then progHeader (prog_op d) packLen true prog else prog), packLen)
      | DRef _ _ => Err NotImplementedError
      end) = Ok r -> exists t, accepts H (S n) e1 t).
  { intros e1 T C1. destruct e1 as [nm c lo hi a|nm es|]; cbn in T; [|clear T|tauto].
    - destruct a; [tauto|]. destruct (scalar_op d c) as [[op l]|] eqn:ES; [|discriminate].
      apply scalar_op_inv in ES as (k & Ek & Sk). exists (TInt k). constructor; auto.
    - apply bind_ok in C1 as (x & Hx & _). apply IHm in Hx as [ms Hms].
      exists (TRec ms). constructor; auto. }
  destruct arr.
  - unfold compileArray in C. destruct e as [nm c lo hi [a|]| |]; try discriminate.
    destruct (array_op d c) as [[op l]|] eqn:EA; [|discriminate].
    apply array_op_inv in EA as [->|(k & Ek & Sk)].
    + exists (TStr a). constructor.
    + exists (TArr k a). constructor; auto.
  - destruct e as [nm c lo hi a|nm es|nm [i|s|o]]; cbn [bind] in C.
    + apply (Direct (DPrim nm c lo hi a)); [|exact C].
      cbn in Ha. destruct a; [discriminate|exact I].
    + apply (Direct (DRec nm es)); [exact I|exact C].
    + discriminate.
    + discriminate.
    + assert (T : target (dt_elem (H o))).
      { unfold isArray, resolve_data_element, MAX_RECURSE_DEPTH in Ha. cbn [resolve_loop] in Ha.
        destruct (dt_elem (H o)) as [? ? ? ? [b|]|?|]; cbn in *; try exact I; discriminate. }
      destruct (Direct _ T C) as [t Ht]. exists t. constructor; auto.
Qed.

Lemma compileProg_iff fuel d H e prog :
  compileProg fuel d H e = Ok prog <->
  exists t, accepts H fuel e t /\ prog = head d (tlen t) ++ body d t.
Proof.
  unfold compileProg. split.
  - intros C. apply bind_ok in C as ([p n] & Hp & C). injection C as <-.
    destruct (compile_inv _ _ _ _ _ _ _ Hp) as [t Ht]. exists t. split; [exact Ht|].
    rewrite (proj1 (compile_accepts d H) _ _ _ Ht) in Hp. injection Hp as <- _.
    unfold put. destruct t; reflexivity.
  - intros (t & Ht & ->). rewrite (proj1 (compile_accepts d H) _ _ _ Ht). cbn [bind].
    unfold put. destruct t; reflexivity.
Qed.
