(** Property C23 and the compiler half of C30: what the compiled programs look like. *)
From Coq Require Import ZifyBool ZifyNat Lia.
From Verif Require Import Py PyLemmas TypesModel CompilerModel VmModel TypesSpec TypesProofs
  CompilerProofs VmProofs VmPackProofs VmUnpackProofs.
Ltac Zify.zify_post_hook ::= Z.div_mod_to_equations.

(** ** Vocabulary *)

(** A program starts with op code 1 (pack) or 2 (unpack) and a four byte little
    endian length. *)
Definition announces (d : dir) (n : Z) (prog : bytes) : Prop :=
  exists b0 b1 b2 b3 rest,
    prog = (match d with Pack => 1 | Unpack => 2 end) :: b0 :: b1 :: b2 :: b3 :: rest /\
    bytes_ok [b0; b1; b2; b3] /\ num_val [b0; b1; b2; b3] = n.

Lemma calcElemSize_more H : forall fuel e n, calcElemSize fuel H e = Ok n ->
  forall fuel', (fuel <= fuel')%nat -> calcElemSize fuel' H e = Ok n.
Proof.
  induction fuel as [|k IH]; intros e n E fuel' L; [discriminate|].
  destruct fuel' as [|k']; [lia|]. cbn [calcElemSize] in *.
  destruct e as [nm c lo hi a|nm es|nm [i|s|o]]; try discriminate; [exact E| |].
  - revert E. generalize 0. induction es as [|x es IHes]; intros z E; cbn [fold_left] in *; [exact E|].
    cbn [bind] in *. destruct (calcElemSize k H x) as [m|] eqn:Ex; cbn [bind] in *.
    + rewrite (IH _ _ Ex k') by lia. cbn [bind]. apply IHes. exact E.
    + exfalso. clear -E. revert E. induction es; cbn; [discriminate|auto].
  - apply (IH _ _ E). lia.
Qed.

Lemma packLen_fuel H : forall turns fuel fuel' i st r n, (fuel <= fuel')%nat ->
  packLen_loop turns fuel H i st r = Ok n -> packLen_loop turns fuel' H i st r = Ok n.
Proof.
  induction turns as [|turns IH]; intros fuel fuel' i st r n L E; [discriminate|].
  cbn [packLen_loop] in *. destruct i as [|e i].
  - destruct st; [exact E|eapply IH; eauto].
  - destruct e; try (apply bind_ok in E as (s & Hs & E);
      rewrite (calcElemSize_more H _ _ _ Hs _ L); cbn [bind]; eapply IH; eauto).
    eapply IH; eauto.
Qed.

(** ** C23 *)

(** Whatever the compiler accepts has a data length, and the program announces
    that length (modulo 2^32, the size of the field). *)
Theorem compiled_length_is_packLen fuel d H e prog fuel' n :
  compileProg fuel d H e = Ok prog -> packLen fuel' H e = Ok n ->
  announces d (n mod 2 ^ 32) prog.
Proof.
  intros C P. apply compileProg_iff in C as (t & A & ->).
  destruct (proj1 (accepts_denotes H) _ _ _ A) as [m D].
  assert (packLen (Nat.max m fuel') H e = Ok (tlen t)) as P1 by (eapply packLen_denotes; eauto; lia).
  assert (packLen (Nat.max m fuel') H e = Ok n) as P2
    by (unfold packLen in *; eapply packLen_fuel; [|exact P]; lia).
  assert (n = tlen t) as -> by congruence.
  unfold announces, head. do 5 eexists. split; [|split].
  - cbn [app]. unfold prog_op, OPCODE_PACK_PROG, OPCODE_UNPACK_PROG. destruct d; reflexivity.
  - repeat constructor; unfold byte_ok; lia.
  - cbn [num_val]. change (2 ^ 32) with 4294967296. lia.
Qed.
Print Assumptions compiled_length_is_packLen.

Theorem compiled_has_packLen fuel d H e prog :
  compileProg fuel d H e = Ok prog ->
  exists n, forall fuel', (n <= fuel')%nat -> is_ok (packLen fuel' H e) = true.
Proof.
  intros C. apply compileProg_iff in C as (t & A & ->).
  destruct (proj1 (accepts_denotes H) _ _ _ A) as [m D]. exists m. intros f L.
  rewrite (packLen_denotes H m e t f D L). reflexivity.
Qed.
Print Assumptions compiled_has_packLen.

(** packLen is the gap-free size of the type. *)
Theorem packLen_is_size H n e t fuel : denotes H n e t -> (n <= fuel)%nat ->
  packLen fuel H e = Ok (tlen t).
Proof. apply packLen_denotes. Qed.
Print Assumptions packLen_is_size.

(** Which types compile: exactly those of [accepts], in both directions alike. *)
Theorem compiler_accepts_exactly fuel d H e :
  (exists prog, compileProg fuel d H e = Ok prog) <-> (exists t, accepts H fuel e t).
Proof.
  split.
  - intros [prog C]. apply compileProg_iff in C as (t & A & _). eauto.
  - intros [t A]. eexists. apply compileProg_iff. eauto.
Qed.
Print Assumptions compiler_accepts_exactly.

(** The element of a port is its own, or that of its type. *)
Inductive port_element (H : theap) : delem -> delem -> Prop :=
| pe_prim n c lo hi k : port_element H (DPrim n c lo hi k) (DPrim n c lo hi k)
| pe_rec n es : port_element H (DRec n es) (DRec n es)
| pe_type n o : port_element H (DRef n (RObj o)) (dt_elem (H o)).
Lemma port_element_iff H e e1 : port_element H e e1 <-> port_data_element H e = Ok e1.
Proof.
  split; [intros [ | | ]; reflexivity|]. destruct e as [n c lo hi k|n es|n [i|s|o]]; cbn [port_data_element]; intros E; try discriminate E; injection E as <-; constructor.
Qed.

(** Ports: provide ports are packed, require ports unpacked. *)
Theorem port_program_direction fuel provide H e prog e1 :
  compilePort fuel provide H e = Ok prog -> port_element H e e1 ->
  forall fuel' n, packLen fuel' H e1 = Ok n ->
  announces (if provide then Pack else Unpack) (n mod 2 ^ 32) prog.
Proof.
  intros C E fuel' n P. apply port_element_iff in E. unfold compilePort in C. rewrite E in C. cbn [bind] in C.
  eapply compiled_length_is_packLen; eauto.
Qed.
Print Assumptions port_program_direction.

(** Which ports compile: those whose element does; so a port may have an array type of
    the node, which a member of a record may not. *)
Theorem ports_compile_exactly fuel provide H e :
  (exists prog, compilePort fuel provide H e = Ok prog) <-> (exists e1 t, port_element H e e1 /\ accepts H fuel e1 t).
Proof.
  unfold compilePort. split.
  - intros (prog & C). destruct (port_data_element H e) as [e1|] eqn:E; [|discriminate C]. cbn [bind] in C. apply port_element_iff in E.
    destruct (proj1 (compiler_accepts_exactly fuel _ H e1) (ex_intro _ prog C)) as (t & A). eauto.
  - intros (e1 & t & E & A). apply port_element_iff in E. rewrite E. cbn [bind]. apply compiler_accepts_exactly. eauto.
Qed.
Print Assumptions ports_compile_exactly.

(** Example: a record of a number, an array, a string and a reference to another
    type. *)
Definition ex_heap : theap := fun o =>
  match o with
  | 0%nat => mk_dtype (Some (lit "VehicleSpeed_T")) (DPrim None CU16 None None None) None None None
  | _ => mk_dtype (Some (lit "Pair_T"))
           (DRec None [DPrim (Some (lit "x")) CS8 None None None; DPrim (Some (lit "y")) CS32 None None None])
           None None None
  end.
Definition ex_rec : delem :=
  DRec None [DPrim (Some (lit "id")) CU8 (Some 0) (Some 3) None;
             DPrim (Some (lit "list")) CU16 None None (Some 2);
             DPrim (Some (lit "name")) CSTR None None (Some 5);
             DRef (Some (lit "speed")) (RObj 0)].
Example ex_compile :
  compileProg 10 Pack ex_heap ex_rec =
  Ok ([1; 12; 0; 0; 0; 29; 30; 105; 100; 0; 3; 30; 108; 105; 115; 116; 0; 11; 2; 0;
       30; 110; 97; 109; 101; 0; 9; 5; 0; 30; 115; 112; 101; 101; 100; 0; 4; 31]).
Proof. reflexivity. Qed.
Example ex_packLen : packLen 10 ex_heap ex_rec = Ok 12.
Proof. reflexivity. Qed.

(** A port whose type is an array, and a record with such a member. *)
Definition ex_array_heap : theap := fun _ => mk_dtype (Some (lit "List_T")) (DPrim None CU16 None None (Some 3)) None None None.
Example ex_array_port :
  compilePort 10 true ex_array_heap (DRef None (RObj 0)) = Ok [1; 6; 0; 0; 0; 11; 3; 0] /\
  compilePort 10 true ex_array_heap (DRec None [DRef (Some (lit "l")) (RObj 0)]) = Err NotImplementedError.
Proof. split; reflexivity. Qed.

(** Not everything with a size compiles: 64 bit integers have a length and no
    program, and neither has a member that refers to an array type. *)
Theorem sized_types_compile_refuted :
  exists H e n, (exists t m, denotes H m e t) /\ packLen 10 H e = Ok n /\
    forall fuel d prog, compileProg fuel d H e <> Ok prog.
Proof.
  exists ex_heap, (DPrim None CU64 None None None), 8. split; [|split; [reflexivity|]].
  - exists (TInt U64), 1%nat. constructor. reflexivity.
  - intros fuel d prog C. apply compileProg_iff in C as (t & A & _).
    inversion A; subst. cbn in *. match goal with E : Some _ = Some _ |- _ => injection E as <- end.
    contradiction.
Qed.
Print Assumptions sized_types_compile_refuted.

(** The header itself wraps: an array of 2^31 16 bit numbers announces 0 bytes. *)
Example ex_header_wraps :
  compileProg 10 Pack ex_heap (DPrim None CU16 None None (Some (2 ^ 31))) =
  Ok [1; 0; 0; 0; 0; 11; 0; 0].
Proof. reflexivity. Qed.

(** ** C30: array lengths in the byte code *)

(** The two length bytes after the op code of an array. *)
Theorem array_length_in_code fuel d H nm c lo hi n prog :
  compileProg fuel d H (DPrim nm c lo hi (Some n)) = Ok prog ->
  exists hdr op b0 b1, len hdr = 5 /\ prog = hdr ++ [op; b0; b1] /\ num_val [b0; b1] = n mod 65536.
Proof.
  intros C. apply compileProg_iff in C as (t & A & ->).
  assert (T : exists op, body d t = [op; n mod 256; (n / 256) mod 256]).
  { inversion A; subst; eexists; reflexivity. }
  destruct T as [op ->]. exists (head d (tlen t)), op, (n mod 256), ((n / 256) mod 256).
  split; [reflexivity|]. split; [reflexivity|]. cbn [num_val]. lia.
Qed.
Print Assumptions array_length_in_code.

(** So the length survives exactly below 65536. *)
Theorem array_length_faithful fuel d H nm c lo hi n prog : 0 <= n ->
  compileProg fuel d H (DPrim nm c lo hi (Some n)) = Ok prog ->
  exists hdr op b0 b1, len hdr = 5 /\ prog = hdr ++ [op; b0; b1] /\
    (num_val [b0; b1] = n <-> n < 65536).
Proof.
  intros N C. apply array_length_in_code in C as (hdr & op & b0 & b1 & L & E & V).
  exists hdr, op, b0, b1. split; [exact L|]. split; [exact E|]. rewrite V. lia.
Qed.
Print Assumptions array_length_faithful.
Example ex_array_length :
  compileProg 10 Unpack ex_heap (DPrim None CS32 None None (Some 1000)) =
  Ok [2; 160; 15; 0; 0; 28; 232; 3].
Proof. reflexivity. Qed.

Theorem array_length_refuted :
  exists H e n prog, arrayLen e = Some n /\ compileProg 10 Pack H e = Ok prog /\
    prog = [1; 0; 0; 1; 0; 10; 0; 0] /\ n = 65536.
Proof. exists ex_heap, (DPrim None CU8 None None (Some 65536)). do 2 eexists. repeat split. Qed.
Print Assumptions array_length_refuted.
