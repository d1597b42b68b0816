(** Properties C24 to C30: compiled programs executed by the virtual machine. *)
From Coq Require Import ZifyBool ZifyNat Lia.
From Verif Require Import Py PyLemmas TypesModel CompilerModel VmModel TypesSpec TypesProofs
  CompilerProofs VmProofs VmPackProofs VmUnpackProofs VmSafeProofs CompilerProps.
Ltac Zify.zify_post_hook ::= Z.div_mod_to_equations.

(** ** Vocabulary *)

(** [e] means the type [t] (at some nesting depth). *)
Definition means (H : theap) (e : delem) (t : ty) : Prop := exists n, denotes H n e t.

(** [t] is a type whose byte code is faithful and whose size fits the header. *)
Definition regular (t : ty) : Prop := wf_ty t /\ tlen t < 2 ^ 32.

(** [data] with the bytes from [off] on replaced by [b]. *)
Definition overwritten (data : bytes) (off : Z) (b : bytes) : bytes :=
  firstn (Z.to_nat off) data ++ b ++ skipn (Z.to_nat (off + len b)) data.

(** The [n] bytes of [data] from [off] on. *)
Definition window (data : bytes) (off n : Z) : bytes :=
  firstn (Z.to_nat n) (skipn (Z.to_nat off) data).

Lemma compile_means fuel d H e prog t : compileProg fuel d H e = Ok prog -> means H e t ->
  prog = head d (tlen t) ++ body d t.
Proof.
  intros C [n D]. apply compileProg_iff in C as (t' & A & ->).
  destruct (proj1 (accepts_denotes H) _ _ _ A) as [m D'].
  rewrite (proj1 (denotes_det H) _ _ _ D _ _ D'). reflexivity.
Qed.

(** ** C24 *)

(** Packing succeeds exactly for the values of the type (with the array member
    restriction of C29) when the buffer has room, and then the buffer is the old
    one with the encoding at the offset. *)
Theorem pack_exact fuel H e t prog data off v r :
  compileProg fuel Pack H e = Ok prog -> means H e t -> regular t -> 0 <= off ->
  exec_pack_prog prog data off v = Ok r <->
  off + tlen t <= len data /\ roomy t v /\ exists b, enc t v = Some b /\ r = overwritten data off b.
Proof.
  intros C M [W T] O. rewrite (compile_means _ _ _ _ _ _ C M). apply exec_pack_iff; auto.
Qed.
Print Assumptions pack_exact.

(** The encoding has exactly the size of the type, so nothing else changes. *)
Theorem pack_changes_only_window fuel H e t prog data off v r :
  compileProg fuel Pack H e = Ok prog -> means H e t -> regular t -> 0 <= off ->
  exec_pack_prog prog data off v = Ok r ->
  len r = len data /\
  (forall i, 0 <= i < off \/ off + tlen t <= i -> nth_error r (Z.to_nat i) = nth_error data (Z.to_nat i)).
Proof.
  intros C M R O E. pose proof R as [W _].
  apply (pack_exact fuel H e t) in E as (L & _ & b & Eb & ->); auto.
  pose proof (enc_len t W v b Eb) as Lb. pose proof (tlen_nonneg t W).
  split; [apply (len_wr data off b); lia|].
  intros i Hi. unfold overwritten.
  assert (length (firstn (Z.to_nat off) data) = Z.to_nat off) as LF
    by (rewrite firstn_length; unfold len in *; lia).
  destruct Hi as [Hi|Hi].
  - rewrite nth_error_app1 by (rewrite LF; lia). rewrite nth_error_firstn.
    destruct (Nat.ltb_spec (Z.to_nat i) (Z.to_nat off)); [reflexivity|lia].
  - rewrite nth_error_app2 by (rewrite LF; lia).
    rewrite nth_error_app2 by (rewrite LF; unfold len in *; lia).
    rewrite nth_error_skipn. f_equal. rewrite LF. unfold len in *. lia.
Qed.
Print Assumptions pack_changes_only_window.

(** The example of CompilerProps: id, two item list, five byte name, speed. *)
Definition ex_ty : ty :=
  TRec [(lit "id", TInt U8); (lit "list", TArr U16 2); (lit "name", TStr 5); (lit "speed", TInt U16)].
Lemma ex_means : means ex_heap ex_rec ex_ty.
Proof. exists 3%nat. repeat constructor. Qed.
Lemma ex_regular : regular ex_ty.
Proof.
  split; [|reflexivity]. apply wf_rec. split; [discriminate|].
  repeat constructor; cbn; lia.
Qed.
Definition ex_val : pyval :=
  VDict [(lit "id", VInt 3); (lit "list", VList [VInt 513; VInt 65535]);
         (lit "name", VStr (lit "abc")); (lit "speed", VInt 256)].
Definition ex_pack : bytes :=
  match compileProg 10 Pack ex_heap ex_rec with Ok p => p | Err _ => [] end.
Definition ex_unpack : bytes :=
  match compileProg 10 Unpack ex_heap ex_rec with Ok p => p | Err _ => [] end.
Example ex_pack_runs : exec_pack_prog ex_pack (repeat 7 15) 2 ex_val =
  Ok [7; 7; 3; 1; 2; 255; 255; 97; 98; 99; 0; 0; 0; 1; 7].
Proof. vm_compute. reflexivity. Qed.
Example ex_roomy : roomy ex_ty ex_val /\ exact ex_ty ex_val.
Proof.
  split; [vm_compute; intuition congruence|].
  cbn [exact ex_ty ex_val]. repeat (split; [reflexivity|]). split; [vm_compute; intuition congruence|].
  split; [reflexivity|]. split.
  { split; [reflexivity|]. repeat constructor; eexists; (split; [reflexivity|vm_compute; intuition congruence]). }
  split; [reflexivity|]. split.
  { split; [vm_compute; intuition congruence|]. exists (lit "abc"). split; [reflexivity|vm_compute; congruence]. }
  split; [reflexivity|]. split; [vm_compute; intuition congruence|exact I].
Qed.

(** A buffer that is too small is refused before anything is written. *)
Theorem pack_small_buffer_refused fuel H e t prog data off v :
  compileProg fuel Pack H e = Ok prog -> means H e t -> regular t ->
  len data < off + tlen t -> exec_pack_prog prog data off v = Err RuntimeError.
Proof.
  intros C M [W T] L. rewrite (compile_means _ _ _ _ _ _ C M).
  rewrite exec_pack_prog_start by (pose proof (tlen_nonneg t W); lia).
  replace (len data - off <? tlen t) with true by lia. reflexivity.
Qed.
Print Assumptions pack_small_buffer_refused.

(** Strings that are too long are cut, shorter ones filled with zeros. *)
Theorem string_encoding n s b : 0 <= n -> utf8_encode s = Ok b ->
  exists w, enc (TStr n) (VStr s) = Some w /\ len w = n /\
    (forall i, 0 <= i < n ->
       nth_error w (Z.to_nat i) = if i <? len b then nth_error b (Z.to_nat i) else Some 0).
Proof.
  intros N E. exists (fit n b). cbn [enc]. rewrite E. split; [reflexivity|].
  split; [apply fit_len; lia|]. intros i Hi. unfold fit. rewrite nth_error_firstn.
  destruct (Nat.ltb_spec (Z.to_nat i) (Z.to_nat n)); [|lia].
  destruct (Z.ltb_spec i (len b)).
  - apply nth_error_app1. unfold len in *. lia.
  - rewrite nth_error_app2 by (unfold len in *; lia).
    rewrite nth_error_repeat; [reflexivity|unfold len in *; lia].
Qed.
Print Assumptions string_encoding.
Example ex_string_cut : enc (TStr 2) (VStr (lit "abc")) = Some (lit "ab").
Proof. reflexivity. Qed.

(** ** C25 *)

(** Unpacking reads exactly the value of the bytes at the offset. *)
Theorem unpack_exact fuel H e t prog data off :
  compileProg fuel Unpack H e = Ok prog -> means H e t -> regular t -> flat t ->
  bytes_ok data -> 0 <= off ->
  exec_unpack_prog prog data off =
  if len data - off <? tlen t then Err RuntimeError
  else match dec t (window data off (tlen t)) with
       | Some v => Ok v
       | None => Err UnicodeError
       end.
Proof.
  intros C M [W T] F B O. rewrite (compile_means _ _ _ _ _ _ C M). apply exec_unpack_exact; auto.
Qed.
Print Assumptions unpack_exact.

Lemma overwritten_ok data off b : bytes_ok data -> bytes_ok b -> bytes_ok (overwritten data off b).
Proof.
  intros. unfold overwritten. apply bytes_ok_app. split; [apply bytes_ok_firstn; auto|].
  apply bytes_ok_app. split; [auto|apply bytes_ok_skipn; auto].
Qed.

Theorem pack_unpack_identity fuel fuel' H e t pack unpack data off v :
  compileProg fuel Pack H e = Ok pack -> compileProg fuel' Unpack H e = Ok unpack ->
  means H e t -> regular t -> flat t -> exact t v -> roomy t v ->
  bytes_ok data -> 0 <= off -> off + tlen t <= len data ->
  exists data', exec_pack_prog pack data off v = Ok data' /\
    exec_unpack_prog unpack data' off = Ok v.
Proof.
  intros C C' M R F X Y B O L. pose proof R as [W T].
  destruct (exact_dec t W (flat_distinct t F) v X) as (b & E & Lb & Bb & D).
  exists (overwritten data off b). split.
  - apply (pack_exact fuel H e t); eauto 10.
  - rewrite (unpack_exact fuel' H e t); auto using overwritten_ok.
    change (overwritten data off b) with (wr data off b).
    rewrite len_wr by lia. replace (len data - off <? tlen t) with false by lia.
    change window with win. rewrite <- Lb, win_wr by lia. rewrite D. reflexivity.
Qed.
Print Assumptions pack_unpack_identity.
Example ex_unpack_runs :
  exec_unpack_prog ex_unpack [7; 7; 3; 1; 2; 255; 255; 97; 98; 99; 0; 0; 0; 1; 7] 2 = Ok ex_val.
Proof. vm_compute. reflexivity. Qed.
Example ex_flat : flat ex_ty.
Proof.
  split; [repeat constructor|]. cbn [map fst].
  repeat constructor; cbn [In]; intros I; repeat (destruct I as [I|I]; [discriminate|]); exact I.
Qed.

(** Where member names repeat, each name once, with the value of its last member. *)
Theorem unpack_repeated_members fuel H e ms prog data off d :
  compileProg fuel Unpack H e = Ok prog -> means H e (TRec ms) -> regular (TRec ms) ->
  Forall (fun m => is_rec (snd m) = false) ms -> bytes_ok data -> 0 <= off -> off + tlen (TRec ms) <= len data ->
  dec (TRec ms) (window data off (tlen (TRec ms))) = Some (VDict d) ->
  exists d', exec_unpack_prog prog data off = Ok (VDict d') /\ NoDup (map fst d') /\
    forall nm, dget nm d' = dget nm (rev d).
Proof.
  intros C M [W T] F B O L D. rewrite (compile_means _ _ _ _ _ _ C M).
  exists (fold_left put d []). split; [exact (exec_unpack_any ms data off d W F T B O L D)|]. destruct (puts_last d []) as [P Q].
  split; [apply P; constructor|]. intros nm. rewrite Q. destruct (dget nm (rev d)); reflexivity.
Qed.
Print Assumptions unpack_repeated_members.
Definition ex_repeated : delem := DRec None [DPrim (Some (lit "a")) CU8 None None None; DPrim (Some (lit "b")) CU8 None None None; DPrim (Some (lit "a")) CU16 None None None].
Example ex_repeated_members : (do prog <- compileProg 5 Unpack ex_heap ex_repeated; exec_unpack_prog prog [1; 2; 3; 4] 0) =
  Ok (VDict [(lit "a", VInt 1027); (lit "b", VInt 2)]).
Proof. vm_compute. reflexivity. Qed.

(** ** C26 *)

(** Somewhere in the value an integer is outside the range of its type. *)
Inductive too_big : ty -> pyval -> Prop :=
| big_int k z : z < kmin k \/ kmax k < z -> too_big (TInt k) (VInt z)
| big_item k n l i z : (i < Z.to_nat n)%nat -> nth_error l i = Some (VInt z) ->
    z < kmin k \/ kmax k < z -> too_big (TArr k n) (VList l)
| big_member ms d nm t x : In (nm, t) ms -> dget nm d = Some x -> too_big t x ->
    too_big (TRec ms) (VDict d).

Lemma too_big_enc t v : too_big t v -> enc t v = None.
Proof.
  assert (B : forall k z, z < kmin k \/ kmax k < z -> enc_int k (VInt z) = None).
  { intros k z O. unfold enc_int, in_range.
    destruct (Z.leb_spec (kmin k) z), (Z.leb_spec z (kmax k)); try reflexivity; lia. }
  induction 1 as [k z O|k n l i z I N O|ms d nm t x I G _ IH].
  - apply B. exact O.
  - cbn [enc]. revert l i I N. induction (Z.to_nat n) as [|m IHm]; intros l i I N; [lia|].
    cbn [enc_ints]. destruct l as [|v l]; [destruct i; discriminate|].
    destruct i as [|i]; cbn [nth_error] in N.
    + injection N as ->. rewrite B by exact O. reflexivity.
    + rewrite (IHm l i) by (auto; lia). destruct (enc_int k v); reflexivity.
  - rewrite enc_rec. induction ms as [|[n' t'] ms IHm]; [destruct I|]. cbn [encm].
    destruct I as [I|I].
    + injection I as -> ->. rewrite G, IH. reflexivity.
    + rewrite IHm by exact I. destruct (dget n' d) as [y|]; [|reflexivity].
      destruct (enc t' y); reflexivity.
Qed.

Theorem out_of_range_refused fuel H e t prog data off v :
  compileProg fuel Pack H e = Ok prog -> means H e t -> regular t -> 0 <= off -> too_big t v ->
  exists err, exec_pack_prog prog data off v = Err err.
Proof.
  intros C M R O X. destruct (exec_pack_prog prog data off v) as [r|err] eqn:E; [|eauto].
  apply (pack_exact fuel H e t) in E as (_ & _ & b & Eb & _); auto.
  rewrite (too_big_enc t v X) in Eb. discriminate.
Qed.
Print Assumptions out_of_range_refused.
Example ex_too_big : too_big ex_ty (VDict [(lit "list", VList [VInt 1; VInt (-1)])]).
Proof.
  apply (big_member _ _ (lit "list") (TArr U16 2) (VList [VInt 1; VInt (-1)])); [cbn; auto|reflexivity|].
  apply (big_item _ _ _ 1 (-1)); [cbn; lia|reflexivity|left; reflexivity].
Qed.
(** 2^w - 1 is written, 2^w refused: no wrapping at the border. *)
Example ex_border : enc (TInt U16) (VInt 65535) = Some [255; 255] /\ enc (TInt U16) (VInt 65536) = None
  /\ enc (TInt S16) (VInt (-32768)) = Some [0; 128] /\ enc (TInt S16) (VInt (-32769)) = None.
Proof. repeat split; reflexivity. Qed.

(** ** C27 *)

(** Any byte string run as a pack program ends ([StopError] is the model's mark
    for a loop that would not), keeps the length of the buffer, all bytes before
    the offset, and stores only bytes. *)
Theorem vm_pack_safe code data off v :
  exec_pack_prog code data off v <> Err StopError /\
  (bytes_ok code -> 0 <= off -> forall r, exec_pack_prog code data off v = Ok r ->
     len r = len data /\ firstn (Z.to_nat off) r = firstn (Z.to_nat off) data /\
     (bytes_ok data -> bytes_ok r)).
Proof.
  split.
  - unfold exec_pack_prog. rewrite verify_total. cbn [bind].
    pose proof (pack_loop_not_stop (S (length code)) code true (mk_vmstate v None None []) data off
      ltac:(lia)) as N.
    destruct (pack_loop _ _ _ _ _ _) as [[[s d] o]|]; cbn [bind]; congruence.
  - intros B O r E. apply exec_pack_prog_kept in E; auto.
Qed.
Print Assumptions vm_pack_safe.

Theorem vm_unpack_safe code data off : exec_unpack_prog code data off <> Err StopError.
Proof.
  unfold exec_unpack_prog. rewrite verify_total. cbn [bind].
  pose proof (unpack_loop_not_stop (S (length code)) code true (mk_vmstate VOther None None []) data off
    ltac:(lia)) as N.
  destruct (unpack_loop _ _ _ _ _ _) as [[s o]|]; cbn [bind]; congruence.
Qed.
Print Assumptions vm_unpack_safe.
Example ex_garbage : exec_pack_prog [1; 2; 0; 0; 0; 10; 2; 0; 77] [5; 6; 7; 8] 1 (VList [VInt 9; VInt 10])
  = Err IndexError.
Proof. reflexivity. Qed.
Example ex_garbage_ok : exec_pack_prog [1; 2; 0; 0; 0; 10; 2; 0; 31] [5; 6; 7; 8] 1 (VList [VInt 9; VInt 10])
  = Ok [5; 9; 10; 8].
Proof. reflexivity. Qed.

(** The announced length is no window for arbitrary code: a program that
    announces no bytes writes one. *)
Theorem vm_window_refuted :
  exists code data off v r, bytes_ok code /\ announces Pack 0 code /\
    exec_pack_prog code data off v = Ok r /\
    nth_error r (Z.to_nat off) <> nth_error data (Z.to_nat off).
Proof.
  exists [1; 0; 0; 0; 0; 3], [0], 0, (VInt 9), [9].
  split; [repeat constructor; unfold byte_ok; lia|]. split; [|split; [reflexivity|discriminate]].
  exists 0, 0, 0, 0, [3]. split; [reflexivity|]. split; [|reflexivity].
  repeat constructor; unfold byte_ok; lia.
Qed.
Print Assumptions vm_window_refuted.

(** A program must start with its own kind of header. *)
Theorem vm_header_required code data off v op rest :
  code = op :: rest -> op <> 1 ->
  (forall r, exec_pack_prog code data off v <> Ok r).
Proof.
  intros -> N r E. unfold exec_pack_prog in E. rewrite verify_total in E. cbn [bind pack_loop] in E.
  destruct (parse_next_instruction (op :: rest)) as [[[i c]|]|] eqn:P; cbn [bind] in E; try discriminate.
  - destruct (is_pack_prog i) eqn:I; [|discriminate].
    cbn [parse_next_instruction] in P. revert P.
    destruct (map_get op opcode_parser_map) as [[j|mk|mk|mk]|] eqn:M; intros P.
    5:{ destruct rest; discriminate. }
    all: revert M; unfold opcode_parser_map; cbn [map_get];
      repeat match goal with |- (if ?b then _ else _) = _ -> _ => destruct b eqn:? end;
      intros M; try discriminate; injection M as <-.
    all: try (injection P as <- <-; discriminate I).
    all: try (destruct rest as [|b0 [|b1 rest]]; try discriminate P; injection P as <- <-; discriminate I).
    + unfold OPCODE_PACK_PROG in *. lia.
    + destruct rest as [|b0 [|b1 [|b2 [|b3 rest]]]]; try discriminate P; injection P as <- <-; discriminate I.
    + destruct (split_nul rest) as [[n r']|]; [|discriminate].
      apply bind_ok in P as (s & _ & P). injection P as <- <-. discriminate I.
  - cbn [parse_next_instruction] in P. destruct (map_get op opcode_parser_map) as [[j|mk|mk|mk]|]; try discriminate.
    + destruct rest as [|b0 [|b1 rest]]; discriminate.
    + destruct rest as [|b0 [|b1 [|b2 [|b3 rest]]]]; discriminate.
    + destruct (split_nul rest) as [[n r']|]; [|discriminate]. apply bind_ok in P as (s & _ & P). discriminate.
    + destruct rest; discriminate.
Qed.
Print Assumptions vm_header_required.
Example ex_wrong_header : exec_pack_prog ex_unpack (repeat 0 20) 0 ex_val = Err RuntimeError.
Proof. reflexivity. Qed.

(** ** C28 *)

(** Records inside records pack (as all [regular] types do) but never unpack. *)
Theorem nested_never_unpacks fuel H e t prog data off :
  compileProg fuel Unpack H e = Ok prog -> means H e t -> regular t -> nested t ->
  bytes_ok data -> 0 <= off -> forall v, exec_unpack_prog prog data off <> Ok v.
Proof.
  intros C M [W T] N B O v. rewrite (compile_means _ _ _ _ _ _ C M).
  destruct (Z.ltb_spec (len data) (off + tlen t)).
  - rewrite exec_unpack_prog_start by (pose proof (tlen_nonneg t W); lia).
    replace (len data - off <? tlen t) with true by lia. discriminate.
  - destruct (exec_unpack_nested t data off W N T B O ltac:(lia)) as (e' & -> & _). discriminate.
Qed.
Print Assumptions nested_never_unpacks.

(** A flat type always unpacks unless a string in the data is not UTF-8. *)
Theorem flat_unpacks fuel H e t prog data off :
  compileProg fuel Unpack H e = Ok prog -> means H e t -> regular t -> flat t ->
  bytes_ok data -> 0 <= off -> off + tlen t <= len data ->
  (exists v, exec_unpack_prog prog data off = Ok v) <-> dec t (window data off (tlen t)) <> None.
Proof.
  intros C M R F B O L. rewrite (unpack_exact fuel H e t) by auto.
  replace (len data - off <? tlen t) with false by lia.
  destruct (dec t _) as [v|]; split; intros X; try congruence; eauto.
  destruct X as [v X]. discriminate.
Qed.
Print Assumptions flat_unpacks.

Definition ex_nested : delem :=
  DRec None [DPrim (Some (lit "a")) CU8 None None None; DRef (Some (lit "p")) (RObj 1)].
Definition ex_nested_ty : ty :=
  TRec [(lit "a", TInt U8); (lit "p", TRec [(lit "x", TInt S8); (lit "y", TInt S32)])].
Example ex_nested_means : means ex_heap ex_nested ex_nested_ty /\ regular ex_nested_ty /\ nested ex_nested_ty.
Proof.
  split; [exists 4%nat; repeat constructor|]. split.
  - split; [|reflexivity]. apply wf_rec. split; [discriminate|].
    constructor; [split; [|exact I]; repeat constructor|].
    constructor; [|constructor]. split; [repeat constructor|].
    apply wf_rec. split; [discriminate|]. repeat constructor.
  - right. left. reflexivity.
Qed.
Theorem packable_unpackable_refuted :
  exists H e v pack unpack data,
    compileProg 10 Pack H e = Ok pack /\ compileProg 10 Unpack H e = Ok unpack /\
    exec_pack_prog pack (repeat 0 6) 0 v = Ok data /\
    exec_unpack_prog unpack data 0 = Err NotImplementedError.
Proof.
  exists ex_heap, ex_nested,
    (VDict [(lit "a", VInt 1); (lit "p", VDict [(lit "x", VInt (-2)); (lit "y", VInt 3)])]).
  do 3 eexists. split; [reflexivity|]. split; [reflexivity|]. split; [reflexivity|reflexivity].
Qed.
Print Assumptions packable_unpackable_refuted.

(** ** C29 *)

(** An array member longer than the number of entries of its record value is
    always refused. *)
Theorem long_array_member_refused fuel H e prog ms d nm k n data off :
  compileProg fuel Pack H e = Ok prog -> means H e (TRec ms) -> regular (TRec ms) -> 0 <= off ->
  In (nm, TArr k n) ms -> len d < n ->
  exists err, exec_pack_prog prog data off (VDict d) = Err err.
Proof.
  intros C M R O I L.
  destruct (exec_pack_prog prog data off (VDict d)) as [r|err] eqn:E; [|eauto].
  apply (pack_exact fuel H e (TRec ms)) in E as (_ & Y & _); auto.
  apply roomy_rec in Y. unfold roomym in Y. rewrite Forall_forall in Y.
  apply Y in I. cbn in I. lia.
Qed.
Print Assumptions long_array_member_refused.

Theorem array_member_refuted :
  exists H e t v pack, means H e t /\ regular t /\ exact t v /\ compileProg 10 Pack H e = Ok pack /\
    exec_pack_prog pack (repeat 0 2) 0 v = Err ValueError.
Proof.
  exists ex_heap, (DRec None [DPrim (Some (lit "a")) CU8 None None (Some 2)]),
    (TRec [(lit "a", TArr U8 2)]), (VDict [(lit "a", VList [VInt 1; VInt 2])]).
  eexists. split; [exists 2%nat; repeat constructor|]. split.
  { split; [|reflexivity]. apply wf_rec. split; [discriminate|].
    repeat constructor; cbn; lia. }
  split.
  { cbn [exact]. split; [reflexivity|]. split; [|exact I]. split; [reflexivity|].
    repeat constructor; eexists; (split; [reflexivity|vm_compute; intuition congruence]). }
  split; reflexivity.
Qed.
Print Assumptions array_member_refuted.

(** ** C30 *)

(** A longer array never comes back: at most 65535 items are read. *)
Theorem long_array_never_unpacks fuel H nm c lo hi n prog data off v :
  c <> CSTR -> 65536 <= n ->
  compileProg fuel Unpack H (DPrim nm c lo hi (Some n)) = Ok prog ->
  exec_unpack_prog prog data off = Ok v ->
  (exists z, v = VInt z) \/ (exists l, v = VList l /\ len l < 65536).
Proof.
  intros NC N C E. apply compileProg_iff in C as (t & A & ->).
  inversion A as [|n0 nm0 c0 lo0 hi0 k a K S| | |]; subst; [|contradiction].
  unfold exec_unpack_prog in E. rewrite verify_total in E. cbn [bind] in E.
  fold (urun (head Unpack (tlen (TArr k n)) ++ body Unpack (TArr k n)) true
          (mk_vmstate VOther None None []) data off) in E.
  assert (HH : head Unpack (tlen (TArr k n)) = head Unpack (tlen (TArr k n) mod 2 ^ 32)).
  { unfold head. change (2 ^ 32) with 4294967296. repeat (f_equal; try lia). }
  rewrite HH in E.
  rewrite (urun_step _ _ _ _ _ _ _ (parse_head Unpack (tlen (TArr k n) mod 2 ^ 32) _ ltac:(lia)))
    in E by reflexivity.
  apply bind_ok in E as ([s o] & E & R). injection R as <-.
  apply bind_ok in E as ([s1 o1] & E1 & E). cbn [exec_unpack] in E1.
  apply bind_ok in E1 as (u & _ & E1). injection E1 as <- <-.
  cbn [body] in E.
  replace (n mod 256) with ((n mod 65536) mod 256) in E by lia.
  replace ((n / 256) mod 256) with (((n mod 65536) / 256) mod 256) in E by lia.
  rewrite (urun_step _ _ _ _ _ _ _ (parse_array Unpack k (n mod 65536) [] S ltac:(lia)))
    in E by reflexivity.
  apply bind_ok in E as ([s1 o1] & E1 & E). cbn [iscalar exec_unpack] in E1.
  injection E as <- <-. unfold unpack_struct in E1.
  destruct (0 <? n mod 65536).
  - apply bind_ok in E1 as ([l o2] & Hl & E1). cbn in E1. injection E1 as <- <-.
    right. exists l. split; [reflexivity|].
    assert (G : forall m f o l o', unpack_items m f data o = Ok (l, o') -> length l = m).
    { clear. induction m as [|m IH]; intros f o l o' E; cbn [unpack_items] in E.
      - injection E as <- <-. reflexivity.
      - apply bind_ok in E as (b & _ & E). apply bind_ok in E as ([r o2] & Hr & E).
        injection E as <- <-. apply IH in Hr. cbn. lia. }
    apply G in Hl. unfold len. lia.
  - apply bind_ok in E1 as (b & _ & E1). cbn in E1. injection E1 as <- <-. left. eexists. reflexivity.
Qed.
Print Assumptions long_array_never_unpacks.

(** Lengths 1..65535 work: one instance of [pack_unpack_identity]. *)
Theorem array_roundtrip H nm c k lo hi n l :
  kind_of c = Some k -> small k -> 1 <= n < 65536 -> len l = n ->
  Forall (fun v => exists z, v = VInt z /\ kmin k <= z <= kmax k) l ->
  exists pack unpack data,
    compileProg 1 Pack H (DPrim nm c lo hi (Some n)) = Ok pack /\
    compileProg 1 Unpack H (DPrim nm c lo hi (Some n)) = Ok unpack /\
    exec_pack_prog pack (zeros (Z.of_nat (width k) * n)) 0 (VList l) = Ok data /\
    exec_unpack_prog unpack data 0 = Ok (VList l).
Proof.
  intros K S N L F.
  assert (A : accepts H 1 (DPrim nm c lo hi (Some n)) (TArr k n)) by (constructor; auto).
  assert (forall d, exists p, compileProg 1 d H (DPrim nm c lo hi (Some n)) = Ok p) as CP.
  { intros d. apply compiler_accepts_exactly. eauto. }
  destruct (CP Pack) as [pack Cp]. destruct (CP Unpack) as [unpack Cu].
  assert (R : regular (TArr k n)).
  { split; [cbn; auto|]. cbn [tlen]. destruct k; cbn [width]; lia. }
  destruct (pack_unpack_identity 1 1 H _ (TArr k n) pack unpack (zeros (Z.of_nat (width k) * n)) 0 (VList l)
    Cp Cu (ex_intro _ 1%nat (den_arr H 0 nm c lo hi k n K)) R I (conj L F) I
    (bytes_ok_repeat0 _) ltac:(lia)) as (data & P & U).
  { cbn [tlen]. unfold zeros, len. rewrite repeat_length. lia. }
  exists pack, unpack, data. auto.
Qed.
Print Assumptions array_roundtrip.

(** Length 0 is compiled to the code of a single number: the empty list is
    refused, and a number is written beyond the announced 0 bytes. *)
Theorem array_length_zero_refuted :
  exists H e prog, arrayLen e = Some 0 /\ compileProg 10 Pack H e = Ok prog /\ announces Pack 0 prog /\
    exec_pack_prog prog [7; 7] 0 (VList []) = Err StructError /\
    exec_pack_prog prog [7; 7] 0 (VInt 9) = Ok [9; 7].
Proof.
  exists ex_heap, (DPrim None CU8 None None (Some 0)). eexists.
  split; [reflexivity|]. split; [reflexivity|]. split; [|split; reflexivity].
  exists 0, 0, 0, 0, [10; 0; 0]. split; [reflexivity|]. split; [|reflexivity].
  repeat constructor; unfold byte_ok; lia.
Qed.
Print Assumptions array_length_zero_refuted.
