(** Lemmas on the virtual machine. *)
From Coq Require Import ZifyBool ZifyNat Lia.
From Verif Require Import Py PyLemmas TypesModel CompilerModel VmModel TypesSpec TypesProofs
  CompilerProofs.
Ltac Zify.zify_post_hook ::= Z.div_mod_to_equations.

(** ** Numbers *)

Lemma num_le_bytes : forall n z, le_bytes n z = num_le n z.
Proof.
  induction n as [|n IH]; intros z; [reflexivity|].
  cbn [le_bytes num_le]. rewrite land_255, shiftr_div, IH by lia. reflexivity.
Qed.

Lemma len_num_le n z : len (num_le n z) = Z.of_nat n.
Proof. rewrite <- num_le_bytes. apply len_le_bytes. Qed.

Lemma num_le_ok n z : bytes_ok (num_le n z).
Proof. rewrite <- num_le_bytes. apply le_bytes_ok. Qed.

Lemma num_val_le : forall b, bytes_ok b -> le_value b = num_val b.
Proof.
  induction b as [|x b IH]; intros B; [reflexivity|].
  inversion B; subst. rewrite le_value_cons by auto. cbn [num_val]. rewrite IH by auto. reflexivity.
Qed.

Definition fmt_of (k : kind) : fmt :=
  match k with U8 => FU8 | U16 => FU16 | U32 => FU32 | S8 => FS8 | S16 => FS16 | S32 => FS32
  | U64 => FU8 | S64 => FU8 end.

Lemma fmt_len_of k : small k -> fmt_len (fmt_of k) = Z.of_nat (width k).
Proof. destruct k; cbn; tauto || reflexivity. Qed.
Lemma struct_size_of k : small k -> struct_size (fmt_of k) = Z.of_nat (width k).
Proof. destruct k; cbn; tauto || reflexivity. Qed.
Lemma width_pos k : (0 < width k)%nat.
Proof. destruct k; cbn; lia. Qed.

Lemma pack_uint_num n v :
  pack_uint Little n v =
  if (0 <=? v) && (v <=? 2 ^ (8 * Z.of_nat n) - 1) then Ok (num_le n v) else Err StructError.
Proof.
  unfold pack_uint. rewrite shiftl_1, num_le_bytes by lia.
  replace (v <? 2 ^ (8 * Z.of_nat n)) with (v <=? 2 ^ (8 * Z.of_nat n) - 1) by lia. reflexivity.
Qed.

Lemma pack_sint_num n v : (0 < n)%nat ->
  pack_sint Little n v =
  if (- 2 ^ (8 * Z.of_nat n - 1) <=? v) && (v <=? 2 ^ (8 * Z.of_nat n - 1) - 1)
  then Ok (num_le n v) else Err StructError.
Proof.
  intros P. unfold pack_sint.
  rewrite shiftl_1, land_mod, le_bytes_mod, num_le_bytes by lia.
  replace (v <? 2 ^ (8 * Z.of_nat n - 1)) with (v <=? 2 ^ (8 * Z.of_nat n - 1) - 1) by lia.
  reflexivity.
Qed.

Lemma struct_pack_num k z : small k ->
  struct_pack (fmt_of k) z =
  if in_range k z then Ok (num_le (width k) z) else Err StructError.
Proof.
  intros S. unfold in_range, kmin, kmax.
  destruct k; cbn [small] in S; try tauto;
    cbn [fmt_of struct_pack signed width]; rewrite ?pack_uint_num, ?pack_sint_num by lia; reflexivity.
Qed.

Lemma unpack_sint_num b : bytes_ok b -> (0 < length b)%nat ->
  unpack_sint Little b =
  if 2 ^ (8 * len b - 1) <=? num_val b then num_val b - 2 ^ (8 * len b) else num_val b.
Proof.
  intros B P. unfold unpack_sint. cbn [unpack_uint]. rewrite num_val_le by auto.
  rewrite !shiftl_1 by (unfold len; lia).
  destruct (Z.ltb_spec (num_val b) (2 ^ (8 * len b - 1)));
    destruct (Z.leb_spec (2 ^ (8 * len b - 1)) (num_val b)); lia.
Qed.

Lemma struct_unpack_num k b : small k -> bytes_ok b -> length b = width k ->
  struct_unpack (fmt_of k) b = int_val k b.
Proof.
  intros S B L. unfold int_val. rewrite <- L. fold (len b).
  destruct k; cbn [small] in S; try tauto; cbn [fmt_of struct_unpack signed andb unpack_uint];
    rewrite ?num_val_le by auto; auto;
    apply unpack_sint_num; auto; rewrite L; cbn; lia.
Qed.

(** ** Buffers *)

Lemma skipn_skipn {A} (x y : nat) : forall l : list A, skipn x (skipn y l) = skipn (x + y) l.
Proof.
  induction y as [|y IH]; intros l; [rewrite Nat.add_0_r; reflexivity|].
  destruct l as [|a l]; [rewrite !skipn_nil; reflexivity|].
  rewrite Nat.add_succ_r. cbn [skipn]. apply IH.
Qed.

(** [data] with [b] written at [off]. *)
Definition wr (data : bytes) (off : Z) (b : bytes) : bytes :=
  firstn (Z.to_nat off) data ++ b ++ skipn (Z.to_nat (off + len b)) data.

Lemma len_wr data off b : 0 <= off -> off + len b <= len data -> len (wr data off b) = len data.
Proof.
  intros. unfold wr. rewrite !len_app, len_firstn, len_skipn. pose proof (len_nonneg b). lia.
Qed.

Lemma wr_nil data off : wr data off [] = data.
Proof.
  unfold wr. change (len []) with 0. replace (off + 0) with off by lia. cbn [app].
  apply firstn_skipn.
Qed.

Lemma wr_wr data off a b : 0 <= off -> off + len a + len b <= len data ->
  wr (wr data off a) (off + len a) b = wr data off (a ++ b).
Proof.
  intros O L. pose proof (len_nonneg a). pose proof (len_nonneg b).
  unfold wr. rewrite <- app_assoc.
  assert (L1 : length (firstn (Z.to_nat off) data ++ a) = Z.to_nat (off + len a)).
  { rewrite app_length, firstn_length. unfold len in *. lia. }
  rewrite (app_assoc (firstn (Z.to_nat off) data) a).
  rewrite (firstn_app (Z.to_nat (off + len a))), L1, Nat.sub_diag, firstn_O, app_nil_r.
  rewrite <- L1 at 1. rewrite firstn_all. rewrite <- app_assoc. f_equal. f_equal. f_equal.
  rewrite skipn_app, skipn_all2 by (rewrite L1; unfold len in *; lia). cbn [app].
  rewrite L1. rewrite skipn_skipn. f_equal. rewrite len_app. unfold len in *. lia.
Qed.

Lemma pack_into_in data off b : 0 <= off -> off + len b <= len data ->
  pack_into data off b = Ok (wr data off b).
Proof.
  intros O L. pose proof (len_nonneg b). unfold pack_into, struct_place.
  replace (off <? 0) with false by lia. replace (len data - off <? len b) with false by lia.
  cbn [bind]. rewrite splice_in by lia. reflexivity.
Qed.

Lemma unpack_from_in data off n : 0 <= off -> 0 <= n -> off + n <= len data ->
  unpack_from data off n = Ok (slice data off (off + n)).
Proof.
  intros. unfold unpack_from, struct_place.
  replace (off <? 0) with false by lia. replace (len data - off <? n) with false by lia.
  reflexivity.
Qed.

(** ** Decoding instructions *)

Lemma parse_shorter code i rest :
  parse_next_instruction code = Ok (Some (i, rest)) -> (length rest < length code)%nat.
Proof.
  destruct code as [|op r]; [discriminate|]. cbn [parse_next_instruction].
  assert (Hs : forall b n r', split_nul b = Some (n, r') -> (length r' < length b)%nat).
  { induction b as [|x b IH]; cbn [split_nul]; intros n r' E; [discriminate|].
    destruct (x =? 0); [injection E as <- <-; cbn; lia|].
    destruct (split_nul b) as [[n1 r1]|] eqn:Eb; [|discriminate].
    injection E as <- <-. specialize (IH _ _ eq_refl). cbn. lia. }
  destruct (map_get op opcode_parser_map) as [[j|mk|mk|mk]|].
  - intros E. injection E as <- <-. cbn. lia.
  - destruct r as [|b0 [|b1 r]]; try discriminate. intros E. injection E as <- <-. cbn. lia.
  - destruct r as [|b0 [|b1 [|b2 [|b3 r]]]]; try discriminate.
    intros E. injection E as <- <-. cbn. lia.
  - destruct (split_nul r) as [[n r']|] eqn:Es; [|discriminate].
    intros E. apply bind_ok in E as (s & _ & E). injection E as <- <-.
    apply Hs in Es. cbn. lia.
  - destruct r; discriminate.
Qed.

Lemma pack_loop_turns : forall t1 t2 code first s data off,
  (length code < t1)%nat -> (length code < t2)%nat ->
  pack_loop t1 code first s data off = pack_loop t2 code first s data off.
Proof.
  induction t1 as [|t1 IH]; intros t2 code first s data off L1 L2; [lia|].
  destruct t2 as [|t2]; [lia|]. cbn [pack_loop].
  destruct (parse_next_instruction code) as [[[i r]|]|] eqn:E; cbn [bind]; auto.
  apply parse_shorter in E.
  destruct (first && negb (is_pack_prog i)); auto.
  destruct (exec_pack i s data off) as [[[s' d'] o']|]; cbn [bind]; auto.
  apply IH; lia.
Qed.

Lemma unpack_loop_turns : forall t1 t2 code first s data off,
  (length code < t1)%nat -> (length code < t2)%nat ->
  unpack_loop t1 code first s data off = unpack_loop t2 code first s data off.
Proof.
  induction t1 as [|t1 IH]; intros t2 code first s data off L1 L2; [lia|].
  destruct t2 as [|t2]; [lia|]. cbn [unpack_loop].
  destruct (parse_next_instruction code) as [[[i r]|]|] eqn:E; cbn [bind]; auto.
  apply parse_shorter in E.
  destruct (first && negb (is_unpack_prog i)); auto.
  destruct (exec_unpack i s data off) as [[s' o']|]; cbn [bind]; auto.
  apply IH; lia.
Qed.

Definition prun (code : bytes) (first : bool) s data off :=
  pack_loop (S (length code)) code first s data off.
Definition urun (code : bytes) (first : bool) s data off :=
  unpack_loop (S (length code)) code first s data off.

Lemma prun_step code first s data off i rest :
  parse_next_instruction code = Ok (Some (i, rest)) ->
  first && negb (is_pack_prog i) = false ->
  prun code first s data off =
  do '(s', data', off') <- exec_pack i s data off; prun rest false s' data' off'.
Proof.
  intros E F. unfold prun at 1. cbn [pack_loop]. rewrite E. cbn [bind]. rewrite F.
  apply parse_shorter in E.
  destruct (exec_pack i s data off) as [[[s' d'] o']|]; cbn [bind]; auto.
  unfold prun. apply pack_loop_turns; lia.
Qed.

Lemma urun_step code first s data off i rest :
  parse_next_instruction code = Ok (Some (i, rest)) ->
  first && negb (is_unpack_prog i) = false ->
  urun code first s data off =
  do '(s', off') <- exec_unpack i s data off; urun rest false s' data off'.
Proof.
  intros E F. unfold urun at 1. cbn [unpack_loop]. rewrite E. cbn [bind]. rewrite F.
  apply parse_shorter in E.
  destruct (exec_unpack i s data off) as [[s' o']|]; cbn [bind]; auto.
  unfold urun. apply unpack_loop_turns; lia.
Qed.

Lemma lor_byte a b : 0 <= a < 256 -> Z.lor a (Z.shiftl b 8) = a + 256 * b.
Proof. intros. rewrite lor_shiftl_r by lia. change (2 ^ 8) with 256. lia. Qed.

Lemma parse_head d n rest : 0 <= n < 2 ^ 32 ->
  parse_next_instruction (head d n ++ rest) =
  Ok (Some ((match d with Pack => IPackProg n | Unpack => IUnpackProg n end), rest)).
Proof.
  intros R. unfold head. cbn [app parse_next_instruction].
  assert (Z.lor (Z.lor (Z.lor (n mod 256) (Z.shiftl ((n / 256) mod 256) 8))
      (Z.shiftl ((n / 65536) mod 256) 16)) (Z.shiftl ((n / 16777216) mod 256) 24) = n) as E.
  { rewrite lor_byte by lia.
    rewrite (lor_shiftl_r ((n / 65536) mod 256) _ 16) by (change (2 ^ 16) with 65536; lia).
    rewrite (lor_shiftl_r ((n / 16777216) mod 256) _ 24) by (change (2 ^ 24) with 16777216; change (2 ^ 16) with 65536; lia).
    change (2 ^ 16) with 65536. change (2 ^ 24) with 16777216. change (2 ^ 32) with 4294967296 in R.
    lia. }
  destruct d; unfold prog_op; cbn -[Z.lor Z.shiftl]; rewrite E; reflexivity.
Qed.

Definition iscalar (d : dir) (f : fmt) (n : Z) : instr :=
  match d with Pack => IPack f n | Unpack => IUnpack f n end.
Definition istring (d : dir) (n : Z) : instr :=
  match d with Pack => IPackStr n | Unpack => IUnpackStr n end.

Lemma parse_scalar d k rest : small k ->
  parse_next_instruction (sop d k :: rest) = Ok (Some (iscalar d (fmt_of k) 0, rest)).
Proof. destruct d, k; cbn [small]; intros; try tauto; reflexivity. Qed.

Lemma parse_array d k n rest : small k -> 0 <= n < 65536 ->
  parse_next_instruction (aop d k :: n mod 256 :: (n / 256) mod 256 :: rest) =
  Ok (Some (iscalar d (fmt_of k) n, rest)).
Proof.
  intros S R. cbn [parse_next_instruction].
  assert (E : Z.lor (n mod 256) (Z.shiftl ((n / 256) mod 256) 8) = n)
    by (rewrite lor_byte by lia; lia).
  destruct d, k; cbn [small] in S; try tauto; cbn -[Z.lor Z.shiftl]; rewrite E; reflexivity.
Qed.

Lemma parse_string d n rest : 0 <= n < 65536 ->
  parse_next_instruction (strop d :: n mod 256 :: (n / 256) mod 256 :: rest) =
  Ok (Some (istring d n, rest)).
Proof.
  intros R. cbn [parse_next_instruction].
  assert (E : Z.lor (n mod 256) (Z.shiftl ((n / 256) mod 256) 8) = n)
    by (rewrite lor_byte by lia; lia).
  destruct d; cbn -[Z.lor Z.shiftl]; rewrite E; reflexivity.
Qed.

Lemma parse_enter rest : parse_next_instruction (29 :: rest) = Ok (Some (IRecordEnter, rest)).
Proof. reflexivity. Qed.
Lemma parse_leave rest : parse_next_instruction (31 :: rest) = Ok (Some (IRecordLeave, rest)).
Proof. reflexivity. Qed.

Lemma parse_select nm rest : name_ok nm ->
  parse_next_instruction (30 :: nm ++ 0 :: rest) = Ok (Some (IRecordSelect nm, rest)).
Proof.
  intros N. cbn -[decode_ascii split_nul].
  assert (E : split_nul (nm ++ 0 :: rest) = Some (nm, rest)).
  { induction N as [|c nm C N IH]; [reflexivity|]. cbn [app split_nul].
    replace (c =? 0) with false by lia. rewrite IH. reflexivity. }
  rewrite E. unfold decode_ascii.
  assert (forallb (fun c => c <? 128) nm = true) as ->; [|reflexivity].
  apply forallb_forall. intros x I. unfold name_ok in N. rewrite Forall_forall in N.
  apply N in I. lia.
Qed.
