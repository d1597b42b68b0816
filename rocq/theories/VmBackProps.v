(** Property C69: packing what was unpacked. *)
From Coq Require Import ZifyBool ZifyNat Lia.
From Verif Require Import Py PyLemmas TypesModel CompilerModel VmModel TypesSpec TypesProofs CompilerProofs VmProofs VmPackProofs
  VmUnpackProofs CompilerProps VmProps VmBackSpec VmBackProofs
  TextModel AttrModel NodeModel RmfModel FileModel NodeDataModel NodeDataSpec NodeDataProofs NodeDataProps.
Ltac Zify.zify_post_hook ::= Z.div_mod_to_equations.

(** A value unpacked from one buffer is packed into any other buffer that has room, and
    unpacks there to the same value; if strings are filled up with zeros, the bytes are
    those of the first buffer.  The two elements, say of a require and a provide port,
    need not be the same: only their type counts. *)
Theorem forward_copies fuel fuel' fuel'' H H' e e' t unpack pack unpack' data off data' off' v :
  compileProg fuel Unpack H e = Ok unpack -> compileProg fuel' Pack H' e' = Ok pack -> compileProg fuel'' Unpack H' e' = Ok unpack' ->
  means H e t -> means H' e' t -> regular t -> flat t -> short_arrays t ->
  bytes_ok data -> 0 <= off -> exec_unpack_prog unpack data off = Ok v ->
  bytes_ok data' -> 0 <= off' -> off' + tlen t <= len data' ->
  exists r, exec_pack_prog pack data' off' v = Ok r /\ exec_unpack_prog unpack' r off' = Ok v /\
    (tidy t (window data off (tlen t)) -> r = overwritten data' off' (window data off (tlen t))).
Proof.
  intros C1 C2 C3 M M' R F SA B O E B' O' L. pose proof R as [W T]. rewrite (unpack_exact _ _ _ _ _ _ _ C1 M R F B O) in E.
  destruct (Z.ltb_spec (len data - off) (tlen t)) as [|RM]; [discriminate|].
  destruct (dec t (window data off (tlen t))) as [x|] eqn:D; [|discriminate]. injection E as ->.
  pose proof (tlen_nonneg t W) as TL.
  destruct (dec_back t W (flat_distinct t F) (window data off (tlen t)) v) as [X G]; [apply bytes_ok_firstn, bytes_ok_skipn; exact B| |exact D|].
  { unfold window, len in *. rewrite firstn_length, skipn_length. lia. }
  pose proof (flat_roomy t v F X SA) as RO.
  destruct (pack_unpack_identity _ _ _ _ _ _ _ data' off' v C2 C3 M' R F X RO B' O' L) as (r & P & U). exists r. split; [exact P|]. split; [exact U|].
  intros TI. apply (pack_exact _ _ _ _ _ _ _ _ _ C2 M' R O') in P as (_ & _ & b & Eb & ->). rewrite (G TI) in Eb. congruence.
Qed.
Print Assumptions forward_copies.

(** Writing back what was read leaves the buffer as it was. *)
Theorem unpack_pack_identity fuel fuel' H e t unpack pack data off v :
  compileProg fuel Unpack H e = Ok unpack -> compileProg fuel' Pack H e = Ok pack ->
  means H e t -> regular t -> flat t -> short_arrays t -> bytes_ok data -> 0 <= off -> tidy t (window data off (tlen t)) ->
  exec_unpack_prog unpack data off = Ok v -> exec_pack_prog pack data off v = Ok data.
Proof.
  intros C1 C2 M R F SA B O TI E. pose proof E as E'. pose proof R as [W T]. pose proof (tlen_nonneg t W) as TL. rewrite (unpack_exact _ _ _ _ _ _ _ C1 M R F B O) in E'.
  destruct (Z.ltb_spec (len data - off) (tlen t)) as [|RM]; [discriminate|].
  destruct (forward_copies _ _ _ _ _ _ _ _ _ _ _ data off data off v C1 C2 C1 M M R F SA B O E B O ltac:(lia)) as (r & P & _ & G).
  rewrite P, (G TI). f_equal. unfold overwritten, window.
  assert (LW : len (firstn (Z.to_nat (tlen t)) (skipn (Z.to_nat off) data)) = tlen t) by (unfold len in *; rewrite firstn_length, skipn_length; lia).
  rewrite LW. replace (Z.to_nat (off + tlen t)) with (Z.to_nat (tlen t) + Z.to_nat off)%nat by lia.
  rewrite <- skipn_skipn. rewrite !firstn_skipn. reflexivity.
Qed.
Print Assumptions unpack_pack_identity.

(** Buffers without strings always unpack, so that they are copied in any case. *)
Lemma numeric_dec t : numeric t -> forall b, tidy t b /\ exists v, dec t b = Some v.
Proof.
  induction t as [k|k n| |n|ms IH] using ty_ind2; intros N b; try (destruct N; fail); [split; [exact I|eexists; reflexivity]..|].
  cbn [numeric] in N. rewrite dec_rec. change (tidy (TRec ms) b) with (tidym ms b).
  cut (tidym ms b /\ exists d, decm ms b = Some d). { intros (T & d & ->). eauto. }
  revert b. induction IH as [|[nm t] ms Ht IH IHm]; intros b; [split; [exact I|eexists; reflexivity]|].
  destruct N as [N1 N2]. cbn [snd] in Ht. destruct (Ht N1 (firstn (Z.to_nat (tlen t)) b)) as (T1 & v & D1). destruct (IHm N2 (skipn (Z.to_nat (tlen t)) b)) as (T2 & d & D2).
  split; [apply tidym_cons; auto|]. cbn [decm]. rewrite D1, D2. eauto.
Qed.
Theorem numbers_copied fuel fuel' H e t unpack pack data off :
  compileProg fuel Unpack H e = Ok unpack -> compileProg fuel' Pack H e = Ok pack ->
  means H e t -> regular t -> flat t -> short_arrays t -> numeric t -> bytes_ok data -> 0 <= off -> off + tlen t <= len data ->
  exists v, exec_unpack_prog unpack data off = Ok v /\ exec_pack_prog pack data off v = Ok data.
Proof.
  intros C1 C2 M R F SA N B O L. destruct (numeric_dec t N (window data off (tlen t))) as (T & v & D).
  assert (E : exec_unpack_prog unpack data off = Ok v).
  { rewrite (unpack_exact _ _ _ _ _ _ _ C1 M R F B O). destruct (Z.ltb_spec (len data - off) (tlen t)); [lia|]. rewrite D. reflexivity. }
  exists v. split; [exact E|]. exact (unpack_pack_identity _ _ _ _ _ _ _ _ _ _ C1 C2 M R F SA B O T E).
Qed.
Print Assumptions numbers_copied.

(** ** Ports *)

(** What is read from a require port of one node is accepted by a provide port of the
    same type of another node, at any time in the history of both.  The bytes stored
    there mean the same value and, if strings are filled up with zeros, are the same. *)
Theorem gateway fuel W nd F k W' F' k' D ins outs live heard ops F3 D3 rs i t v
    fuelb Wb ndb Fb kb Wb' Fb' kb' Db insb outsb liveb heardb opsb F3b D3b rsb j :
  good fuel W nd F k W' F' k' D ins outs -> reached W' F' D live heard ops F3 D3 rs ->
  good fuelb Wb ndb Fb kb Wb' Fb' kb' Db insb outsb -> reached Wb' Fb' Db liveb heardb opsb F3b D3b rsb ->
  nth_error ins i = Some t -> nth_error outsb j = Some t -> short_arrays t -> 0 < tlen t ->
  d_locked D3 = false -> d_locked D3b = false -> readable t (part_of ins (in_data F3 D3) i) = Some v ->
  read_require_port W' F3 D3 (Z.of_nat i) = (D3, Done v) /\
  exists F4 D4, cstep Wb' F3b D3b (NWrite (Z.of_nat j) v) = (F4, D4, AStored (if liveb then [(port_start outsb j, tlen t)] else [])) /\
    dec t (part_of outsb (out_data F4 D4) j) = Some v /\
    (tidy t (part_of ins (in_data F3 D3) i) -> part_of outsb (out_data F4 D4) j = part_of ins (in_data F3 D3) i).
Proof.
  intros G R Gb Rb N Nb SA TP Lk Lkb Rd.
  pose proof (g_rins _ _ _ _ _ _ _ _ _ _ _ G) as RI. pose proof (g_routs _ _ _ _ _ _ _ _ _ _ _ Gb) as RO.
  pose proof (proj1 (Forall_forall _ _) RI t (nth_error_In _ _ N)) as RT. pose proof (proj1 (Forall_forall _ _) (g_pleasant _ _ _ _ _ _ _ _ _ _ _ G) t (nth_error_In _ _ N)) as PL.
  pose proof (port_end ins i t RI N) as PE. pose proof (port_end outsb j t RO Nb) as PEb.
  split; [apply (read_gives_present_value fuel W nd F k W' F' k' D ins outs live heard ops F3 D3 rs i t v G R Lk ltac:(lia) N Rd)|].
  assert (FL : flat t).
  { destruct PL as [X|X]; [exact X|]. exfalso. destruct t as [| | | |ms]; try contradiction. cbn [readable] in Rd. cbn [nested] in X.
    replace (existsb (fun m => is_rec (snd m)) ms) with true in Rd; [discriminate|]. symmetry. apply existsb_exists. apply Exists_exists in X. exact X. }
  assert (DC : dec t (part_of ins (in_data F3 D3) i) = Some v).
  { destruct t as [| | | |ms]; try exact Rd. cbn [readable] in Rd. destruct (existsb _ ms); [discriminate|exact Rd]. }
  destruct (reached_sim _ _ _ _ _ _ _ _ _ _ _ _ _ _ _ _ _ G R) as (s & _ & Si). pose proof (sim_pictures _ _ _ _ _ _ _ _ Si) as (_ & P2 & _).
  destruct (reached_sim _ _ _ _ _ _ _ _ _ _ _ _ _ _ _ _ _ Gb Rb) as (sb & _ & Sb). pose proof (sim_pictures _ _ _ _ _ _ _ _ Sb) as (P1 & _ & _).
  assert (BI : bytes_ok (part_of ins (in_data F3 D3) i)) by (apply part_ok; rewrite P2; apply Si).
  assert (LI : len (part_of ins (in_data F3 D3) i) = tlen t) by (apply part_len; auto; rewrite P2, (sim_inlen _ _ _ _ _ _ _ _ Si); lia).
  destruct (dec_back t (proj1 RT) (flat_distinct t FL) _ v BI LI DC) as [X BK].
  destruct (exact_dec t (proj1 RT) (flat_distinct t FL) v X) as (b & Eb & Lb & Bb & Db2).
  destruct (write_stores _ _ _ _ _ _ _ _ _ _ _ _ _ _ _ _ _ j t v b Gb Rb ltac:(lia) Nb Lkb (flat_roomy t v FL X SA) Eb) as (F4 & D4 & C & O4 & _).
  exists F4, D4. split; [exact C|].
  assert (PB : part_of outsb (out_data F4 D4) j = b).
  { unfold part_of. rewrite Nb, O4, <- Lb. change (firstn (Z.to_nat (len b)) (skipn (Z.to_nat (port_start outsb j)) (overwritten (out_data F3b D3b) (port_start outsb j) b)))
      with (win (wr (out_data F3b D3b) (port_start outsb j) b) (port_start outsb j) (len b)). apply win_wr; [lia|].
    rewrite P1, (sized_concat _ _ (sim_parts _ _ _ _ _ _ _ _ Sb)). lia. }
  rewrite PB. split; [exact Db2|]. intros TI. rewrite (BK TI) in Eb. congruence.
Qed.
Print Assumptions gateway.

(** ** Examples *)

Definition prog_of (d : dir) (H : theap) (e : delem) : bytes := match compileProg 10 d H e with Ok p => p | Err _ => [] end.
Definition read_back (H : theap) (e : delem) (data : bytes) (off : Z) : res (pyval * bytes) :=
  do v <- exec_unpack_prog (prog_of Unpack H e) data off;
  do r <- exec_pack_prog (prog_of Pack H e) data off v; Ok (v, r).

Lemma ex_conditions : short_arrays ex_ty /\ tidy ex_ty [3; 1; 2; 255; 255; 97; 98; 99; 0; 0; 0; 1].
Proof.
  split; [vm_compute; intuition congruence|]. cbn [tidy ex_ty]. repeat (split; [exact I|]). split; [|auto]. vm_compute firstn.
  intros a r E. do 5 (destruct a as [|? a]; cbn [app] in E; [try discriminate E; injection E as <-; repeat apply Forall_cons; auto using Forall_nil|injection E as _ E]).
  destruct a; discriminate E.
Qed.
Example ex_read_back : read_back ex_heap ex_rec [7; 7; 3; 1; 2; 255; 255; 97; 98; 99; 0; 0; 0; 1; 7] 2 =
  Ok (ex_val, [7; 7; 3; 1; 2; 255; 255; 97; 98; 99; 0; 0; 0; 1; 7]).
Proof. vm_compute. reflexivity. Qed.
Example ex_negative : read_back ex_heap (DPrim None CS16 None None (Some 2)) [9; 255; 255; 0; 128] 1 =
  Ok (VList [VInt (-1); VInt (-32768)], [9; 255; 255; 0; 128]).
Proof. vm_compute. reflexivity. Qed.

(** A value that arrived at one node is written to another one. *)
Example ex_gateway :
  match scenario (lit "APX/1.2
N""A""
R""Speed""S
R""In""{""id""s""text""a[4]}
") [NArrive 2 [254; 255; 72; 105; 0; 0] false; NRead 1] with
  | Some ([_; AValue (OVal v)], _, inp, false) =>
    v = VDict [(lit "id", VInt (-2)); (lit "text", VStr (lit "Hi"))] /\ inp = [0; 0; 254; 255; 72; 105; 0; 0] /\
    scenario (lit "APX/1.2
N""B""
P""First""C
P""Out""{""id""s""text""a[4]}
") [NWrite 1 v] = Some ([AStored [(1, 6)]], [0; 254; 255; 72; 105; 0; 0], [], false)
  | _ => False
  end.
Proof. vm_compute. repeat split. Qed.

(** ** What does not hold *)

(** Bytes after a zero in a string are lost. *)
Theorem untidy_refuted : exists data v r, bytes_ok data /\
  read_back ex_heap (DPrim None CSTR None None (Some 4)) data 0 = Ok (v, r) /\ r <> data.
Proof.
  exists [97; 0; 98; 0], (VStr (lit "a")), [97; 0; 0; 0]. split; [repeat constructor; unfold byte_ok; lia|]. split; [vm_compute; reflexivity|discriminate].
Qed.
Print Assumptions untidy_refuted.

(** A record whose array member is longer than it has members is unpacked, but the value
    cannot be packed again. *)
Theorem long_member_refuted : exists e t v, means ex_heap e t /\ regular t /\ flat t /\ numeric t /\
  exec_unpack_prog (prog_of Unpack ex_heap e) [1; 2; 3] 0 = Ok v /\
  exists err, exec_pack_prog (prog_of Pack ex_heap e) [1; 2; 3] 0 v = Err err.
Proof.
  exists (DRec None [DPrim (Some (lit "a")) CU8 None None (Some 3)]), (TRec [(lit "a", TArr U8 3)]), (VDict [(lit "a", VList [VInt 1; VInt 2; VInt 3])]).
  split; [exists 3%nat; repeat constructor|]. split; [split; [|reflexivity]; apply wf_rec; split; [discriminate|]; repeat constructor; cbn; lia|].
  split; [split; [repeat constructor|repeat constructor; intros []]|]. split; [repeat constructor|].
  split; [vm_compute; reflexivity|]. eexists. vm_compute. reflexivity.
Qed.
Print Assumptions long_member_refuted.
