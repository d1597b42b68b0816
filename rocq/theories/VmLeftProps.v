(** Property C79: the caller's buffer after packing, also when it raises. *)
From Coq Require Import ZifyBool ZifyNat Lia.
From Verif Require Import Py PyLemmas TypesModel CompilerModel VmModel TypesSpec TypesProofs
  CompilerProofs VmProofs VmPackProofs VmSafeProofs CompilerProps VmProps
  VmLeftModel VmLeftSpec VmLeftProofs.
Ltac Zify.zify_post_hook ::= Z.div_mod_to_equations.

(** The two ways a refused number may leave its bytes are contained. *)
Lemma untouched_contained : contained untouched.
Proof. intros d p n P N L. apply ow_refl. Qed.
Lemma cleared_contained : contained cleared.
Proof.
  intros d p n P N L.
  assert (len (repeat 0 (Z.to_nat n)) = n) as R by (unfold len; rewrite repeat_length; lia).
  pose proof (ow_wr d p (repeat 0 (Z.to_nat n)) P) as Q. rewrite R in Q. specialize (Q L).
  unfold wr in Q. rewrite R in Q. exact Q.
Qed.

(** When packing returns, the buffer is the result of C24. *)
Theorem left_after_success torn code data off v r :
  exec_pack_prog code data off v = Ok r -> exec_pack_left torn code data off v = r.
Proof.
  intros E. unfold exec_pack_prog in E. rewrite verify_total in E. cbn [bind] in E.
  apply bind_ok in E as ([[s d1] o1] & H & E). injection E as <-.
  rewrite left_start. unfold lrun. eapply left_loop_ok; eauto.
Qed.
Print Assumptions left_after_success.

(** Whatever the value, accepted or refused: only the bytes of the port change. *)
Theorem refused_stays_in_window torn fuel H e t prog data off v :
  contained torn -> compileProg fuel Pack H e = Ok prog -> means H e t -> regular t -> 0 <= off ->
  only_within off (off + tlen t) data (exec_pack_left torn prog data off v).
Proof.
  intros T C M [W L] O. rewrite (compile_means _ _ _ _ _ _ C M).
  pose proof (tlen_nonneg t W). rewrite left_compiled by lia.
  destruct (len data - off <? tlen t); [apply ow_refl|].
  pose proof (bounded_body torn T t W [] 0 ltac:(lia) (bounded_nil torn)) as B.
  rewrite app_nil_r, Z.add_0_r in B. apply B. exact O.
Qed.
Print Assumptions refused_stays_in_window.

(** A buffer without room for the port is not touched at all. *)
Theorem small_buffer_untouched torn fuel H e t prog data off v :
  compileProg fuel Pack H e = Ok prog -> means H e t -> regular t -> len data < off + tlen t ->
  exec_pack_left torn prog data off v = data.
Proof.
  intros C M [W L] S. rewrite (compile_means _ _ _ _ _ _ C M).
  pose proof (tlen_nonneg t W). rewrite left_compiled by lia.
  replace (len data - off <? tlen t) with true by lia. reflexivity.
Qed.
Print Assumptions small_buffer_untouched.

(** Any byte string as program: nothing before the offset changes. *)
Theorem any_code_keeps_prefix torn code data off v :
  contained torn -> bytes_ok code -> 0 <= off ->
  only_within off (len data) data (exec_pack_left torn code data off v).
Proof.
  intros T B O. rewrite left_start. unfold lrun. apply left_loop_kept; auto.
Qed.
Print Assumptions any_code_keeps_prefix.

Lemma ow_firstn a b d d' : 0 <= a <= len d -> only_within a b d d' ->
  firstn (Z.to_nat a) d' = firstn (Z.to_nat a) d.
Proof.
  intros A [L F]. apply nth_error_ext. intros i. rewrite !nth_error_firstn.
  destruct (Nat.ltb_spec i (Z.to_nat a)); [|reflexivity].
  specialize (F (Z.of_nat i)). rewrite Nat2Z.id in F. apply F. lia.
Qed.

Lemma firstn_wr d o b : 0 <= o -> o + len b <= len d ->
  firstn (Z.to_nat (o + len b)) (wr d o b) = firstn (Z.to_nat o) d ++ b.
Proof.
  intros O L. pose proof (len_nonneg b). unfold wr. rewrite app_assoc.
  assert (length (firstn (Z.to_nat o) d ++ b) = Z.to_nat (o + len b)) as Q
    by (rewrite app_length, firstn_length; unfold len in *; lia).
  rewrite <- Q. rewrite firstn_app, Nat.sub_diag, firstn_O, app_nil_r. apply firstn_all.
Qed.

Lemma mlen_app a b : mlen (a ++ b) = mlen a + mlen b.
Proof.
  induction a as [|[nm t] a IH]; cbn [app]; rewrite ?mlen_nil, ?mlen_cons, ?IH; lia.
Qed.
Lemma mbody_app d a b : mbody d (a ++ b) = mbody d a ++ mbody d b.
Proof.
  induction a as [|[nm t] a IH]; [reflexivity|]. cbn [app mbody]. rewrite IH.
  rewrite <- !app_assoc. cbn [app]. rewrite <- !app_assoc. reflexivity.
Qed.
Lemma mlen_nonneg ms : wfm ms -> 0 <= mlen ms.
Proof.
  induction 1 as [|[nm t] ms [_ W] _ IH]; [rewrite mlen_nil; lia|]. rewrite mlen_cons.
  pose proof (tlen_nonneg t W). lia.
Qed.
Lemma encm_len d ms b : wfm ms -> encm d ms = Some b -> len b = mlen ms.
Proof.
  intros W E. destruct ms as [|m ms]; [injection E as <-; reflexivity|].
  rewrite <- enc_rec in E. apply enc_len in E; [exact E|]. apply wf_rec. split; [discriminate|exact W].
Qed.

(** ** Not all or nothing *)

(** If the first members of a record can be packed, they have been when a later
    member is refused. *)
Theorem members_before_written torn fuel H e ms ms' prog data off d b :
  contained torn ->
  compileProg fuel Pack H e = Ok prog -> means H e (TRec (ms ++ ms')) -> regular (TRec (ms ++ ms')) ->
  0 <= off -> off + tlen (TRec (ms ++ ms')) <= len data ->
  roomy (TRec ms) (VDict d) -> enc (TRec ms) (VDict d) = Some b ->
  firstn (Z.to_nat (off + len b)) (exec_pack_left torn prog data off (VDict d)) =
  firstn (Z.to_nat off) data ++ b.
Proof.
  intros T C M [W L] O S R E. rewrite (compile_means _ _ _ _ _ _ C M).
  pose proof (tlen_nonneg _ W). rewrite left_compiled by lia.
  replace (len data - off <? tlen (TRec (ms ++ ms'))) with false by lia.
  apply wf_rec in W as [_ W]. apply Forall_app in W as [W W'].
  rewrite enc_rec in E. apply roomy_rec in R.
  change (tlen (TRec (ms ++ ms'))) with (mlen (ms ++ ms')) in *.
  rewrite mlen_app in *. pose proof (mlen_nonneg _ W). pose proof (mlen_nonneg _ W').
  pose proof (encm_len d ms b W E) as Lb.
  assert (exists k', prun (29 :: mbody Pack ms) false (mk_vmstate (VDict d) None None []) data off =
            Ok (mk_vmstate (VDict d) k' None [], wr data off b, off + mlen ms)) as [k' P].
  { rewrite (prun_step _ _ _ _ _ _ _ (parse_enter (mbody Pack ms))) by reflexivity.
    cbn [exec_pack]. unfold p_record_enter. cbn [vs_key vs_index vs_value is_dict bind].
    assert (Hok : Forall (fun m => member_ok (snd m)) ms)
      by (apply Forall_forall; intros; apply member_all).
    destruct (members_ok ms Hok None d [] data off [] b W O ltac:(lia) R E) as [k' P].
    rewrite app_nil_r in P. exists k'. rewrite P. reflexivity. }
  rewrite body_rec, mbody_app, <- app_assoc, app_comm_cons.
  rewrite (lrun_app torn _ _ _ _ _ _ _ _ _ (le_n _) P).
  assert (B : Forall (fun m => bounded_ty torn (snd m)) ms')
    by (apply Forall_forall; intros; apply bounded_body; exact T).
  destruct (bounded_members torn T ms' B W' [31] 0 ltac:(lia)
    (bounded_leave torn T [] 0 ltac:(lia) (bounded_nil torn))) as [Q _].
  specialize (Q (mk_vmstate (VDict d) k' None []) (wr data off b) (off + mlen ms) ltac:(lia)).
  rewrite <- Lb in *. apply ow_firstn in Q; [|rewrite len_wr; lia].
  rewrite Q. apply firstn_wr; lia.
Qed.
Print Assumptions members_before_written.

(** If the first items of a list can be packed, they have been when a later item
    is refused (a list that is too short is refused before). *)
Theorem items_before_written torn fuel H e k n prog data off l j b :
  contained torn ->
  compileProg fuel Pack H e = Ok prog -> means H e (TArr k n) -> regular (TArr k n) ->
  0 <= off -> off + tlen (TArr k n) <= len data ->
  n <= len l -> Z.of_nat j <= n -> enc_ints k j l = Some b ->
  firstn (Z.to_nat (off + len b)) (exec_pack_left torn prog data off (VList l)) =
  firstn (Z.to_nat off) data ++ b.
Proof.
  intros T C M [W L] O S N J E. rewrite (compile_means _ _ _ _ _ _ C M).
  pose proof (tlen_nonneg _ W). rewrite left_compiled by lia.
  replace (len data - off <? tlen (TArr k n)) with false by lia.
  destruct W as [K A]. cbn [body].
  rewrite (lrun_step torn _ _ _ _ _ _ _ (parse_array Pack k n [] K ltac:(lia))) by reflexivity.
  cbn [iscalar exec_pack left_exec tlen] in *.
  assert (I : forall j m pre l data off b, enc_ints k j l = Some b -> (j <= m)%nat -> 0 <= off ->
    off + Z.of_nat (width k) * Z.of_nat m <= len data ->
    firstn (Z.to_nat (off + len b)) (left_items torn m (fmt_of k) data off (pre ++ l) (len pre)) =
    firstn (Z.to_nat off) data ++ b).
  { clear - T K. induction j as [|j IH]; intros m pre l data off b E J O S.
    - cbn [enc_ints] in E. injection E as <-. change (len []) with 0. rewrite Z.add_0_r, app_nil_r.
      apply (ow_firstn off (off + fmt_len (fmt_of k) * Z.of_nat m)); [lia|]. apply ow_left_items; auto.
    - destruct m as [|m]; [lia|]. destruct l as [|v l]; [discriminate|]. cbn [enc_ints] in E.
      destruct (enc_int k v) as [a|] eqn:Ea; [|discriminate].
      destruct (enc_ints k j l) as [c|] eqn:Ec; [|discriminate]. injection E as <-.
      pose proof (enc_int_len _ _ _ Ea) as La.
      cbn [left_items]. rewrite index_mid. rewrite pack_value_enc by (auto; lia). rewrite Ea.
      rewrite fmt_len_of by auto.
      specialize (IH m (pre ++ [v]) l (wr data off a) (off + Z.of_nat (width k)) c Ec).
      rewrite <- app_assoc in IH. cbn [app] in IH.
      replace (len (pre ++ [v])) with (len pre + 1) in IH by (rewrite len_app; reflexivity).
      rewrite len_wr in IH by lia. rewrite len_app, Z.add_assoc, La.
      rewrite IH by lia. rewrite <- La, firstn_wr by lia. rewrite <- app_assoc. reflexivity. }
  specialize (I j (Z.to_nat n) [] l data off b E ltac:(lia) O ltac:(lia)).
  cbn [app] in I. change (@len pyval []) with 0 in I.
  destruct (pack_struct (fmt_of k) n (mk_vmstate (VList l) None None []) data off) as [[d' o']|] eqn:P;
    cbn [bind].
  - change (lrun torn [] false (mk_vmstate (VList l) None None []) d' o') with d'.
    unfold pack_struct in P. cbn [current vs_value bind len_value] in P.
    replace (0 <? n) with true in P by lia. replace (len l <? n) with false in P by lia.
    assert (G : forall m data off i d' o', pack_items m (fmt_of k) data off l i = Ok (d', o') ->
      left_items torn m (fmt_of k) data off l i = d').
    { clear. induction m as [|m IH]; intros data off i d' o' P; cbn [pack_items left_items] in *.
      - injection P as <- _. reflexivity.
      - apply bind_ok in P as (v & V & P). rewrite V. apply bind_ok in P as (d1 & V1 & P). rewrite V1.
        eapply IH; eauto. }
    apply G in P. rewrite P in I. exact I.
  - unfold left_struct. cbn [current vs_value len_value].
    replace (0 <? n) with true by lia. replace (len l <? n) with false by lia. exact I.
Qed.
Print Assumptions items_before_written.

(** So packing is not all or nothing: a refused value changes the buffer. *)
Theorem all_or_nothing_refuted : exists H e t prog data v x,
  means H e t /\ regular t /\ compileProg 10 Pack H e = Ok prog /\
  exec_pack_prog prog data 0 v = Err x /\ forall torn, contained torn -> exec_pack_left torn prog data 0 v <> data.
Proof.
  exists ex_heap, ex_rec, ex_ty, ex_pack, (repeat 7 15),
    (VDict [(lit "id", VInt 3); (lit "list", VList [VInt 513; VInt 65535]);
            (lit "name", VStr (lit "abc")); (lit "speed", VInt 65536)]), StructError.
  split; [exact ex_means|]. split; [exact ex_regular|]. split; [reflexivity|]. split; [vm_compute; reflexivity|].
  intros torn T E.
  assert (M : means ex_heap ex_rec (TRec ([(lit "id", TInt U8)] ++
    [(lit "list", TArr U16 2); (lit "name", TStr 5); (lit "speed", TInt U16)]))) by exact ex_means.
  pose proof (members_before_written torn 10 ex_heap ex_rec _ _ ex_pack (repeat 7 15) 0
    [(lit "id", VInt 3); (lit "list", VList [VInt 513; VInt 65535]);
            (lit "name", VStr (lit "abc")); (lit "speed", VInt 65536)] [3] T eq_refl M ex_regular) as Q.
  rewrite E in Q. specialize (Q ltac:(lia) ltac:(vm_compute; congruence) ltac:(cbn; auto) eq_refl).
  vm_compute in Q. discriminate.
Qed.
Print Assumptions all_or_nothing_refuted.

(** The record of C24 with a speed that does not fit, at offset 2 of a buffer of
    sevens: all members before it are written, the bytes around are not. *)
Definition ex_bad : pyval :=
  VDict [(lit "id", VInt 3); (lit "list", VList [VInt 513; VInt 65535]);
         (lit "name", VStr (lit "abc")); (lit "speed", VInt 65536)].
Example ex_left_untouched : exec_pack_left untouched ex_pack (repeat 7 15) 2 ex_bad =
  [7; 7; 3; 1; 2; 255; 255; 97; 98; 99; 0; 0; 7; 7; 7].
Proof. vm_compute. reflexivity. Qed.
Example ex_left_cleared : exec_pack_left cleared ex_pack (repeat 7 15) 2 ex_bad =
  [7; 7; 3; 1; 2; 255; 255; 97; 98; 99; 0; 0; 0; 0; 7].
Proof. vm_compute. reflexivity. Qed.
Example ex_left_raises : exec_pack_prog ex_pack (repeat 7 15) 2 ex_bad = Err StructError.
Proof. vm_compute. reflexivity. Qed.
Example ex_left_items : exec_pack_left untouched [1; 3; 0; 0; 0; 10; 3; 0] [9; 9; 9; 9] 1
  (VList [VInt 1; VInt 2; VInt 300]) = [9; 1; 2; 9].
Proof. vm_compute. reflexivity. Qed.
Example ex_left_small : exec_pack_left untouched ex_pack (repeat 7 13) 2 ex_val = repeat 7 13.
Proof. vm_compute. reflexivity. Qed.
