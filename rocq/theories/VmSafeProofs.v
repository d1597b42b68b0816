(** Lemmas on arbitrary byte code: the loop ends, the buffer keeps its length,
    nothing before the start offset changes. *)
From Coq Require Import ZifyBool ZifyNat Lia.
From Verif Require Import Py PyLemmas TypesModel CompilerModel VmModel TypesSpec TypesProofs
  CompilerProofs VmProofs VmPackProofs VmUnpackProofs.
Ltac Zify.zify_post_hook ::= Z.div_mod_to_equations.

(** ** The loop ends *)

Ltac dend := repeat match goal with
  | |- bind ?x _ <> _ => let E := fresh in destruct x eqn:E; cbn [bind]
  | |- (let '(_, _) := ?x in _) <> _ => destruct x
  | |- (if ?c then _ else _) <> _ => destruct c
  | |- (match ?x with _ => _ end) <> _ => destruct x
  | |- _ <> _ => discriminate
  end.

Lemma index_not_stop {A} (l : list A) i : index l i <> Err StopError.
Proof. unfold index. dend. Qed.
Lemma pack_into_not_stop d o b : pack_into d o b <> Err StopError.
Proof. unfold pack_into, struct_place.
  destruct (o <? 0); [destruct (_ || _)|destruct (_ <? _)]; discriminate. Qed.
Lemma unpack_from_not_stop d o b : unpack_from d o b <> Err StopError.
Proof. unfold unpack_from, struct_place.
  destruct (o <? 0); [destruct (_ || _)|destruct (_ <? _)]; discriminate. Qed.
Lemma struct_pack_not_stop f v : struct_pack f v <> Err StopError.
Proof. destruct f; unfold struct_pack, pack_uint, pack_sint; dend. Qed.
Lemma utf8_encode_not_stop s : utf8_encode s <> Err StopError.
Proof.
  induction s as [|c s IH]; cbn [utf8_encode]; [discriminate|].
  assert (utf8_enc1 c <> Err StopError) by (unfold utf8_enc1; dend).
  destruct (utf8_enc1 c); cbn [bind]; [|congruence].
  destruct (utf8_encode s); cbn [bind]; congruence.
Qed.
Lemma utf8_decode_not_stop s : utf8_decode s <> Err StopError.
Proof. intros E. apply utf8_decode_err in E. discriminate. Qed.

Create HintDb stop.
#[export] Hint Resolve index_not_stop pack_into_not_stop unpack_from_not_stop struct_pack_not_stop
  utf8_encode_not_stop utf8_decode_not_stop : stop.

Ltac stop1 := repeat match goal with
  | |- bind ?x ?f <> Err StopError =>
      let N := fresh "N" in let E := fresh "E" in
      assert (N : x <> Err StopError) by (auto with stop);
      destruct x eqn:E; cbn [bind]; [|congruence]
  | |- (let '(_, _) := ?x in _) <> _ => destruct x
  | |- (if ?c then _ else _) <> _ => destruct c
  | |- (match ?x with _ => _ end) <> _ => destruct x
  | |- _ <> _ => first [discriminate | solve [auto with stop]]
  end.

Lemma pack_value_not_stop f d o v : pack_value f d o v <> Err StopError.
Proof. unfold pack_value. stop1. Qed.
#[export] Hint Resolve pack_value_not_stop : stop.
Lemma pack_items_not_stop f l : forall n d o i, pack_items n f d o l i <> Err StopError.
Proof. induction n; intros; cbn [pack_items]; stop1. Qed.
Lemma current_not_stop s : current s <> Err StopError.
Proof. unfold current. stop1. Qed.
Lemma len_value_not_stop v : len_value v <> Err StopError.
Proof. unfold len_value. stop1. Qed.
#[export] Hint Resolve pack_items_not_stop current_not_stop len_value_not_stop : stop.
Lemma pack_struct_not_stop f n s d o : pack_struct f n s d o <> Err StopError.
Proof. unfold pack_struct. stop1. Qed.
Lemma pack_str_not_stop n s d o : pack_str n s d o <> Err StopError.
Proof. unfold pack_str. stop1. Qed.
Lemma sub_int_not_stop v i : sub_int v i <> Err StopError.
Proof. unfold sub_int. stop1. Qed.
Lemma sub_key_not_stop v i : sub_key v i <> Err StopError.
Proof. unfold sub_key. stop1. Qed.
Lemma give_back_not_stop v k i c : give_back v k i c <> Err StopError.
Proof.
  unfold give_back, append_value, set_key. destruct i, k; stop1.
  all: destruct v; cbn; discriminate.
Qed.
#[export] Hint Resolve pack_struct_not_stop pack_str_not_stop sub_int_not_stop sub_key_not_stop
  give_back_not_stop : stop.
Lemma record_select_not_stop n s : record_select n s <> Err StopError.
Proof. unfold record_select. stop1. Qed.
Lemma p_record_enter_not_stop s : p_record_enter s <> Err StopError.
Proof. unfold p_record_enter. stop1. Qed.
Lemma p_record_leave_not_stop s : p_record_leave s <> Err StopError.
Proof. unfold p_record_leave. stop1. Qed.
Lemma p_array_enter_not_stop s : p_array_enter s <> Err StopError.
Proof. unfold p_array_enter. stop1. Qed.
Lemma p_array_leave_not_stop s : p_array_leave s <> Err StopError.
Proof. unfold p_array_leave. stop1. Qed.
Lemma u_record_enter_not_stop s : u_record_enter s <> Err StopError.
Proof. unfold u_record_enter. stop1. Qed.
Lemma u_record_leave_not_stop s : u_record_leave s <> Err StopError.
Proof. unfold u_record_leave. stop1. Qed.
Lemma u_array_enter_not_stop s : u_array_enter s <> Err StopError.
Proof. unfold u_array_enter. stop1. Qed.
Lemma u_array_leave_not_stop s : u_array_leave s <> Err StopError.
Proof. unfold u_array_leave. stop1. Qed.
Lemma store_not_stop v s : store v s <> Err StopError.
Proof. unfold store. stop1. Qed.
Lemma scan_nul_not_stop d : forall n o, scan_nul n d o <> Err StopError.
Proof. induction n; intros; cbn [scan_nul]; stop1. Qed.
Lemma unpack_items_not_stop f d : forall n o, unpack_items n f d o <> Err StopError.
Proof. induction n; intros; cbn [unpack_items]; stop1. Qed.
Lemma verify_not_stop n d o : verify_data_len n d o <> Err StopError.
Proof. unfold verify_data_len. stop1. Qed.
#[export] Hint Resolve record_select_not_stop p_record_enter_not_stop p_record_leave_not_stop
  p_array_enter_not_stop p_array_leave_not_stop u_record_enter_not_stop u_record_leave_not_stop
  u_array_enter_not_stop u_array_leave_not_stop store_not_stop scan_nul_not_stop
  unpack_items_not_stop verify_not_stop : stop.
Lemma exec_pack_not_stop i s d o : exec_pack i s d o <> Err StopError.
Proof. destruct i; cbn [exec_pack]; stop1. Qed.
Lemma exec_unpack_not_stop i s d o : exec_unpack i s d o <> Err StopError.
Proof. destruct i; cbn [exec_unpack]; unfold unpack_struct, unpack_str; stop1. Qed.
Lemma parse_not_stop c : parse_next_instruction c <> Err StopError.
Proof.
  destruct c as [|op r]; cbn [parse_next_instruction]; [discriminate|].
  assert (D : forall n, decode_ascii n <> Err StopError) by (intros; unfold decode_ascii; dend).
  destruct (map_get op opcode_parser_map) as [[j|mk|mk|mk]|]; try solve [dend].
  destruct (split_nul r) as [[n r']|]; [|discriminate].
  specialize (D n). destruct (decode_ascii n); cbn [bind]; congruence.
Qed.

Lemma pack_loop_not_stop : forall turns code first s d o, (length code < turns)%nat ->
  pack_loop turns code first s d o <> Err StopError.
Proof.
  induction turns as [|k IH]; intros code first s d o L; [lia|]. cbn [pack_loop].
  pose proof (parse_not_stop code) as P.
  destruct (parse_next_instruction code) as [[[i r]|]|] eqn:E; cbn [bind];
    [|discriminate|congruence].
  apply parse_shorter in E. destruct (first && negb (is_pack_prog i)); [discriminate|].
  pose proof (exec_pack_not_stop i s d o) as Q.
  destruct (exec_pack i s d o) as [[[s' d'] o']|]; cbn [bind]; [|congruence].
  apply IH. lia.
Qed.

Lemma unpack_loop_not_stop : forall turns code first s d o, (length code < turns)%nat ->
  unpack_loop turns code first s d o <> Err StopError.
Proof.
  induction turns as [|k IH]; intros code first s d o L; [lia|]. cbn [unpack_loop].
  pose proof (parse_not_stop code) as P.
  destruct (parse_next_instruction code) as [[[i r]|]|] eqn:E; cbn [bind];
    [|discriminate|congruence].
  apply parse_shorter in E. destruct (first && negb (is_unpack_prog i)); [discriminate|].
  pose proof (exec_unpack_not_stop i s d o) as Q.
  destruct (exec_unpack i s d o) as [[s' o']|]; cbn [bind]; [|congruence].
  apply IH. lia.
Qed.

(** ** The buffer *)

(** [d'] is [d] with changes only from [o] on. *)
Definition kept (o : Z) (d d' : bytes) : Prop :=
  len d' = len d /\ firstn (Z.to_nat o) d' = firstn (Z.to_nat o) d /\ (bytes_ok d -> bytes_ok d').

Lemma kept_refl o d : kept o d d.
Proof. split; [reflexivity|]. split; [reflexivity|auto]. Qed.

Lemma kept_trans o o' d d' d'' : 0 <= o <= o' -> kept o d d' -> kept o' d' d'' -> kept o d d''.
Proof.
  intros O (L & F & B) (L' & F' & B'). split; [congruence|]. split; [|auto].
  apply (f_equal (firstn (Z.to_nat o))) in F'. rewrite !firstn_firstn in F'.
  replace (Nat.min (Z.to_nat o) (Z.to_nat o')) with (Z.to_nat o) in F' by lia. congruence.
Qed.

Lemma pack_into_kept d o b d' : 0 <= o -> bytes_ok b -> pack_into d o b = Ok d' ->
  kept o d d' /\ o + len b <= len d.
Proof.
  intros O B E. unfold pack_into, struct_place in E. replace (o <? 0) with false in E by lia.
  destruct (Z.ltb_spec (len d - o) (len b)); [discriminate|]. cbn [bind] in E.
  pose proof (len_nonneg b).
  rewrite splice_in in E by lia. injection E as <-. split; [|lia].
  fold (wr d o b). split; [apply len_wr; lia|]. split.
  - unfold wr. rewrite firstn_app, firstn_firstn, Nat.min_id.
    replace (Z.to_nat o - length (firstn (Z.to_nat o) d))%nat with 0%nat
      by (rewrite firstn_length; unfold len in *; lia).
    rewrite firstn_O, app_nil_r. reflexivity.
  - intros Bd. unfold wr. apply bytes_ok_app. split; [apply bytes_ok_firstn; auto|].
    apply bytes_ok_app. split; [auto|apply bytes_ok_skipn; auto].
Qed.

Lemma fmt_kind f : exists k, small k /\ f = fmt_of k.
Proof.
  destruct f; [exists U8|exists U16|exists U32|exists S8|exists S16|exists S32]; split; exact I || reflexivity.
Qed.

Lemma pack_value_kept f d o v d' : 0 <= o -> pack_value f d o v = Ok d' -> kept o d d'.
Proof.
  intros O E. destruct (fmt_kind f) as (k & S & ->). unfold pack_value in E.
  destruct v; try discriminate. rewrite struct_pack_num in E by auto.
  destruct (in_range k z); [|discriminate]. cbn [bind] in E.
  apply pack_into_kept in E; [tauto|auto|apply num_le_ok].
Qed.

Lemma fmt_len_pos f : 0 < fmt_len f.
Proof. destruct f; reflexivity. Qed.

Lemma pack_items_kept f l : forall n d o i d' o', 0 <= o -> pack_items n f d o l i = Ok (d', o') ->
  kept o d d' /\ o <= o'.
Proof.
  induction n as [|n IH]; intros d o i d' o' O E; cbn [pack_items] in E.
  - injection E as <- <-. split; [apply kept_refl|lia].
  - apply bind_ok in E as (v & _ & E). apply bind_ok in E as (d1 & H1 & E).
    apply pack_value_kept in H1; [|auto]. pose proof (fmt_len_pos f).
    apply IH in E as [K L]; [|lia]. split; [|lia]. eapply kept_trans; [|eauto|eauto]. lia.
Qed.

Definition iok (i : instr) : Prop :=
  match i with IPack _ n | IPackStr n => 0 <= n | _ => True end.

Lemma exec_pack_kept i s d o s' d' o' : iok i -> 0 <= o -> exec_pack i s d o = Ok (s', d', o') ->
  kept o d d' /\ o <= o'.
Proof.
  intros I O E. destruct i; cbn [exec_pack] in E; try discriminate;
    try (apply bind_ok in E as (x & _ & E); injection E as <- <- <-; split; [apply kept_refl|lia]).
  - apply bind_ok in E as ([d1 o1] & H & E). injection E as <- <- <-. unfold pack_struct in H.
    apply bind_ok in H as (x & _ & H). destruct (0 <? array_len).
    + destruct x; try discriminate. apply bind_ok in H as (m & _ & H).
      destruct (m <? array_len); [discriminate|]. eapply pack_items_kept; eauto.
    + apply bind_ok in H as (d2 & H2 & H). injection H as <- <-.
      apply pack_value_kept in H2; auto. pose proof (fmt_len_pos f). split; [auto|lia].
  - apply bind_ok in E as ([d1 o1] & H & E). injection E as <- <- <-. unfold pack_str in H.
    apply bind_ok in H as (x & _ & H). destruct x; try discriminate.
    apply bind_ok in H as (b & Hb & H). apply bind_ok in H as (d2 & H2 & H). injection H as <- <-.
    cbn in I. split; [|lia]. apply pack_into_kept in H2; [tauto|auto|].
    rewrite pack_s_fit. apply bytes_ok_firstn, bytes_ok_app.
    split; [eapply utf8_encode_ok; eauto|apply bytes_ok_repeat0].
Qed.

Lemma parse_iok code i r : bytes_ok code -> parse_next_instruction code = Ok (Some (i, r)) ->
  iok i /\ bytes_ok r.
Proof.
  intros B E. destruct code as [|op c]; [discriminate|]. cbn [parse_next_instruction] in E.
  apply Forall_cons_iff in B as [_ B].
  assert (Hs : forall b n r', split_nul b = Some (n, r') -> bytes_ok b -> bytes_ok r').
  { clear. induction b as [|x b IH]; cbn [split_nul]; intros n r' E B; [discriminate|].
    apply Forall_cons_iff in B as [_ B].
    destruct (x =? 0); [injection E as <- <-; exact B|].
    destruct (split_nul b) as [[n1 r1]|]; [|discriminate].
    injection E as <- <-. eapply IH; eauto. }
  destruct (map_get op opcode_parser_map) as [[j|mk|mk|mk]|] eqn:M.
  - injection E as <- <-. split; [|exact B]. revert M. unfold opcode_parser_map.
    cbn [map_get]. repeat match goal with |- (if ?c then _ else _) = _ -> _ => destruct c end;
      intros M; try discriminate; injection M as <-; cbn; lia || exact I.
  - destruct c as [|b0 [|b1 c]]; try discriminate. injection E as <- <-.
    apply Forall_cons_iff in B as [B0 B]. apply Forall_cons_iff in B as [B1 B]. split; [|exact B].
    unfold byte_ok in *.
    assert (0 <= Z.lor b0 (Z.shiftl b1 8)) by (rewrite lor_byte by lia; lia).
    revert M. unfold opcode_parser_map.
    cbn [map_get]. repeat match goal with |- (if ?c then _ else _) = _ -> _ => destruct c end;
      intros M; try discriminate; injection M as <-; cbn; lia || exact I.
  - destruct c as [|b0 [|b1 [|b2 [|b3 c]]]]; try discriminate. injection E as <- <-.
    do 4 (apply Forall_cons_iff in B as [? B]). split; [|exact B].
    revert M. unfold opcode_parser_map.
    cbn [map_get]. repeat match goal with |- (if ?c then _ else _) = _ -> _ => destruct c end;
      intros M; try discriminate; injection M as <-; exact I.
  - destruct (split_nul c) as [[n r']|] eqn:Es; [|discriminate].
    apply bind_ok in E as (s & _ & E). injection E as <- <-. split; [|eapply Hs; eauto].
    revert M. unfold opcode_parser_map.
    cbn [map_get]. repeat match goal with |- (if ?c then _ else _) = _ -> _ => destruct c end;
      intros M; try discriminate; injection M as <-; exact I.
  - destruct c; discriminate.
Qed.

Lemma pack_loop_kept : forall turns code first s d o s' d' o', bytes_ok code -> 0 <= o ->
  pack_loop turns code first s d o = Ok (s', d', o') -> kept o d d' /\ o <= o'.
Proof.
  induction turns as [|k IH]; intros code first s d o s' d' o' B O E; [discriminate|].
  cbn [pack_loop] in E. destruct (parse_next_instruction code) as [[[i r]|]|] eqn:P; cbn [bind] in E;
    try discriminate.
  2:{ injection E as <- <- <-. split; [apply kept_refl|lia]. }
  apply parse_iok in P as [I Br]; [|exact B].
  destruct (first && negb (is_pack_prog i)); [discriminate|].
  apply bind_ok in E as ([[s1 d1] o1] & H & E).
  apply exec_pack_kept in H as [K1 L1]; auto.
  apply IH in E as [K2 L2]; [|auto|lia]. split; [|lia]. eapply kept_trans; [|eauto|eauto]. lia.
Qed.

Lemma exec_pack_prog_kept code d o v d' : bytes_ok code -> 0 <= o ->
  exec_pack_prog code d o v = Ok d' -> kept o d d'.
Proof.
  intros B O E. unfold exec_pack_prog in E. rewrite verify_total in E. cbn [bind] in E.
  apply bind_ok in E as ([[s d1] o1] & H & E). injection E as <-.
  apply pack_loop_kept in H; tauto.
Qed.
