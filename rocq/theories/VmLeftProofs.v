(** Lemmas on the buffer after a program that may have raised. *)
From Coq Require Import ZifyBool ZifyNat Lia.
From Verif Require Import Py PyLemmas TypesModel CompilerModel VmModel TypesSpec TypesProofs
  CompilerProofs VmProofs VmPackProofs VmSafeProofs VmLeftModel VmLeftSpec.
Ltac Zify.zify_post_hook ::= Z.div_mod_to_equations.

(** ** Windows *)

Lemma ow_refl a b d : only_within a b d d.
Proof. split; auto. Qed.

Lemma ow_trans a b d d' d'' : only_within a b d d' -> only_within a b d' d'' -> only_within a b d d''.
Proof. intros [L F] [L' F']. split; [congruence|]. intros i Hi. rewrite F', F; auto. Qed.

Lemma ow_wider a b a' b' d d' : a' <= a -> b <= b' -> only_within a b d d' -> only_within a' b' d d'.
Proof. intros A B [L F]. split; [exact L|]. intros i Hi. apply F. lia. Qed.

Lemma ow_wr d o b : 0 <= o -> o + len b <= len d -> only_within o (o + len b) d (wr d o b).
Proof.
  intros O L. pose proof (len_nonneg b). split; [apply len_wr; lia|]. intros i Hi. unfold wr.
  assert (length (firstn (Z.to_nat o) d) = Z.to_nat o) as LF
    by (rewrite firstn_length; unfold len in *; lia).
  destruct Hi as [Hi|Hi].
  - rewrite nth_error_app1 by (rewrite LF; lia). rewrite nth_error_firstn.
    destruct (Nat.ltb_spec (Z.to_nat i) (Z.to_nat o)); [reflexivity|lia].
  - rewrite nth_error_app2 by (rewrite LF; lia).
    rewrite nth_error_app2 by (rewrite LF; unfold len in *; lia).
    rewrite nth_error_skipn. f_equal. rewrite LF. unfold len in *. lia.
Qed.

Lemma ow_pack_into d o b d' : 0 <= o -> pack_into d o b = Ok d' -> only_within o (o + len b) d d'.
Proof.
  intros O E. pose proof E as E0. unfold pack_into, struct_place in E. replace (o <? 0) with false in E by lia.
  destruct (Z.ltb_spec (len d - o) (len b)); [discriminate|].
  rewrite pack_into_in in E0 by lia. injection E0 as <-. apply ow_wr; lia.
Qed.

Lemma fmt_size f : struct_size f = fmt_len f.
Proof. destruct f; reflexivity. Qed.

Lemma ow_pack_value f d o v d' : 0 <= o -> pack_value f d o v = Ok d' ->
  only_within o (o + fmt_len f) d d'.
Proof.
  intros O E. destruct (fmt_kind f) as (k & S & ->). unfold pack_value in E.
  destruct v; try discriminate. rewrite struct_pack_num in E by auto.
  destruct (in_range k z); [|discriminate]. cbn [bind] in E.
  apply ow_pack_into in E; [|exact O]. rewrite len_num_le in E. rewrite fmt_len_of by auto. exact E.
Qed.

Section Torn.
Variable torn : tearing.
Hypothesis T : contained torn.

Lemma ow_left_value f d o v : 0 <= o -> only_within o (o + fmt_len f) d (left_value torn f d o v).
Proof.
  intros O. unfold left_value. destruct (pack_value f d o v) as [d'|] eqn:E.
  - eapply ow_pack_value; eauto.
  - unfold struct_place. replace (o <? 0) with false by lia.
    pose proof (fmt_len_pos f) as P. rewrite <- (fmt_size f) in *.
    destruct (Z.ltb_spec (len d - o) (struct_size f)); [apply ow_refl|]. apply T; lia.
Qed.

Lemma ow_pack_items f l : forall n d o i d' o', 0 <= o -> pack_items n f d o l i = Ok (d', o') ->
  only_within o (o + fmt_len f * Z.of_nat n) d d' /\ o' = o + fmt_len f * Z.of_nat n.
Proof.
  pose proof (fmt_len_pos f).
  induction n as [|n IH]; intros d o i d' o' O E; cbn [pack_items] in E.
  - injection E as <- <-. split; [apply ow_refl|lia].
  - apply bind_ok in E as (v & _ & E). apply bind_ok in E as (d1 & H1 & E).
    apply ow_pack_value in H1; [|exact O]. apply IH in E as [K ->]; [|lia]. split; [|lia].
    eapply ow_trans; eapply ow_wider; [| |exact H1| | |exact K]; lia.
Qed.

Lemma ow_left_items f l : forall n d o i, 0 <= o ->
  only_within o (o + fmt_len f * Z.of_nat n) d (left_items torn n f d o l i).
Proof.
  pose proof (fmt_len_pos f).
  induction n as [|n IH]; intros d o i O; cbn [left_items]; [apply ow_refl|].
  destruct (index l i) as [v|]; [|apply ow_refl].
  destruct (pack_value f d o v) as [d1|] eqn:E.
  - apply ow_pack_value in E; [|exact O].
    eapply ow_trans; eapply ow_wider; [| |exact E| | |apply IH]; lia.
  - eapply ow_wider; [| |apply ow_left_value; exact O]; lia.
Qed.

(** How many bytes an instruction writes. *)
Definition adv (i : instr) : Z :=
  match i with
  | IPack f n => if 0 <? n then fmt_len f * n else fmt_len f
  | IPackStr n => n
  | _ => 0
  end.

Lemma adv_nonneg i : iok i -> 0 <= adv i.
Proof. destruct i; cbn; try lia. intros. pose proof (fmt_len_pos f). destruct (Z.ltb_spec 0 array_len); nia. Qed.

Lemma ow_exec i s d o s' d' o' : iok i -> 0 <= o -> exec_pack i s d o = Ok (s', d', o') ->
  only_within o (o + adv i) d d' /\ o' = o + adv i.
Proof.
  intros I O E. destruct i; cbn [exec_pack adv] in *; try discriminate;
    try (apply bind_ok in E as (x & _ & E); injection E as <- <- <-; split; [apply ow_refl|lia]).
  - apply bind_ok in E as ([d1 o1] & H & E). injection E as <- <- <-. unfold pack_struct in H.
    apply bind_ok in H as (x & _ & H). destruct (Z.ltb_spec 0 array_len).
    + destruct x; try discriminate. apply bind_ok in H as (m & _ & H).
      destruct (m <? array_len); [discriminate|]. apply ow_pack_items in H; [|exact O].
      replace (Z.of_nat (Z.to_nat array_len)) with array_len in H by lia. exact H.
    + apply bind_ok in H as (d2 & H2 & H). injection H as <- <-.
      apply ow_pack_value in H2; auto.
  - apply bind_ok in E as ([d1 o1] & H & E). injection E as <- <- <-. unfold pack_str in H.
    apply bind_ok in H as (x & _ & H). destruct x; try discriminate.
    apply bind_ok in H as (b & Hb & H). apply bind_ok in H as (d2 & H2 & H). injection H as <- <-.
    cbn in I. split; [|lia]. apply ow_pack_into in H2; [|auto].
    rewrite pack_s_fit, fit_len in H2 by lia. exact H2.
Qed.

Lemma ow_left_exec i s d o : iok i -> 0 <= o -> only_within o (o + adv i) d (left_exec torn i s d o).
Proof.
  intros I O. destruct i; cbn [left_exec adv]; try apply ow_refl.
  - unfold left_struct. destruct (current s) as [v|]; [|apply ow_refl].
    destruct (Z.ltb_spec 0 array_len); [|apply ow_left_value; exact O].
    destruct v; try apply ow_refl. destruct (len_value (vs_value s)); [|apply ow_refl].
    destruct (a <? array_len); [apply ow_refl|].
    pose proof (ow_left_items f l (Z.to_nat array_len) d o 0 O) as Q.
    replace (Z.of_nat (Z.to_nat array_len)) with array_len in Q by lia. exact Q.
  - unfold left_str. destruct (pack_str n s d o) as [[d' o']|] eqn:E; [|apply ow_refl].
    assert (exec_pack (IPackStr n) s d o = Ok (s, d', o')) as E'
      by (cbn [exec_pack]; rewrite E; reflexivity).
    apply ow_exec in E' as [K _]; auto.
Qed.

(** ** The loop *)

Lemma left_turns : forall t1 t2 code first s data off,
  (length code < t1)%nat -> (length code < t2)%nat ->
  left_loop torn t1 code first s data off = left_loop torn t2 code first s data off.
Proof.
  induction t1 as [|t1 IH]; intros t2 code first s data off L1 L2; [lia|].
  destruct t2 as [|t2]; [lia|]. cbn [left_loop].
  destruct (parse_next_instruction code) as [[[i r]|]|] eqn:E; auto.
  apply parse_shorter in E.
  destruct (first && negb (is_pack_prog i)); auto.
  destruct (exec_pack i s data off) as [[[s' d'] o']|]; auto.
  apply IH; lia.
Qed.

Definition lrun (code : bytes) (first : bool) s data off :=
  left_loop torn (S (length code)) code first s data off.

Lemma lrun_step code first s data off i rest :
  parse_next_instruction code = Ok (Some (i, rest)) ->
  first && negb (is_pack_prog i) = false ->
  lrun code first s data off =
  match exec_pack i s data off with
  | Ok (s', data', off') => lrun rest false s' data' off'
  | Err _ => left_exec torn i s data off
  end.
Proof.
  intros E F. unfold lrun at 1. cbn [left_loop]. rewrite E, F.
  apply parse_shorter in E.
  destruct (exec_pack i s data off) as [[[s' d'] o']|]; auto.
  unfold lrun. apply left_turns; lia.
Qed.

Lemma left_loop_ok : forall turns code first s d o s' d' o',
  pack_loop turns code first s d o = Ok (s', d', o') -> left_loop torn turns code first s d o = d'.
Proof.
  induction turns as [|k IH]; intros code first s d o s' d' o' E; [discriminate|].
  cbn [pack_loop left_loop] in *.
  destruct (parse_next_instruction code) as [[[i r]|]|]; cbn [bind] in E; try discriminate.
  2:{ injection E as _ <- _. reflexivity. }
  destruct (first && negb (is_pack_prog i)); [discriminate|].
  apply bind_ok in E as ([[s1 d1] o1] & H & E). rewrite H. eapply IH; eauto.
Qed.

(** Any code: nothing before the offset changes. *)
Lemma left_loop_kept : forall turns code first s d o, bytes_ok code -> 0 <= o ->
  only_within o (len d) d (left_loop torn turns code first s d o).
Proof.
  induction turns as [|k IH]; intros code first s d o B O; [apply ow_refl|].
  cbn [left_loop].
  destruct (parse_next_instruction code) as [[[i r]|]|] eqn:P; try apply ow_refl.
  apply parse_iok in P as [I Br]; [|exact B]. pose proof (adv_nonneg i I).
  assert (W : forall d', only_within o (o + adv i) d d' -> only_within o (len d) d d').
  { intros d' [L F]. split; [exact L|]. intros j Hj. destruct Hj as [Hj|Hj]; [apply F; lia|].
    rewrite !(proj2 (nth_error_None _ _)); unfold len in *; auto; lia. }
  destruct (first && negb (is_pack_prog i)); [apply ow_refl|].
  destruct (exec_pack i s d o) as [[[s' d'] o']|] eqn:E.
  - apply ow_exec in E as [K ->]; auto. apply W in K. eapply ow_trans; [exact K|].
    eapply ow_wider; [| |apply IH]; auto; try lia.
    destruct K as [-> _]. lia.
  - apply W, ow_left_exec; auto.
Qed.

(** ** Compiled code *)

(** [code] run from any state writes at most the next [n] bytes. *)
Definition bounded (code : bytes) (n : Z) : Prop :=
  forall s d o, 0 <= o -> only_within o (o + n) d (lrun code false s d o).

Lemma bounded_nil : bounded [] 0.
Proof. intros s d o O. apply ow_refl. Qed.

Lemma bounded_step code i rest n m : parse_next_instruction code = Ok (Some (i, rest)) -> iok i ->
  bounded rest n -> 0 <= n -> m = adv i + n -> bounded code m.
Proof.
  intros P I B N -> s d o O. rewrite (lrun_step _ _ _ _ _ _ _ P) by reflexivity.
  pose proof (adv_nonneg i I).
  destruct (exec_pack i s d o) as [[[s' d'] o']|] eqn:E.
  - apply ow_exec in E as [K ->]; auto.
    eapply ow_trans; eapply ow_wider; [| |exact K| | |apply B]; lia.
  - eapply ow_wider; [| |apply ow_left_exec; auto]; lia.
Qed.

Definition bounded_ty (t : ty) : Prop := wf_ty t -> forall rest n, 0 <= n -> bounded rest n ->
  bounded (body Pack t ++ rest) (tlen t + n).

Lemma bounded_members ms : Forall (fun m => bounded_ty (snd m)) ms -> wfm ms ->
  forall rest n, 0 <= n -> bounded rest n ->
  bounded (mbody Pack ms ++ rest) (mlen ms + n) /\ 0 <= mlen ms.
Proof.
  induction 1 as [|[nm t] ms Ht _ IHm]; intros W rest n N B.
  - rewrite mlen_nil. split; [exact B|lia].
  - apply Forall_cons_iff in W as [[Nm W1] W2]. cbn [fst snd] in *. rewrite mlen_cons.
    pose proof (tlen_nonneg t W1). destruct (IHm W2 rest n N B) as [B2 L2]. split; [|lia].
    cbn [mbody app]. rewrite <- !app_assoc. cbn [app]. rewrite <- app_assoc.
    apply (bounded_step _ (IRecordSelect nm) (body Pack t ++ mbody Pack ms ++ rest)
      (tlen t + (mlen ms + n))); [apply parse_select; exact Nm|exact Logic.I| |lia|cbn [adv]; lia].
    apply Ht; [exact W1|lia|exact B2].
Qed.

Lemma bounded_leave rest n : 0 <= n -> bounded rest n -> bounded (31 :: rest) n.
Proof.
  intros N B. eapply bounded_step; [apply parse_leave|exact Logic.I|exact B|exact N|reflexivity].
Qed.

Lemma bounded_body t : bounded_ty t.
Proof.
  induction t as [k|k a| |a|ms IH] using ty_ind2; intros W rest n N B; try contradiction.
  - cbn in W. cbn [body app]. eapply bounded_step; [apply parse_scalar; exact W| |exact B|exact N|].
    + cbn. lia.
    + cbn [iscalar adv tlen]. rewrite fmt_len_of by auto. reflexivity.
  - destruct W as [S A]. cbn [body app].
    eapply bounded_step; [apply parse_array; [exact S|lia]| |exact B|exact N|].
    + cbn. lia.
    + cbn [iscalar adv tlen]. rewrite fmt_len_of by auto. replace (0 <? a) with true by lia. reflexivity.
  - cbn in W. cbn [body app].
    eapply bounded_step; [apply parse_string; exact W| |exact B|exact N|reflexivity].
    cbn. lia.
  - apply wf_rec in W as [_ W]. rewrite body_rec. cbn [app]. rewrite <- app_assoc. cbn [app].
    destruct (bounded_members ms IH W (31 :: rest) n N (bounded_leave rest n N B)) as [B2 L2].
    eapply bounded_step; [apply parse_enter|exact Logic.I|exact B2|lia|reflexivity].
Qed.

(** ** Programs *)

Lemma left_start code d o v : exec_pack_left torn code d o v =
  lrun code true (mk_vmstate v None None []) d o.
Proof. unfold exec_pack_left. rewrite verify_total. reflexivity. Qed.

Lemma left_compiled t d o v : 0 <= tlen t < 2 ^ 32 ->
  exec_pack_left torn (head Pack (tlen t) ++ body Pack t) d o v =
  if len d - o <? tlen t then d else lrun (body Pack t) false (mk_vmstate v None None []) d o.
Proof.
  intros R. rewrite left_start.
  rewrite (lrun_step _ _ _ _ _ _ _ (parse_head Pack (tlen t) (body Pack t) R)) by reflexivity.
  cbn [exec_pack left_exec]. unfold verify_data_len. destruct (len d - o <? tlen t); reflexivity.
Qed.

(** ** What was written before the exception *)

Lemma parse_more code i r z : parse_next_instruction code = Ok (Some (i, r)) ->
  parse_next_instruction (code ++ z) = Ok (Some (i, r ++ z)).
Proof.
  destruct code as [|op c]; [discriminate|]. cbn [app parse_next_instruction].
  assert (Hs : forall b n r', split_nul b = Some (n, r') -> split_nul (b ++ z) = Some (n, r' ++ z)).
  { clear. induction b as [|x b IH]; cbn [split_nul app]; intros n r' E; [discriminate|].
    destruct (x =? 0); [injection E as <- <-; reflexivity|].
    destruct (split_nul b) as [[n1 r1]|]; [|discriminate].
    injection E as <- <-. rewrite (IH _ _ eq_refl). reflexivity. }
  destruct (map_get op opcode_parser_map) as [[j|mk|mk|mk]|].
  - intros E. injection E as <- <-. reflexivity.
  - destruct c as [|b0 [|b1 c]]; try discriminate. intros E. injection E as <- <-. reflexivity.
  - destruct c as [|b0 [|b1 [|b2 [|b3 c]]]]; try discriminate. intros E. injection E as <- <-. reflexivity.
  - destruct (split_nul c) as [[n r']|] eqn:Es; [|discriminate].
    rewrite (Hs _ _ _ Es). destruct (decode_ascii n); cbn [bind]; [|discriminate].
    intros E. injection E as <- <-. reflexivity.
  - destruct c; discriminate.
Qed.

Lemma lrun_app z : forall n code s d o s' d' o', (length code <= n)%nat ->
  prun code false s d o = Ok (s', d', o') ->
  lrun (code ++ z) false s d o = lrun z false s' d' o'.
Proof.
  induction n as [|n IH]; intros code s d o s' d' o' L E.
  - destruct code; [|cbn in L; lia]. cbn in E. injection E as <- <- <-. reflexivity.
  - unfold prun in E. cbn [pack_loop] in E.
    destruct (parse_next_instruction code) as [[[i r]|]|] eqn:P; cbn [bind] in E; try discriminate.
    + cbn [andb] in E. apply bind_ok in E as ([[s1 d1] o1] & H & E).
      rewrite (lrun_step _ _ _ _ _ _ _ (parse_more _ _ _ z P)) by reflexivity. rewrite H.
      apply parse_shorter in P. apply IH; [lia|].
      unfold prun. rewrite <- E. apply pack_loop_turns; lia.
    + destruct code as [|op c]; [injection E as <- <- <-; reflexivity|].
      exfalso. cbn [parse_next_instruction] in P.
      destruct (map_get op opcode_parser_map) as [[j|mk|mk|mk]|].
      * discriminate.
      * destruct c as [|b0 [|b1 c]]; discriminate.
      * destruct c as [|b0 [|b1 [|b2 [|b3 c]]]]; discriminate.
      * destruct (split_nul c) as [[m r']|]; [|discriminate].
        destruct (decode_ascii m); discriminate.
      * destruct c; discriminate.
Qed.
End Torn.
