(** C01, C02, C03: length prefixes (numheader.py). *)
From Verif Require Import Py NumHeaderModel NumHeaderSpec NumHeaderProofs.

(** C01: every length below 2^31 has the documented encoding, and decoding it
    (at any offset, with anything before and after it) gives the length back. *)
Theorem numheader32_roundtrip : forall n pre tail e,
  0 <= n < 2 ^ 31 -> end_allows e (len pre) (len (wire32 n)) ->
  encode32 n = Ok (wire32 n) /\ bytes_ok (wire32 n) /\
  decode32 (pre ++ wire32 n ++ tail) (len pre) e = Ok (len (wire32 n), Some n).
Proof. exact (fun n pre tail e H1 H2 => conj (encode32_wire n H1) (conj (wire32_ok n H1) (decode32_wire n pre tail e H1 H2))). Qed.
Print Assumptions numheader32_roundtrip.

Example numheader32_roundtrip_ex :
  encode32 1000000 = Ok [128; 15; 66; 64] /\
  decode32 ([7; 7] ++ [128; 15; 66; 64] ++ [1; 2; 3]) 2 (Some 6) = Ok (4, Some 1000000).
Proof. vm_compute. auto. Qed.

(** C01: nothing else is encoded. *)
Theorem numheader32_rejects : forall n,
  ~ 0 <= n < 2 ^ 31 -> encode32 n = Err ValueError.
Proof. exact encode32_rejects. Qed.
Print Assumptions numheader32_rejects.

Example numheader32_rejects_ex : encode32 (2 ^ 31) = Err ValueError /\ encode32 (-1) = Err ValueError.
Proof. vm_compute. auto. Qed.

(** C01: two streams that start with encoded lengths and are equal carry the
    same length and the same rest: no mis-framing. *)
Theorem numheader32_prefix_free : forall n m p q t u,
  encode32 n = Ok p -> encode32 m = Ok q -> p ++ t = q ++ u -> n = m /\ t = u.
Proof.
  intros n m p q t u Hn Hm E.
  assert (0 <= n < 2 ^ 31 /\ 0 <= m < 2 ^ 31) as [Rn Rm].
  { split; [destruct (Z_le_dec 0 n); [destruct (Z_lt_dec n (2 ^ 31))|] |
            destruct (Z_le_dec 0 m); [destruct (Z_lt_dec m (2 ^ 31))|]]; auto;
    [rewrite encode32_rejects in Hn by tauto | rewrite encode32_rejects in Hn by tauto |
     rewrite encode32_rejects in Hm by tauto | rewrite encode32_rejects in Hm by tauto]; discriminate. }
  rewrite encode32_wire in Hn, Hm by assumption. injection Hn as <-. injection Hm as <-.
  exact (prefix_free32 n m t u Rn Rm E).
Qed.
Print Assumptions numheader32_prefix_free.

Example numheader32_prefix_free_ex : encode32 5 = Ok [5] /\ encode32 300 = Ok [128; 0; 1; 44].
Proof. vm_compute. auto. Qed.

(** C01: whatever bytes arrive, an accepted length is in range and the prefix
    is 1 byte (lengths below 128) or 4 bytes, all present in the input. *)
Theorem numheader32_accepts_only_in_range : forall data k v,
  bytes_ok data -> decode32 data 0 None = Ok (k, Some v) ->
  0 <= v < 2 ^ 31 /\ (k = 1 /\ v < 128 \/ k = 4) /\ k <= len data.
Proof. exact decode32_range. Qed.
Print Assumptions numheader32_accepts_only_in_range.

(** The 32-bit prefix is not canonical: 5 has a second, longer encoding that the
    decoder accepts (contrast with C02). *)
Theorem numheader32_canonical_refuted :
  exists data, bytes_ok data /\ decode32 data 0 None = Ok (4, Some 5) /\ encode32 5 <> Ok data.
Proof. exists [128; 0; 0; 5]. split; [repeat constructor; discriminate | split; [reflexivity | discriminate]]. Qed.
Print Assumptions numheader32_canonical_refuted.

(** C02 *)
Theorem numheader16_roundtrip : forall n pre tail e,
  0 <= n < 32896 -> end_allows e (len pre) (len (wire16 n)) ->
  encode16 n = Ok (wire16 n) /\ bytes_ok (wire16 n) /\
  decode16 (pre ++ wire16 n ++ tail) (len pre) e = Ok (len (wire16 n), Some n).
Proof. exact (fun n pre tail e H1 H2 => conj (encode16_wire n H1) (conj (wire16_ok n H1) (decode16_wire n pre tail e H1 H2))). Qed.
Print Assumptions numheader16_roundtrip.

Example numheader16_roundtrip_ex :
  encode16 32800 = Ok [128; 32] /\ decode16 [128; 32; 9] 0 None = Ok (2, Some 32800).
Proof. vm_compute. auto. Qed.

Theorem numheader16_rejects : forall n,
  ~ 0 <= n < 32896 -> encode16 n = Err ValueError.
Proof. exact encode16_rejects. Qed.
Print Assumptions numheader16_rejects.

Theorem numheader16_canonical : forall data k v,
  bytes_ok data -> decode16 data 0 None = Ok (k, Some v) ->
  exists p tail, encode16 v = Ok p /\ data = p ++ tail /\ k = len p.
Proof.
  intros data k v Hok H. destruct (decode16_canonical data k v Hok H) as (R & tail & E & K).
  exists (wire16 v), tail. split; [exact (encode16_wire v R) | split; assumption].
Qed.
Print Assumptions numheader16_canonical.

Example numheader16_canonical_ex : decode16 [129; 5; 77] 0 None = Ok (2, Some 261).
Proof. vm_compute. auto. Qed.

(** C03 *)
Theorem numheader_truncated : forall mode n p q r,
  mode = 16 \/ mode = 32 ->
  encode_ n mode = Ok p -> p = q ++ r -> r <> [] ->
  decode_ q mode 0 None = Ok (0, None).
Proof. exact decode_truncated. Qed.
Print Assumptions numheader_truncated.

Example numheader_truncated_ex : encode_ 300 32 = Ok ([128; 0; 1] ++ [44]).
Proof. vm_compute. auto. Qed.

Theorem numheader_decode_safe : forall data mode off fin,
  bytes_ok data -> mode = 16 \/ mode = 32 -> 0 <= off <= fin -> fin <= len data ->
  exists k v, decode_ data mode off (Some fin) = Ok (k, v) /\ 0 <= k /\ off + k <= fin /\
    (k = 0 <-> v = None).
Proof. exact decode_total. Qed.
Print Assumptions numheader_decode_safe.

Example numheader_decode_safe_ex : decode_ [128; 0; 1; 44] 32 0 (Some 3) = Ok (0, None).
Proof. vm_compute. auto. Qed.
