(** C04 - C07: RemoteFile message codecs (remotefile/__init__.py). *)
From Verif Require Import Py RmfModel RmfSpec RmfProofs.

(** C04 *)
Theorem rmf_header_roundtrip : forall a more payload,
  0 <= a < 2 ^ 30 -> a < 16384 \/ payload <> [] ->
  packHeader a more = Ok (hdr_wire a more) /\ bytes_ok (hdr_wire a more) /\
  unpackHeader (hdr_wire a more ++ payload) = (len (hdr_wire a more), Some a, more).
Proof. exact (fun a more p H1 H2 => conj (packHeader_wire a more H1) (conj (hdr_wire_ok a more H1) (unpackHeader_wire a more p H1 H2))). Qed.
Print Assumptions rmf_header_roundtrip.

Example rmf_header_roundtrip_ex :
  packHeader 0x3FFFFC00 true = Ok [255; 255; 252; 0] /\
  unpackHeader ([255; 255; 252; 0] ++ [9]) = (4, Some 0x3FFFFC00, true).
Proof. vm_compute. auto. Qed.

Theorem rmf_header_rejects : forall a more,
  2 ^ 30 <= a -> packHeader a more = Err ValueError.
Proof. exact packHeader_rejects. Qed.
Print Assumptions rmf_header_rejects.

(** C04: whatever bytes arrive, an accepted header carries a 30-bit address, is 2
    or 4 bytes long and fits in the message. *)
Theorem rmf_header_accepts_only_in_range : forall data k a more,
  bytes_ok data -> unpackHeader data = (k, Some a, more) ->
  0 <= a < 2 ^ 30 /\ ((k = 2 /\ a < 16384 /\ 2 <= len data) \/ (k = 4 /\ 5 <= len data)) /\
  exists b r, data = b :: r /\ more = (64 <=? b mod 128).
Proof. exact unpackHeader_sound. Qed.
Print Assumptions rmf_header_accepts_only_in_range.

Theorem rmf_header_none_is_short : forall data k more,
  unpackHeader data = (k, None, more) -> k = 0 /\ len data < 5.
Proof. exact unpackHeader_none. Qed.
Print Assumptions rmf_header_none_is_short.

Example rmf_header_none_ex : unpackHeader [255; 255; 252] = (0, None, true).
Proof. vm_compute. auto. Qed.

(** Negative addresses are not refused: they alias valid ones. *)
Theorem rmf_header_refuses_negative_refuted :
  exists a b, a < 0 /\ 0 <= b < 2 ^ 30 /\ packHeader a false = packHeader b false /\
  exists w, packHeader a false = Ok w.
Proof. exists (-1), 16383. repeat split; try reflexivity; try discriminate. eexists. reflexivity. Qed.
Print Assumptions rmf_header_refuses_negative_refuted.

(** C05: a long header with an empty payload is never parsed... *)
Theorem rmf_header_bare : forall a more,
  0 <= a < 2 ^ 30 ->
  unpackHeader (hdr_wire a more) = if a <? 16384 then (2, Some a, more) else (0, None, more).
Proof.
  intros a more H. destruct (Z.ltb_spec a 16384).
  - pose proof (unpackHeader_wire a more [] H (or_introl H0)) as E.
    rewrite app_nil_r in E. rewrite E. unfold hdr_wire.
    apply Z.ltb_lt in H0. rewrite H0. reflexivity.
  - exact (unpackHeader_bare a more (conj H0 (proj2 H))).
Qed.
Print Assumptions rmf_header_bare.

(** ... so the unconditional round trip is false. *)
Theorem rmf_header_roundtrip_unconditional_refuted :
  exists a w, 0 <= a < 2 ^ 30 /\ packHeader a false = Ok w /\ unpackHeader w <> (len w, Some a, false).
Proof. exists 16384, [128; 0; 64; 0]. repeat split; try reflexivity; discriminate. Qed.
Print Assumptions rmf_header_roundtrip_unconditional_refuted.

(** C06 *)
Theorem fileinfo_roundtrip : forall e f a,
  finfo_ok f a ->
  packFileInfo f e = Ok (finfo_wire e f a) /\ unpackFileInfo (finfo_wire e f a) e = Ok (Some f).
Proof. exact (fun e f a H => conj (packFileInfo_wire e f a H) (unpackFileInfo_wire e f a H)). Qed.
Print Assumptions fileinfo_roundtrip.

Definition fileinfo_sample : finfo :=
  mk_finfo (lit "TestNode.out") 9 0 (Some 0x400) 0 (repeat 0 32).
Example fileinfo_roundtrip_ex : finfo_ok fileinfo_sample 0x400 /\
  firstn 16 (finfo_wire Little fileinfo_sample 0x400) = [3;0;0;0; 0;4;0;0; 9;0;0;0; 0;0; 0;0].
Proof.
  split; [|reflexivity]. unfold finfo_ok. cbn [fi_address fi_length fi_fileType fi_digestType fi_digestData fi_name fileinfo_sample].
  repeat split; try discriminate; try reflexivity.
  - repeat constructor; discriminate.
  - repeat constructor.
Qed.

(** C06: peers may end the name with NUL; whatever follows it does not count. *)
Theorem fileinfo_name_ends_at_nul : forall e f a junk,
  finfo_ok f a -> unpackFileInfo (finfo_wire e f a ++ 0 :: junk) e = Ok (Some f).
Proof. intros e f a junk H. apply unpackFileInfo_tail; eauto. Qed.
Print Assumptions fileinfo_name_ends_at_nul.

Example fileinfo_nul_ex : unpackFileInfo (finfo_wire Big fileinfo_sample 0x400 ++ [0; 46; 111; 200]) Big = Ok (Some fileinfo_sample).
Proof. vm_compute. reflexivity. Qed.

(** C06: nothing that does not fit is packed. *)
Theorem fileinfo_packs_only_what_fits : forall e f b,
  packFileInfo f e = Ok b ->
  exists a, fi_address f = Some a /\ 0 <= a < 2 ^ 32 /\ 0 <= fi_length f < 2 ^ 32 /\
    0 <= fi_fileType f < 2 ^ 16 /\ 0 <= fi_digestType f < 2 ^ 16 /\
    Forall (fun c => 0 <= c < 128) (fi_name f) /\ len b = 48 + len (fi_name f).
Proof. exact packFileInfo_inv. Qed.
Print Assumptions fileinfo_packs_only_what_fits.

Theorem fileinfo_short_is_none : forall data e,
  len data < 48 -> unpackFileInfo data e = Ok None.
Proof.
  intros data e H. unfold unpackFileInfo, RMF_FILEINFO_BASE_LEN.
  destruct (Z.leb_spec 48 (len data)); [exfalso; exact (Z.lt_irrefl _ (Z.lt_le_trans _ _ _ H H0)) | reflexivity].
Qed.
Print Assumptions fileinfo_short_is_none.

(** C07 *)
Theorem fileopen_roundtrip : forall e a,
  0 <= a < 2 ^ 32 ->
  packFileOpen a e = Ok (num_wire e 4 10 ++ num_wire e 4 a) /\
  unpackFileOpen (num_wire e 4 10 ++ num_wire e 4 a) e = Ok a.
Proof. exact (fun e a H => conj (packFileOpen_wire e a H) (unpackFileOpen_wire e a H)). Qed.
Print Assumptions fileopen_roundtrip.

Example fileopen_ex : packFileOpen 0x4000000 Little = Ok [10;0;0;0; 0;0;0;4] /\
  unpackFileOpen [0;0;0;10; 4;0;0;0] Big = Ok 0x4000000.
Proof. vm_compute. auto. Qed.

Theorem fileopen_rejects : forall e a,
  ~ 0 <= a < 2 ^ 32 -> packFileOpen a e = Err StructError.
Proof. exact packFileOpen_rejects. Qed.
Print Assumptions fileopen_rejects.

(** C07: the open command that is accepted is exactly the one that is produced. *)
Theorem fileopen_accepts_only_open : forall e data a,
  bytes_ok data -> unpackFileOpen data e = Ok a ->
  data = num_wire e 4 10 ++ num_wire e 4 a /\ 0 <= a < 2 ^ 32.
Proof. exact unpackFileOpen_inv. Qed.
Print Assumptions fileopen_accepts_only_open.

(** C07, close half: no byte string at all is accepted as a close command. *)
Theorem fileclose_roundtrip_refuted : forall e data,
  unpackFileClose data e = Err (if len data =? 8 then NameError else StructError).
Proof. exact (fun e data => unpackFileClose_always e data). Qed.
Print Assumptions fileclose_roundtrip_refuted.

Example fileclose_ex : exists w, packFileClose 0x4000000 Little = Ok w /\ unpackFileClose w Little = Err NameError.
Proof. eexists. split; reflexivity. Qed.

(** The close command that is produced: command 11 and the address. *)
Theorem fileclose_wire : forall e a,
  (0 <= a < 2 ^ 32 -> packFileClose a e = Ok (num_wire e 4 11 ++ num_wire e 4 a)) /\
  (~ 0 <= a < 2 ^ 32 -> packFileClose a e = Err StructError).
Proof. exact (fun e a => conj (packFileClose_wire e a) (packFileClose_rejects e a)). Qed.
Print Assumptions fileclose_wire.

Example fileclose_wire_ex : packFileClose 0x4000000 Big = Ok [0;0;0;11; 4;0;0;0] /\
  packFileClose (-1) Little = Err StructError.
Proof. vm_compute. auto. Qed.
