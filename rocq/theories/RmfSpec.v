(** Wire formats of the RemoteFile protocol, in plain arithmetic. *)
From Verif Require Import Py RmfModel.

(** Message header: 14-bit addresses in two bytes, 30-bit addresses in four;
    bit 6 of the first byte is the more bit, bit 7 marks the long form. *)
Definition hdr_wire (a : Z) (more : bool) : bytes :=
  let m := if more then 64 else 0 in
  if a <? 16384 then [m + a / 256; a mod 256]
  else [128 + m + a / 2 ^ 24; a / 2 ^ 16 mod 256; a / 2 ^ 8 mod 256; a mod 256].

(** Fixed-width numbers. *)
Fixpoint le_num (n : nat) (v : Z) : bytes :=
  match n with O => [] | S k => v mod 256 :: le_num k (v / 256) end.
Definition num_wire (e : endian) (n : nat) (v : Z) : bytes :=
  match e with Little => le_num n v | Big => rev (le_num n v) end.

(** A file description that fits the announcement format. *)
Definition finfo_ok (f : finfo) (a : Z) : Prop :=
  fi_address f = Some a /\ 0 <= a < 2 ^ 32 /\ 0 <= fi_length f < 2 ^ 32 /\
  0 <= fi_fileType f < 2 ^ 16 /\ 0 <= fi_digestType f < 2 ^ 16 /\
  len (fi_digestData f) = 32 /\ bytes_ok (fi_digestData f) /\
  Forall (fun c => 0 < c < 128) (fi_name f).

(** Announcement: command 3, address, length, types, digest, name. *)
Definition finfo_wire (e : endian) (f : finfo) (a : Z) : bytes :=
  num_wire e 4 3 ++ num_wire e 4 a ++ num_wire e 4 (fi_length f) ++
  num_wire e 2 (fi_fileType f) ++ num_wire e 2 (fi_digestType f) ++
  fi_digestData f ++ fi_name f.
