(** Model of the RemoteFile message codecs, /repo/remotefile/__init__.py:1-165. *)
From Verif Require Import Py.

(** remotefile/__init__.py:8-35 *)
Definition RMF_CMD_START_ADDR : Z := 0x3FFFFC00.
Definition RMF_CMD_ACK : Z := 0.
Definition RMF_CMD_FILE_INFO : Z := 3.
Definition RMF_CMD_FILE_OPEN : Z := 10.
Definition RMF_CMD_FILE_CLOSE : Z := 11.
Definition RMF_FILEINFO_BASE_LEN : Z := 48.
Definition RMF_MORE_BIT_MASK : Z := 0x40.
Definition RMF_HIGH_BIT_MASK : Z := 0x80.
Definition RMF_ADDR_BIT_MASK : Z := 0x3F.

Definition bit_set (b m : Z) : bool := negb (Z.land b m =? 0).

(** remotefile/__init__.py:38-64 [unpackHeader].
    Returns (bytes_parsed, address, more_bit).  The two-variable assignments
    [b1, b2 = data[i:i+2]] cannot fail because of the length tests before them. *)
Definition unpackHeader (data : bytes) : Z * option Z * bool :=
  if 1 <? len data then
    match data with
    | b1 :: b2 :: rest =>
      let more := bit_set b1 RMF_MORE_BIT_MASK in
      if bit_set b1 RMF_HIGH_BIT_MASK then
        let b1 := Z.land b1 RMF_ADDR_BIT_MASK in
        if 4 <? len data then
          match rest with
          | b3 :: b4 :: _ =>
            (4, Some (Z.lor (Z.lor (Z.lor (Z.shiftl b1 24) (Z.shiftl b2 16)) (Z.shiftl b3 8)) b4), more)
          | _ => (0, None, more)
          end
        else (0, None, more)
      else
        let b1 := Z.land b1 RMF_ADDR_BIT_MASK in
        (2, Some (Z.lor (Z.shiftl b1 8) b2), more)
    | _ => (0, None, false)
    end
  else (0, None, false).

(** remotefile/__init__.py:67-86 [packHeader]. *)
Definition packHeader (address : Z) (more_bit : bool) : res bytes :=
  if address <? 16384 then
    let b1 := Z.land (Z.shiftr address 8) RMF_ADDR_BIT_MASK in
    let b2 := Z.land address 255 in
    let b1 := if more_bit then Z.lor b1 RMF_MORE_BIT_MASK else b1 in
    mk_bytes [b1; b2]
  else if address <? 1073741824 then
    let b1 := Z.land (Z.shiftr address 24) RMF_ADDR_BIT_MASK in
    let b2 := Z.land (Z.shiftr address 16) 255 in
    let b3 := Z.land (Z.shiftr address 8) 255 in
    let b4 := Z.land address 255 in
    let b1 := if more_bit then Z.lor b1 RMF_MORE_BIT_MASK else b1 in
    mk_bytes [Z.lor b1 RMF_HIGH_BIT_MASK; b2; b3; b4]
  else Err ValueError.

(** The FILEINFO fields of remotefile.File (remotefile/__init__.py:193-208).
    The address may be None before a file map has assigned one. *)
Record finfo := mk_finfo {
  fi_name : str;
  fi_length : Z;
  fi_fileType : Z;
  fi_address : option Z;
  fi_digestType : Z;
  fi_digestData : bytes }.

(** remotefile/__init__.py:89-100 [packFileInfo].
    Order of evaluation: the name is encoded before struct.pack checks ranges. *)
Definition packFileInfo (f : finfo) (e : endian) : res bytes :=
  match fi_address f with
  | None => Err ValueError
  | Some address =>
    do name <- encode_ascii (fi_name f);
    do b0 <- pack_uint e 4 RMF_CMD_FILE_INFO;
    do b1 <- pack_uint e 4 address;
    do b2 <- pack_uint e 4 (fi_length f);
    do b3 <- pack_uint e 2 (fi_fileType f);
    do b4 <- pack_uint e 2 (fi_digestType f);
    Ok (b0 ++ b1 ++ b2 ++ b3 ++ b4 ++ pack_s 32 (fi_digestData f)
           ++ pack_s (len (fi_name f)) name)
  end.

(** Text before the first NUL, remotefile/__init__.py:116-124. *)
Fixpoint until_nul (b : bytes) : bytes :=
  match b with
  | [] => []
  | x :: r => if x =? 0 then [] else x :: until_nul r
  end.

(** remotefile/__init__.py:103-130 [unpackFileInfo]; None when too short.
    The command field is not checked here (neither does the code). *)
Definition unpackFileInfo (data : bytes) (e : endian) : res (option finfo) :=
  if RMF_FILEINFO_BASE_LEN <=? len data then
    let part2 := slice_from data RMF_FILEINFO_BASE_LEN in
    let address := unpack_uint e (slice data 4 8) in
    let length := unpack_uint e (slice data 8 12) in
    let fileType := unpack_uint e (slice data 12 14) in
    let digestType := unpack_uint e (slice data 14 16) in
    let digestData := slice data 16 48 in
    do name <- utf8_decode (until_nul part2);
    Ok (Some (mk_finfo name length fileType (Some address) digestType digestData))
  else Ok None.

(** remotefile/__init__.py:133-137 [packFileOpen]. *)
Definition packFileOpen (address : Z) (e : endian) : res bytes :=
  do b0 <- pack_uint e 4 RMF_CMD_FILE_OPEN;
  do b1 <- pack_uint e 4 address;
  Ok (b0 ++ b1).

(** struct.unpack('%s2I', data): struct.error unless exactly 8 bytes. *)
Definition unpack_2I (data : bytes) (e : endian) : res (Z * Z) :=
  if len data =? 8 then
    Ok (unpack_uint e (slice data 0 4), unpack_uint e (slice data 4 8))
  else Err StructError.

(** remotefile/__init__.py:140-147 [unpackFileOpen]. *)
Definition unpackFileOpen (data : bytes) (e : endian) : res Z :=
  do ' (cmdType, address) <- unpack_2I data e;
  if negb (cmdType =? RMF_CMD_FILE_OPEN) then Err ValueError else Ok address.

(** remotefile/__init__.py:150-154 [packFileClose]. *)
Definition packFileClose (address : Z) (e : endian) : res bytes :=
  do b0 <- pack_uint e 4 RMF_CMD_FILE_CLOSE;
  do b1 <- pack_uint e 4 address;
  Ok (b0 ++ b1).

(** remotefile/__init__.py:157-164 [unpackFileClose].  Line 162 compares with
    the misspelt global [RMF_CMD_FILE_ClOSE], which does not exist: NameError. *)
Definition unpackFileClose (data : bytes) (e : endian) : res Z :=
  do ' (cmdType, address) <- unpack_2I data e;
  Err NameError.
