(** Model of /repo/numheader.py (whole file). *)
From Verif Require Import Py.

(** numheader.py:1-34 [_decode].  Result is (bytesParsed, value) with
    [None] for Python's None.  [end_] is the optional argument [end]. *)
Definition decode_ (data : bytes) (mode : Z) (offset : Z) (end_ : option Z)
  : res (Z * option Z) :=
  let fin := match end_ with None => len data | Some e => e end in
  if offset + 1 <=? fin then
    do b1 <- index data offset;
    if negb (Z.land b1 128 =? 0) then
      let b1 := Z.land b1 127 in
      if mode =? 16 then
        if offset + 2 <=? fin then
          do b2 <- index data (offset + 1);
          let value := Z.lor (Z.shiftl b1 8) b2 in
          let value := if value <? 128 then value + 32768 else value in
          Ok (2, Some value)
        else Ok (0, None)
      else if mode =? 32 then
        if offset + 4 <=? fin then
          match slice data (offset + 1) (offset + 4) with
          | [b2; b3; b4] =>
            Ok (4, Some (Z.lor (Z.lor (Z.lor (Z.shiftl b1 24) (Z.shiftl b2 16))
                                      (Z.shiftl b3 8)) b4))
          | _ => Err ValueError (* tuple unpacking of the wrong length *)
          end
        else Ok (0, None)
      else Err ValueError
    else Ok (1, Some b1)
  else Ok (0, None).

(** numheader.py:36-50 *)
Definition decode16 data offset end_ := decode_ data 16 offset end_.
Definition decode32 data offset end_ := decode_ data 32 offset end_.

(** numheader.py:53-78 [_encode]. *)
Definition encode_ (value mode : Z) : res bytes :=
  if value <? 128 then mk_bytes [value]
  else if mode =? 16 then
    if value <? 32768 then
      mk_bytes [Z.lor 128 (Z.shiftr value 8); Z.land value 255]
    else if value <? 32896 then
      mk_bytes [128; Z.land (value - 32768) 255]
    else Err ValueError
  else if mode =? 32 then
    if value <? 2147483648 then
      mk_bytes [Z.lor 128 (Z.land (Z.shiftr value 24) 255);
                Z.land (Z.shiftr value 16) 255;
                Z.land (Z.shiftr value 8) 255;
                Z.land value 255]
    else Err ValueError
  else Err ValueError.

(** numheader.py:81-95 (encode16 and encode32 wrap [_encode]). *)
Definition encode16 value := encode_ value 16.
Definition encode32 value := encode_ value 32.
