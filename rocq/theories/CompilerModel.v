(** Byte code compiler: model of /repo/apx/compiler.py.

    [self.prog] is passed in and returned; a call that raises returns only the
    exception ([compilePackProg] starts from an empty program each time). *)
From Verif Require Import Py TypesModel.

(** vm_base.py 2-34 op codes. *)
Definition OPCODE_PACK_PROG := 1.
Definition OPCODE_UNPACK_PROG := 2.
Definition OPCODE_PACK_U8 := 3.
Definition OPCODE_PACK_U16 := 4.
Definition OPCODE_PACK_U32 := 5.
Definition OPCODE_PACK_S8 := 6.
Definition OPCODE_PACK_S16 := 7.
Definition OPCODE_PACK_S32 := 8.
Definition OPCODE_PACK_STR := 9.
Definition OPCODE_PACK_U8AR := 10.
Definition OPCODE_PACK_U16AR := 11.
Definition OPCODE_PACK_U32AR := 12.
Definition OPCODE_PACK_S8AR := 13.
Definition OPCODE_PACK_S16AR := 14.
Definition OPCODE_PACK_S32AR := 15.
Definition OPCODE_UNPACK_U8 := 16.
Definition OPCODE_UNPACK_U16 := 17.
Definition OPCODE_UNPACK_U32 := 18.
Definition OPCODE_UNPACK_S8 := 19.
Definition OPCODE_UNPACK_S16 := 20.
Definition OPCODE_UNPACK_S32 := 21.
Definition OPCODE_UNPACK_STR := 22.
Definition OPCODE_UNPACK_U8AR := 23.
Definition OPCODE_UNPACK_U16AR := 24.
Definition OPCODE_UNPACK_U32AR := 25.
Definition OPCODE_UNPACK_S8AR := 26.
Definition OPCODE_UNPACK_S16AR := 27.
Definition OPCODE_UNPACK_S32AR := 28.
Definition OPCODE_RECORD_ENTER := 29.
Definition OPCODE_RECORD_SELECT := 30.
Definition OPCODE_RECORD_LEAVE := 31.
Definition OPCODE_ARRAY_ENTER := 32.
Definition OPCODE_ARRAY_LEAVE := 33.

Definition UINT8_LEN := 1.
Definition UINT16_LEN := 2.
Definition UINT32_LEN := 4.
Definition SINT8_LEN := 1.
Definition SINT16_LEN := 2.
Definition SINT32_LEN := 4.

(** [_packProgHeader] 34-46 and [_unpackProgHeader] 48-57. *)
Definition progHeader (opcode progLen : Z) (insert : bool) (prog : bytes) : bytes :=
  let tmp := [opcode; Z.land progLen 255; Z.land (Z.shiftr progLen 8) 255;
              Z.land (Z.shiftr progLen 16) 255; Z.land (Z.shiftr progLen 24) 255] in
  if insert then tmp ++ prog else prog ++ tmp.

(** The two directions differ only in the op codes; the tables below list them.
    [scalar_op d c] is the op code and length of lines 76-99 / 119-142,
    [array_op d c] that of lines 153-203 with 205-287. *)
Inductive dir := Pack | Unpack.

Definition prog_op (d : dir) : Z :=
  match d with Pack => OPCODE_PACK_PROG | Unpack => OPCODE_UNPACK_PROG end.

Definition scalar_op (d : dir) (c : tcode) : option (Z * Z) :=
  match d, c with
  | Pack, CU8 => Some (OPCODE_PACK_U8, UINT8_LEN)
  | Pack, CU16 => Some (OPCODE_PACK_U16, UINT16_LEN)
  | Pack, CU32 => Some (OPCODE_PACK_U32, UINT32_LEN)
  | Pack, CS8 => Some (OPCODE_PACK_S8, SINT8_LEN)
  | Pack, CS16 => Some (OPCODE_PACK_S16, SINT16_LEN)
  | Pack, CS32 => Some (OPCODE_PACK_S32, SINT32_LEN)
  | Unpack, CU8 => Some (OPCODE_UNPACK_U8, UINT8_LEN)
  | Unpack, CU16 => Some (OPCODE_UNPACK_U16, UINT16_LEN)
  | Unpack, CU32 => Some (OPCODE_UNPACK_U32, UINT32_LEN)
  | Unpack, CS8 => Some (OPCODE_UNPACK_S8, SINT8_LEN)
  | Unpack, CS16 => Some (OPCODE_UNPACK_S16, SINT16_LEN)
  | Unpack, CS32 => Some (OPCODE_UNPACK_S32, SINT32_LEN)
  | _, _ => None
  end.

Definition array_op (d : dir) (c : tcode) : option (Z * Z) :=
  match d, c with
  | Pack, CU8 => Some (OPCODE_PACK_U8AR, UINT8_LEN)
  | Pack, CU16 => Some (OPCODE_PACK_U16AR, UINT16_LEN)
  | Pack, CU32 => Some (OPCODE_PACK_U32AR, UINT32_LEN)
  | Pack, CS8 => Some (OPCODE_PACK_S8AR, SINT8_LEN)
  | Pack, CS16 => Some (OPCODE_PACK_S16AR, SINT16_LEN)
  | Pack, CS32 => Some (OPCODE_PACK_S32AR, SINT32_LEN)
  | Pack, CSTR => Some (OPCODE_PACK_STR, UINT8_LEN)
  | Unpack, CU8 => Some (OPCODE_UNPACK_U8AR, UINT8_LEN)
  | Unpack, CU16 => Some (OPCODE_UNPACK_U16AR, UINT16_LEN)
  | Unpack, CU32 => Some (OPCODE_UNPACK_U32AR, UINT32_LEN)
  | Unpack, CS8 => Some (OPCODE_UNPACK_S8AR, SINT8_LEN)
  | Unpack, CS16 => Some (OPCODE_UNPACK_S16AR, SINT16_LEN)
  | Unpack, CS32 => Some (OPCODE_UNPACK_S32AR, SINT32_LEN)
  | Unpack, CSTR => Some (OPCODE_UNPACK_STR, UINT8_LEN)
  | _, _ => None
  end.

(** [_packU8AR] 205-209 and its siblings up to 287. *)
Definition arrayInstr (opcode elemLen n : Z) (prog : bytes) : bytes * Z :=
  (prog ++ [opcode; Z.land n 255; Z.land (Z.shiftr n 8) 255], elemLen * n).

(** [_packArray] 153-177 and [_unpackArray] 179-203. *)
Definition compileArray (d : dir) (e : delem) (header : bool) (prog : bytes) : res (bytes * Z) :=
  match e with
  | DPrim _ c _ _ (Some n) =>
    match array_op d c with
    | Some (op, l) =>
      Ok (arrayInstr op l n (if header then progHeader (prog_op d) (l * n) false prog else prog))
    | None => Err NotImplementedError
    end
  | _ => Err NotImplementedError
  end.

(** [_recordSelect] 289-292: [map(ord, None)] is a TypeError, a character above
    255 does not fit a bytearray. *)
Definition recordSelect (e : delem) (prog : bytes) : res bytes :=
  match de_name e with
  | None => Err TypeError
  | Some n =>
    if forallb byte_okb n then Ok (prog ++ [OPCODE_RECORD_SELECT] ++ n ++ [0])
    else Err ValueError
  end.

(** [_packDataElement] 59-63 with [_packSingleElement] 71-110, and
    [_unpackDataElement] 65-69 with [_unpackSingleElement] 112-151. *)
Fixpoint compileElement (fuel : nat) (d : dir) (H : theap) (e : delem) (header : bool)
    (prog : bytes) : res (bytes * Z) :=
  match fuel with
  | O => Err RecursionError
  | S k =>
    do arr <- isArray H e;
    if (arr : bool) then compileArray d e header prog
    else
      let e1 := match e with DRef _ (RObj o) => dt_elem (H o) | _ => e end in
      match e1 with
      | DPrim _ c _ _ _ =>
        match scalar_op d c with
        | Some (op, l) =>
          Ok ((if header then progHeader (prog_op d) l false prog else prog) ++ [op], l)
        | None => Err NotImplementedError
        end
      | DRec _ es =>
        do '(prog, packLen) <-
          fold_left (fun acc c =>
            do '(p, n) <- acc;
            do p <- recordSelect c p;
            do '(p, m) <- compileElement k d H c false p;
            Ok (p, n + m)) es (Ok (prog ++ [OPCODE_RECORD_ENTER], 0));
        let prog := prog ++ [OPCODE_RECORD_LEAVE] in
        Ok ((if header then progHeader (prog_op d) packLen true prog else prog), packLen)
      | DRef _ _ => Err NotImplementedError
      end
  end.

(** [compilePackProg] 20-25 and [compileUnpackProg] 27-32. *)
Definition compileProg (fuel : nat) (d : dir) (H : theap) (e : delem) : res bytes :=
  do '(prog, _) <- compileElement fuel d H e true []; Ok prog.

(** base.py 148-157 [Port.data_element]. *)
Definition port_data_element (H : theap) (e : delem) : res delem :=
  match e with
  | DRef _ (RObj o) => Ok (dt_elem (H o))
  | DRef _ _ => Err ApxTypeError
  | _ => Ok e
  end.

(** [Compiler.exec] 9-18: require ports are unpacked, provide ports packed. *)
Definition compilePort (fuel : nat) (provide : bool) (H : theap) (e : delem) : res bytes :=
  do e1 <- port_data_element H e;
  compileProg fuel (if provide then Pack else Unpack) H e1.
