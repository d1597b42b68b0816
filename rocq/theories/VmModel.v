(** Virtual machine: model of /repo/apx/vm.py and /repo/apx/vm_state.py. *)
From Verif Require Import Py TypesModel CompilerModel.

(** Python values handed to and produced by the machine.  [VOther] stands for
    any object that is not an integer, string, list or dict and that can neither
    be subscripted nor encoded (None, floats, ...).  Dictionaries keep insertion
    order; keys other than strings are not modelled. *)
Inductive pyval :=
| VOther
| VInt (z : Z)
| VStr (s : str)
| VList (l : list pyval)
| VDict (d : list (str * pyval)).

Definition dict := list (str * pyval).

Fixpoint dget (k : str) (d : dict) : option pyval :=
  match d with
  | [] => None
  | (k', v) :: r => if str_eqb k' k then Some v else dget k r
  end.

(** [d[k] = v] *)
Fixpoint dset (k : str) (v : pyval) (d : dict) : dict :=
  match d with
  | [] => [(k, v)]
  | (k', v') :: r => if str_eqb k' k then (k, v) :: r else (k', v') :: dset k v r
  end.

(** [v[key]] with a string key. *)
Definition sub_key (v : pyval) (k : str) : res pyval :=
  match v with
  | VDict d => match dget k d with Some x => Ok x | None => Err KeyError end
  | _ => Err TypeError
  end.

(** [v[i]] with an integer. *)
Definition sub_int (v : pyval) (i : Z) : res pyval :=
  match v with
  | VList l => index l i
  | VStr s => do c <- index s i; Ok (VStr [c])
  | VDict _ => Err KeyError
  | _ => Err TypeError
  end.

(** vm_state.py 4-9: the [struct.Struct] objects. *)
Inductive fmt := FU8 | FU16 | FU32 | FS8 | FS16 | FS32.

(** vm_state.py 80-96, 192-209: the element length passed with each of them. *)
Definition fmt_len (f : fmt) : Z :=
  match f with
  | FU8 => UINT8_LEN | FU16 => UINT16_LEN | FU32 => UINT32_LEN
  | FS8 => SINT8_LEN | FS16 => SINT16_LEN | FS32 => SINT32_LEN
  end.

Definition struct_pack (f : fmt) (v : Z) : res bytes :=
  match f with
  | FU8 => pack_uint Little 1 v | FU16 => pack_uint Little 2 v | FU32 => pack_uint Little 4 v
  | FS8 => pack_sint Little 1 v | FS16 => pack_sint Little 2 v | FS32 => pack_sint Little 4 v
  end.

(** Size of the struct, as the struct module computes it. *)
Definition struct_size (f : fmt) : Z :=
  match f with FU8 => 1 | FU16 => 2 | FU32 => 4 | FS8 => 1 | FS16 => 2 | FS32 => 4 end.

Definition struct_unpack (f : fmt) (b : bytes) : Z :=
  match f with
  | FU8 | FU16 | FU32 => unpack_uint Little b
  | FS8 | FS16 | FS32 => unpack_sint Little b
  end.

(** Where [pack_into] and [unpack_from] put [n] bytes: negative offsets count
    from the end; struct.error if the bytes do not fit. *)
Definition struct_place (size offset n : Z) : res Z :=
  if offset <? 0 then
    if (0 <? offset + n) || (offset + size <? 0) then Err StructError else Ok (offset + size)
  else if size - offset <? n then Err StructError else Ok offset.

Definition pack_into (data : bytes) (offset : Z) (b : bytes) : res bytes :=
  do p <- struct_place (len data) offset (len b);
  Ok (splice data p (p + len b) b).

Definition unpack_from (data : bytes) (offset n : Z) : res bytes :=
  do p <- struct_place (len data) offset n;
  Ok (slice data p (p + n)).

(** Parsed instructions (vm.py: the executor method and its arguments). *)
Inductive instr :=
| IPackProg (n : Z) | IUnpackProg (n : Z)
| IPack (f : fmt) (array_len : Z) | IPackStr (n : Z)
| IUnpack (f : fmt) (array_len : Z) | IUnpackStr (n : Z)
| IRecordEnter | IRecordSelect (name : str) | IRecordLeave
| IArrayEnter | IArrayLeave.

(** The parser methods of vm.py 91-259, by the operands they read. *)
Inductive operand :=
| ONone (i : instr)             (* no operand *)
| OShort (mk : Z -> instr)      (* two bytes *)
| OLong (mk : Z -> instr)       (* four bytes *)
| OName (mk : str -> instr).    (* NUL terminated name *)

(** vm.py 13-47 [opcode_parser_map]. *)
Definition opcode_parser_map : list (Z * operand) :=
  [ (OPCODE_PACK_PROG, OLong IPackProg);
    (OPCODE_UNPACK_PROG, OLong IUnpackProg);
    (OPCODE_PACK_U8, ONone (IPack FU8 0));
    (OPCODE_PACK_U16, ONone (IPack FU16 0));
    (OPCODE_PACK_U32, ONone (IPack FU32 0));
    (OPCODE_PACK_S8, ONone (IPack FS8 0));
    (OPCODE_PACK_S16, ONone (IPack FS16 0));
    (OPCODE_PACK_S32, ONone (IPack FS32 0));
    (OPCODE_PACK_STR, OShort IPackStr);
    (OPCODE_PACK_U8AR, OShort (IPack FU8));
    (OPCODE_PACK_U16AR, OShort (IPack FU16));
    (OPCODE_PACK_U32AR, OShort (IPack FU32));
    (OPCODE_PACK_S8AR, OShort (IPack FS8));
    (OPCODE_PACK_S16AR, OShort (IPack FS16));
    (OPCODE_PACK_S32AR, OShort (IPack FS32));
    (OPCODE_UNPACK_U8, ONone (IUnpack FU8 0));
    (OPCODE_UNPACK_U16, ONone (IUnpack FU16 0));
    (OPCODE_UNPACK_U32, ONone (IUnpack FU32 0));
    (OPCODE_UNPACK_S8, ONone (IUnpack FS8 0));
    (OPCODE_UNPACK_S16, ONone (IUnpack FS16 0));
    (OPCODE_UNPACK_S32, ONone (IUnpack FS32 0));
    (OPCODE_UNPACK_STR, OShort IUnpackStr);
    (OPCODE_UNPACK_U8AR, OShort (IUnpack FU8));
    (OPCODE_UNPACK_U16AR, OShort (IUnpack FU16));
    (OPCODE_UNPACK_U32AR, OShort (IUnpack FU32));
    (OPCODE_UNPACK_S8AR, OShort (IUnpack FS8));
    (OPCODE_UNPACK_S16AR, OShort (IUnpack FS16));
    (OPCODE_UNPACK_S32AR, OShort (IUnpack FS32));
    (OPCODE_RECORD_ENTER, ONone IRecordEnter);
    (OPCODE_RECORD_SELECT, OName IRecordSelect);
    (OPCODE_RECORD_LEAVE, ONone IRecordLeave);
    (OPCODE_ARRAY_ENTER, ONone IArrayEnter);
    (OPCODE_ARRAY_LEAVE, ONone IArrayLeave) ].

Fixpoint map_get (k : Z) (m : list (Z * operand)) : option operand :=
  match m with
  | [] => None
  | (k', v) :: r => if k' =? k then Some v else map_get k r
  end.

(** [parse_record_select]: bytes up to the first NUL and the code after it. *)
Fixpoint split_nul (b : bytes) : option (bytes * bytes) :=
  match b with
  | [] => None
  | x :: r => if x =? 0 then Some ([], r)
              else match split_nul r with Some (n, r') => Some (x :: n, r') | None => None end
  end.

(** vm.py 375-386 [parse_next_instruction] with the parser methods 91-259.
    [code] is the part of the program from [code_next] on; the result is the
    instruction and the rest of the program.  The message of the unknown op code
    error reads the byte after the op code, an IndexError at the end. *)
Definition parse_next_instruction (code : bytes) : res (option (instr * bytes)) :=
  match code with
  | [] => Ok None
  | opcode :: r =>
    match map_get opcode opcode_parser_map with
    | None => match r with [] => Err IndexError | _ :: _ => Err UnknownOpCodeError end
    | Some (ONone i) => Ok (Some (i, r))
    | Some (OShort mk) =>
      match r with
      | b0 :: b1 :: r' => Ok (Some (mk (Z.lor b0 (Z.shiftl b1 8)), r'))
      | _ => Err InvalidInstructionError
      end
    | Some (OLong mk) =>
      match r with
      | b0 :: b1 :: b2 :: b3 :: r' =>
        Ok (Some (mk (Z.lor (Z.lor (Z.lor b0 (Z.shiftl b1 8)) (Z.shiftl b2 16)) (Z.shiftl b3 24)), r'))
      | _ => Err InvalidInstructionError
      end
    | Some (OName mk) =>
      match split_nul r with
      | Some (n, r') => do s <- decode_ascii n; Ok (Some (mk s, r'))
      | None => Err InvalidInstructionError
      end
    end
  end.

(** vm_state.py 12-17 [VmState]. *)
Record vmstate := mk_vmstate {
  vs_value : pyval;
  vs_key : option str;
  vs_index : option Z;
  vs_stack : list (pyval * option str * option Z)
}.

Definition is_dict (v : pyval) : bool := match v with VDict _ => true | _ => false end.
Definition is_list (v : pyval) : bool := match v with VList _ => true | _ => false end.

(** [VmPackState.record_enter] 27-40. *)
Definition p_record_enter (s : vmstate) : res vmstate :=
  match vs_key s, vs_index s with
  | None, None => if is_dict (vs_value s) then Ok s else Err ValueError
  | k, Some i =>
    do v <- sub_int (vs_value s) i;
    Ok (mk_vmstate v None None ((vs_value s, k, Some i) :: vs_stack s))
  | Some k, None =>
    do v <- sub_key (vs_value s) k;
    Ok (mk_vmstate v None None ((vs_value s, Some k, None) :: vs_stack s))
  end.

(** [record_select] 44-47 and 151-154. *)
Definition record_select (name : str) (s : vmstate) : res vmstate :=
  if is_dict (vs_value s) then Ok (mk_vmstate (vs_value s) (Some name) (vs_index s) (vs_stack s))
  else Err RuntimeError.

(** [VmPackState.record_leave] 49-54. *)
Definition p_record_leave (s : vmstate) : res vmstate :=
  match vs_stack s with
  | (v, k, i) :: st =>
    Ok (mk_vmstate v None (match i with Some n => Some (n + 1) | None => None end) st)
  | [] => Ok (mk_vmstate (vs_value s) None (vs_index s) [])
  end.

(** [VmPackState.array_enter] 56-70. *)
Definition p_array_enter (s : vmstate) : res vmstate :=
  match vs_key s, vs_index s with
  | None, None =>
    if is_list (vs_value s) then Ok (mk_vmstate (vs_value s) None (Some 0) (vs_stack s))
    else Err ValueError
  | Some k, i =>
    do v <- sub_key (vs_value s) k;
    Ok (mk_vmstate v None (Some 0) ((vs_value s, Some k, i) :: vs_stack s))
  | None, Some i =>
    do v <- sub_int (vs_value s) i;
    Ok (mk_vmstate v None (Some 0) ((vs_value s, None, Some i) :: vs_stack s))
  end.

(** [VmPackState.array_leave] 72-78. *)
Definition p_array_leave (s : vmstate) : res vmstate :=
  match vs_stack s with
  | (v, k, i) :: st =>
    Ok (mk_vmstate v k (match i with Some n => Some (n + 1) | None => None end) st)
  | [] => Ok (mk_vmstate (vs_value s) (vs_key s) None [])
  end.

(** The value addressed by the state: 99-104 and 115-120. *)
Definition current (s : vmstate) : res pyval :=
  match vs_value s with
  | VDict d =>
    match vs_key s with
    | None => Err RuntimeError
    | Some k => match dget k d with Some v => Ok v | None => Err KeyError end
    end
  | v => Ok v
  end.

(** [struct_obj.pack_into(data, data_offset, value)]. *)
Definition pack_value (f : fmt) (data : bytes) (offset : Z) (v : pyval) : res bytes :=
  match v with
  | VInt z => do b <- struct_pack f z; pack_into data offset b
  | _ => Err StructError
  end.

(** [pack_struct] 126-128: items [i..] of the list, [n] of them. *)
Fixpoint pack_items (n : nat) (f : fmt) (data : bytes) (offset : Z) (l : list pyval) (i : Z)
  : res (bytes * Z) :=
  match n with
  | O => Ok (data, offset)
  | S k =>
    do v <- index l i;
    do data' <- pack_value f data offset v;
    pack_items k f data' (offset + fmt_len f) l (i + 1)
  end.

(** [len(self.value)] in [pack_struct] 124. *)
Definition len_value (v : pyval) : res Z :=
  match v with
  | VList l => Ok (len l)
  | VDict d => Ok (len d)
  | VStr s => Ok (len s)
  | _ => Err TypeError
  end.

(** [VmPackState.pack_struct] 111-132. *)
Definition pack_struct (f : fmt) (array_len : Z) (s : vmstate) (data : bytes) (offset : Z)
  : res (bytes * Z) :=
  do value <- current s;
  if 0 <? array_len then
    match value with
    | VList l =>
      do n <- len_value (vs_value s);
      if n <? array_len then Err ValueError
      else pack_items (Z.to_nat array_len) f data offset l 0
    | _ => Err ValueError
    end
  else
    do data' <- pack_value f data offset value;
    Ok (data', offset + fmt_len f).

(** [VmPackState.pack_str] 98-109. *)
Definition pack_str (str_len : Z) (s : vmstate) (data : bytes) (offset : Z) : res (bytes * Z) :=
  do value <- current s;
  match value with
  | VStr t =>
    do b <- utf8_encode t;
    do data' <- pack_into data offset (pack_s str_len b);
    Ok (data', offset + str_len)
  | _ => Err AttributeError
  end.

(** [VmUnpackState.record_enter] 138-148. *)
Definition u_record_enter (s : vmstate) : res vmstate :=
  match vs_key s, vs_index s with
  | None, None => Ok (mk_vmstate (VDict []) None None (vs_stack s))
  | k, Some i => Ok (mk_vmstate (VDict []) None None ((vs_value s, k, Some i) :: vs_stack s))
  | Some _, None => Err NotImplementedError
  end.

(** [value.append(x)] and [value[key] = x]. *)
Definition append_value (v x : pyval) : res pyval :=
  match v with VList l => Ok (VList (l ++ [x])) | _ => Err AttributeError end.
Definition set_key (v : pyval) (k : str) (x : pyval) : res pyval :=
  match v with VDict d => Ok (VDict (dset k x d)) | _ => Err TypeError end.

(** 160-164 and 182-187: hand a finished child value to its parent. *)
Definition give_back (v : pyval) (k : option str) (i : option Z) (child : pyval)
  : res (pyval * option Z) :=
  match i, k with
  | Some n, _ => do v' <- append_value v child; Ok (v', Some (n + 1))
  | None, Some key => do v' <- set_key v key child; Ok (v', None)
  | None, None => Ok (v, None)
  end.

(** [VmUnpackState.record_leave] 156-165. *)
Definition u_record_leave (s : vmstate) : res vmstate :=
  match vs_stack s with
  | (v, k, i) :: st =>
    do '(v', i') <- give_back v k i (vs_value s);
    Ok (mk_vmstate v' None i' st)
  | [] => Ok (mk_vmstate (vs_value s) None (vs_index s) [])
  end.

(** [VmUnpackState.array_enter] 167-175. *)
Definition u_array_enter (s : vmstate) : res vmstate :=
  match vs_key s, vs_index s with
  | None, None => Ok (mk_vmstate (VList []) None (Some 0) (vs_stack s))
  | k, i => Ok (mk_vmstate (VList []) None (Some 0) ((vs_value s, k, i) :: vs_stack s))
  end.

(** [VmUnpackState.array_leave] 177-190: the key survives only an append. *)
Definition u_array_leave (s : vmstate) : res vmstate :=
  match vs_index s with
  | None => Err RuntimeError
  | Some _ =>
    match vs_stack s with
    | (v, k, i) :: st =>
      do '(v', i') <- give_back v k i (vs_value s);
      Ok (mk_vmstate v' (match i with Some _ => k | None => None end) i' st)
    | [] => Ok (mk_vmstate (vs_value s) (vs_key s) None [])
    end
  end.

(** 225-230 and 244-249: store an unpacked value. *)
Definition store (x : pyval) (s : vmstate) : res vmstate :=
  match vs_value s with
  | VDict d =>
    match vs_key s with
    | None => Err RuntimeError
    | Some k => Ok (mk_vmstate (VDict (dset k x d)) (Some k) (vs_index s) (vs_stack s))
    end
  | _ => Ok (mk_vmstate x (vs_key s) (vs_index s) (vs_stack s))
  end.

Fixpoint unpack_items (n : nat) (f : fmt) (data : bytes) (offset : Z) : res (list pyval * Z) :=
  match n with
  | O => Ok ([], offset)
  | S k =>
    do b <- unpack_from data offset (struct_size f);
    do '(r, o) <- unpack_items k f data (offset + fmt_len f);
    Ok (VInt (struct_unpack f b) :: r, o)
  end.

(** [VmUnpackState.unpack_struct] 234-249. *)
Definition unpack_struct (f : fmt) (array_len : Z) (s : vmstate) (data : bytes) (offset : Z)
  : res (vmstate * Z) :=
  if 0 <? array_len then
    do '(l, o) <- unpack_items (Z.to_nat array_len) f data offset;
    do s' <- store (VList l) s; Ok (s', o)
  else
    do b <- unpack_from data offset (struct_size f);
    do s' <- store (VInt (struct_unpack f b)) s; Ok (s', offset + fmt_len f).

(** [unpack_str] 220-223: the position of the first NUL at or after [data_end],
    at most [n] bytes further. *)
Fixpoint scan_nul (n : nat) (data : bytes) (data_end : Z) : res Z :=
  match n with
  | O => Ok data_end
  | S k => do b <- index data data_end;
           if b =? 0 then Ok data_end else scan_nul k data (data_end + 1)
  end.

(** [VmUnpackState.unpack_str] 211-231. *)
Definition unpack_str (str_len : Z) (s : vmstate) (data : bytes) (offset : Z)
  : res (vmstate * Z) :=
  if len data - offset <? str_len then Err ValueError
  else
    do _ <- unpack_from data offset str_len;
    do e <- scan_nul (Z.to_nat str_len) data offset;
    do t <- utf8_decode (slice data offset e);
    do s' <- store (VStr t) s;
    Ok (s', offset + str_len).

(** vm.py 86-89 [verify_data_len]. *)
Definition verify_data_len (data_len : Z) (data : bytes) (offset : Z) : res unit :=
  if len data - offset <? data_len then Err RuntimeError else Ok tt.

(** The executor methods 261-316, 394-406 on a pack state.  The unpack methods
    do not exist on a [VmPackState]. *)
Definition exec_pack (i : instr) (s : vmstate) (data : bytes) (offset : Z)
  : res (vmstate * bytes * Z) :=
  match i with
  | IPackProg n => do _ <- verify_data_len n data offset; Ok (s, data, offset)
  | IUnpackProg _ => Err RuntimeError
  | IPack f n => do '(d, o) <- pack_struct f n s data offset; Ok (s, d, o)
  | IPackStr n => do '(d, o) <- pack_str n s data offset; Ok (s, d, o)
  | IUnpack _ _ => Err AttributeError
  | IUnpackStr _ => Err AttributeError
  | IRecordEnter => do s' <- p_record_enter s; Ok (s', data, offset)
  | IRecordSelect n => do s' <- record_select n s; Ok (s', data, offset)
  | IRecordLeave => do s' <- p_record_leave s; Ok (s', data, offset)
  | IArrayEnter => do s' <- p_array_enter s; Ok (s', data, offset)
  | IArrayLeave => do s' <- p_array_leave s; Ok (s', data, offset)
  end.

(** The same on an unpack state; the data never change. *)
Definition exec_unpack (i : instr) (s : vmstate) (data : bytes) (offset : Z)
  : res (vmstate * Z) :=
  match i with
  | IPackProg _ => Err RuntimeError
  | IUnpackProg n => do _ <- verify_data_len n data offset; Ok (s, offset)
  | IPack _ _ => Err AttributeError
  | IPackStr _ => Err AttributeError
  | IUnpack f n => unpack_struct f n s data offset
  | IUnpackStr n => unpack_str n s data offset
  | IRecordEnter => do s' <- u_record_enter s; Ok (s', offset)
  | IRecordSelect n => do s' <- record_select n s; Ok (s', offset)
  | IRecordLeave => do s' <- u_record_leave s; Ok (s', offset)
  | IArrayEnter => do s' <- u_array_enter s; Ok (s', offset)
  | IArrayLeave => do s' <- u_array_leave s; Ok (s', offset)
  end.

Definition is_pack_prog (i : instr) : bool := match i with IPackProg _ => true | _ => false end.
Definition is_unpack_prog (i : instr) : bool := match i with IUnpackProg _ => true | _ => false end.

(** The while loop of [exec_pack_prog] 331-341.  [turns] bounds the loop; every
    turn consumes an op code, so the length of the program is always enough
    (proved: [StopError] never happens). *)
Fixpoint pack_loop (turns : nat) (code : bytes) (first : bool) (s : vmstate) (data : bytes)
    (offset : Z) : res (vmstate * bytes * Z) :=
  match turns with
  | O => Err StopError
  | S k =>
    do p <- parse_next_instruction code;
    match p with
    | None => Ok (s, data, offset)
    | Some (i, code') =>
      if first && negb (is_pack_prog i) then Err RuntimeError
      else
        do '(s', data', offset') <- exec_pack i s data offset;
        pack_loop k code' false s' data' offset'
    end
  end.

(** [exec_pack_prog] 318-341 with [init_pack_prog] 72-77: the data afterwards.
    The contents of [data] after an exception are in VmLeftModel.v. *)
Definition exec_pack_prog (code data : bytes) (offset : Z) (value : pyval) : res bytes :=
  do _ <- verify_data_len (len data - offset) data offset;
  do '(_, data', _) <- pack_loop (S (length code)) code true (mk_vmstate value None None []) data offset;
  Ok data'.

Fixpoint unpack_loop (turns : nat) (code : bytes) (first : bool) (s : vmstate) (data : bytes)
    (offset : Z) : res (vmstate * Z) :=
  match turns with
  | O => Err StopError
  | S k =>
    do p <- parse_next_instruction code;
    match p with
    | None => Ok (s, offset)
    | Some (i, code') =>
      if first && negb (is_unpack_prog i) then Err RuntimeError
      else
        do '(s', offset') <- exec_unpack i s data offset;
        unpack_loop k code' false s' data offset'
    end
  end.

(** [exec_unpack_prog] 343-372 with [init_unpack_prog] 79-84, followed by
    reading [vm.value] 51-55 as [NodeData] does. *)
Definition exec_unpack_prog (code data : bytes) (offset : Z) : res pyval :=
  do _ <- verify_data_len (len data - offset) data offset;
  do '(s, _) <- unpack_loop (S (length code)) code true (mk_vmstate VOther None None []) data offset;
  Ok (vs_value s).
