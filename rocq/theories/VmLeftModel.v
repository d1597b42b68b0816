(** The buffer after [VM.exec_pack_prog] also when it raises: the part of
    /repo/apx/vm.py and /repo/apx/vm_state.py that VmModel.v leaves out.

    The machine writes into the bytearray of its caller, value by value, so an
    exception leaves what was written before it.  Each function here gives the
    buffer at the moment its namesake of VmModel.v returns or raises. *)
From Verif Require Import Py TypesModel CompilerModel VmModel.

(** What [struct.pack_into] leaves of its [n] bytes at [p] when it refuses the
    value is not documented (some versions clear them first), so it is an
    argument of every function: [torn data p n] is the buffer afterwards. *)
Definition tearing := bytes -> Z -> Z -> bytes.

(** [struct_obj.pack_into(data, data_offset, value)]; nothing is written if the
    bytes do not fit. *)
Definition left_value (torn : tearing) (f : fmt) (data : bytes) (offset : Z) (v : pyval) : bytes :=
  match pack_value f data offset v with
  | Ok data' => data'
  | Err _ =>
    match struct_place (len data) offset (struct_size f) with
    | Ok p => torn data p (struct_size f)
    | Err _ => data
    end
  end.

(** vm_state.py 126-128. *)
Fixpoint left_items (torn : tearing) (n : nat) (f : fmt) (data : bytes) (offset : Z)
    (l : list pyval) (i : Z) : bytes :=
  match n with
  | O => data
  | S k =>
    match index l i with
    | Err _ => data
    | Ok v =>
      match pack_value f data offset v with
      | Ok data' => left_items torn k f data' (offset + fmt_len f) l (i + 1)
      | Err _ => left_value torn f data offset v
      end
    end
  end.

(** vm_state.py 111-132 [VmPackState.pack_struct]. *)
Definition left_struct (torn : tearing) (f : fmt) (array_len : Z) (s : vmstate) (data : bytes)
    (offset : Z) : bytes :=
  match current s with
  | Err _ => data
  | Ok value =>
    if 0 <? array_len then
      match value with
      | VList l =>
        match len_value (vs_value s) with
        | Err _ => data
        | Ok n => if n <? array_len then data
                  else left_items torn (Z.to_nat array_len) f data offset l 0
        end
      | _ => data
      end
    else left_value torn f data offset value
  end.

(** vm_state.py 98-109 [VmPackState.pack_str]: the value is encoded first and a
    string of any length is accepted, so nothing is written when it raises. *)
Definition left_str (str_len : Z) (s : vmstate) (data : bytes) (offset : Z) : bytes :=
  match pack_str str_len s data offset with Ok (data', _) => data' | Err _ => data end.

(** The executor methods vm.py 261-316, 394-399: only those two write. *)
Definition left_exec (torn : tearing) (i : instr) (s : vmstate) (data : bytes) (offset : Z) : bytes :=
  match i with
  | IPack f n => left_struct torn f n s data offset
  | IPackStr n => left_str n s data offset
  | _ => data
  end.

(** The while loop of [exec_pack_prog] 331-341. *)
Fixpoint left_loop (torn : tearing) (turns : nat) (code : bytes) (first : bool) (s : vmstate)
    (data : bytes) (offset : Z) : bytes :=
  match turns with
  | O => data
  | S k =>
    match parse_next_instruction code with
    | Err _ | Ok None => data
    | Ok (Some (i, code')) =>
      if first && negb (is_pack_prog i) then data
      else
        match exec_pack i s data offset with
        | Ok (s', data', offset') => left_loop torn k code' false s' data' offset'
        | Err _ => left_exec torn i s data offset
        end
    end
  end.

(** [exec_pack_prog] 318-341: the caller's [data] afterwards. *)
Definition exec_pack_left (torn : tearing) (code data : bytes) (offset : Z) (value : pyval) : bytes :=
  match verify_data_len (len data - offset) data offset with
  | Err _ => data
  | Ok _ => left_loop torn (S (length code)) code true (mk_vmstate value None None []) data offset
  end.
