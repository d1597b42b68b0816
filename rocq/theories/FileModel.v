(** Model of files and the file map: /repo/apx/file.py, /repo/apx/file_map.py and
    the base class remotefile.File (/repo/remotefile/__init__.py:193-214). *)
From Verif Require Import Py RmfModel.

(** Which Python class a file object has. *)
Inductive fkind :=
| KRemote  (* remotefile.File, as made by unpackFileInfo *)
| KFile    (* apx.File *)
| KInput   (* apx.InputFile *)
| KOutput. (* apx.OutputFile *)

(** A file object.  [f_managed]: [fileManager is not None];
    [f_handled]: [nodeDataHandler is not None] (input files).
    [isRemoteFile] is never read and left out. *)
Record file := mk_file {
  f_kind : fkind;
  f_info : finfo;
  f_isOpen : bool;
  f_managed : bool;
  f_handled : bool;
  f_data : bytes }.

Definition f_name (f : file) : str := fi_name (f_info f).
Definition f_length (f : file) : Z := fi_length (f_info f).
Definition f_address (f : file) : option Z := fi_address (f_info f).

Definition with_info (f : file) (i : finfo) : file :=
  mk_file (f_kind f) i (f_isOpen f) (f_managed f) (f_handled f) (f_data f).
Definition with_open (f : file) (b : bool) : file :=
  mk_file (f_kind f) (f_info f) b (f_managed f) (f_handled f) (f_data f).
Definition with_managed (f : file) (b : bool) : file :=
  mk_file (f_kind f) (f_info f) (f_isOpen f) b (f_handled f) (f_data f).
Definition with_handled (f : file) (b : bool) : file :=
  mk_file (f_kind f) (f_info f) (f_isOpen f) (f_managed f) b (f_data f).
Definition with_data (f : file) (d : bytes) : file :=
  mk_file (f_kind f) (f_info f) (f_isOpen f) (f_managed f) (f_handled f) d.
Definition with_address (f : file) (a : option Z) : file :=
  let i := f_info f in
  with_info f (mk_finfo (fi_name i) (fi_length i) (fi_fileType i) a (fi_digestType i) (fi_digestData i)).

(** The constructor, remotefile/__init__.py:199-208 and apx/file.py:25-33, for the
    classes of apx/file.py. *)
Definition new_file (k : fkind) (name : str) (length : Z) (init_data : option bytes) : res file :=
  let info := mk_finfo name length 0 None 0 (zeros 32) in
  do data <- mk_zeros length;
  match init_data with
  | None => Ok (mk_file k info false false false data)
  | Some d =>
    if negb (len d =? length) then Err ValueError
    else Ok (mk_file k info false false false (splice data 0 length d))
  end.

(** apx/file.py:35-45 [File.read]; the data lock is taken and released around an
    operation that cannot raise, so it is left out. *)
Definition file_read (f : file) (offset length : Z) : option bytes :=
  if (offset <? 0) || (len (f_data f) <? offset + length) then None
  else Some (slice (f_data f) offset (offset + length)).

(** apx/file.py:48-59 [File.write]. *)
Definition file_write (f : file) (offset : Z) (data : bytes) : file * Z :=
  if (offset <? 0) || (len (f_data f) <? offset + len data) then (f, -1)
  else (with_data f (splice (f_data f) offset (offset + len data) data), len data).

(** What a write tells the rest of the program. *)
Inductive fevent :=
| InNotify (offset length : Z)    (* nodeDataHandler.inPortDataWriteNotify *)
| OutNotify (offset length : Z).  (* fileManager.outPortDataWriteNotify *)

(** apx/file.py:70-75 [InputFile.write] *)
Definition input_write (f : file) (offset : Z) (data : bytes) (more_bit : bool)
  : file * Z * list fevent :=
  let '(f', retval) := file_write f offset data in
  if (0 <=? retval) && negb more_bit then
    if f_handled f' then (f', retval, [InNotify offset (len data)]) else (f', retval, [])
  else (f', retval, []).

(** apx/file.py:85-89 [OutputFile.write] *)
Definition output_write (f : file) (offset : Z) (data : bytes) : file * Z * list fevent :=
  let '(f', retval) := file_write f offset data in
  if (0 <=? retval) && f_managed f' && f_isOpen f' then (f', retval, [OutNotify offset (len data)])
  else (f', retval, []).

(** [file.write(offset, data)], dispatched on the class.  remotefile.File has no
    [write] method. *)
Definition write2 (f : file) (offset : Z) (data : bytes) : res (file * Z * list fevent) :=
  match f_kind f with
  | KRemote => Err AttributeError
  | KFile => let '(f', r) := file_write f offset data in Ok (f', r, [])
  | KInput => Ok (input_write f offset data false)
  | KOutput => Ok (output_write f offset data)
  end.

(** [file.write(offset, data, more_bit)]: only InputFile takes three arguments. *)
Definition write3 (f : file) (offset : Z) (data : bytes) (more_bit : bool)
  : res (file * Z * list fevent) :=
  match f_kind f with
  | KRemote => Err AttributeError
  | KFile | KOutput => Err TypeError
  | KInput => Ok (input_write f offset data more_bit)
  end.

(** File objects have identities; the heap gives each identity its object. *)
Definition heap := nat -> file.
Definition upd (H : heap) (i : nat) (f : file) : heap :=
  fun j => if Nat.eqb j i then f else H j.

(** ** The file map *)

(** apx/file_map.py:6-13 *)
Definition PORT_DATA_START : Z := 0x0.
Definition PORT_DATA_BOUNDARY : Z := 0x400.
Definition DEFINITION_START : Z := 0x4000000.
Definition DEFINITION_BOUNDARY : Z := 0x100000.
Definition USER_DATA_START : Z := 0x20000000.
Definition USER_DATA_END : Z := 0x3FFFFC00.
Definition USER_DATA_BOUNDARY : Z := 0x100000.

(** apx/file_map.py:28-30 *)
Record fmap := mk_fmap { m_keys : list Z; m_items : list nat }.
Definition empty_map : fmap := mk_fmap [] [].

(** The standard library's bisect_left and bisect_right (Lib/bisect.py): binary
    search in [lo, hi).  Fuel: the length of the list bounds the iterations. *)
Fixpoint bisect_left_loop (fuel : nat) (a : list Z) (x : Z) (lo hi : nat) : nat :=
  match fuel with
  | O => lo
  | S k =>
    if Nat.ltb lo hi then
      let mid := Nat.div2 (lo + hi) in
      if nth mid a 0 <? x then bisect_left_loop k a x (S mid) hi
      else bisect_left_loop k a x lo mid
    else lo
  end.
Definition bisect_left (a : list Z) (x : Z) : nat :=
  bisect_left_loop (S (length a)) a x 0 (length a).

Fixpoint bisect_right_loop (fuel : nat) (a : list Z) (x : Z) (lo hi : nat) : nat :=
  match fuel with
  | O => lo
  | S k =>
    if Nat.ltb lo hi then
      let mid := Nat.div2 (lo + hi) in
      if x <? nth mid a 0 then bisect_right_loop k a x lo mid
      else bisect_right_loop k a x (S mid) hi
    else lo
  end.
Definition bisect_right (a : list Z) (x : Z) : nat :=
  bisect_right_loop (S (length a)) a x 0 (length a).

(** [list.insert(i, x)] for 0 <= i <= len and [del l[i]] for i < len. *)
Definition insert_at {A} (i : nat) (x : A) (l : list A) : list A := firstn i l ++ x :: skipn i l.
Definition delete_at {A} (i : nat) (l : list A) : list A := firstn i l ++ skipn (S i) l.

(** [isinstance(file, apx.File)] *)
Definition is_apx_file (f : file) : bool :=
  match f_kind f with KRemote => false | _ => true end.

(** The backward search of apx/file_map.py:119-128, over the items up to index i,
    last first.  None: the loop ends without assigning placement_address.
    Items always have an address (insert asserts it). *)
Fixpoint placement_loop (H : heap) (rev_items : list nat) (start_address end_address boundary : Z)
  : res (option Z) :=
  match rev_items with
  | [] => Ok None
  | i :: r =>
    match f_address (H i) with
    | None => Err TypeError
    | Some oa =>
      if oa <? start_address then Ok (Some start_address)
      else if oa <? end_address then
        Ok (Some (Z.land (oa + f_length (H i) + boundary - 1) (Z.lnot (boundary - 1))))
      else placement_loop H r start_address end_address boundary
    end
  end.

(** apx/file_map.py:96-132 [assignFileAddress]: the address given to [file]. *)
Definition assignFileAddress (H : heap) (m : fmap) (f : file) (start_address end_address address_boundary : Z)
  : res Z :=
  if negb (start_address =? 0) && negb (Z.land start_address (start_address - 1) =? 0) then Err ValueError
  else if end_address <? start_address then Err ValueError
  else if negb (Z.land address_boundary (address_boundary - 1) =? 0) then Err ValueError
  else
    do placement <-
      (if len (m_keys m) =? 0 then Ok (Some start_address)
       else
         let i := bisect_left (m_keys m) end_address in
         let i := if Nat.leb (length (m_keys m)) i then (length (m_keys m) - 1)%nat else i in
         placement_loop H (rev (firstn (S i) (m_items m))) start_address end_address address_boundary);
    match placement with
    | None => Err UnboundLocalError
    | Some p => if p + f_length f <=? end_address then Ok p else Err ValueError
    end.

(** apx/file_map.py:81-94 [_assignFileAddressDefault] *)
Definition assignFileAddressDefault (H : heap) (m : fmap) (f : file) : res Z :=
  if ends_with (lit ".in") (f_name f) || ends_with (lit ".out") (f_name f) then
    assignFileAddress H m f PORT_DATA_START DEFINITION_START PORT_DATA_BOUNDARY
  else if ends_with (lit ".apx") (f_name f) then
    assignFileAddress H m f DEFINITION_START USER_DATA_START DEFINITION_BOUNDARY
  else
    assignFileAddress H m f USER_DATA_START USER_DATA_END USER_DATA_BOUNDARY.

(** apx/file_map.py:39-48 [insert] *)
Definition insert (H : heap) (m : fmap) (i : nat) : res (heap * fmap) :=
  let f := H i in
  if negb (is_apx_file f) then Err AssertionError
  else
    do k <- match f_address f with
            | Some a => Ok a
            | None => assignFileAddressDefault H m f
            end;
    let pos := bisect_left (m_keys m) k in
    Ok (upd H i (with_address f (Some k)),
        mk_fmap (insert_at pos k (m_keys m)) (insert_at pos i (m_items m))).

(** Position of an identity in a list ([list.index] with object identity). *)
Fixpoint pos_of (i : nat) (l : list nat) : option nat :=
  match l with
  | [] => None
  | x :: r => if Nat.eqb x i then Some O else option_map S (pos_of i r)
  end.

(** apx/file_map.py:32-37 [index].  Comparing None with a key is a TypeError, but
    no comparison happens in an empty map. *)
Definition index_of (H : heap) (m : fmap) (i : nat) : res nat :=
  match f_address (H i) with
  | None => if len (m_keys m) =? 0 then Err ValueError else Err TypeError
  | Some k =>
    let lo := bisect_left (m_keys m) k in
    let hi := bisect_right (m_keys m) k in
    match pos_of i (firstn (hi - lo) (skipn lo (m_items m))) with
    | Some p => Ok (p + lo)%nat
    | None => Err ValueError
    end
  end.

(** apx/file_map.py:51-56 [remove] *)
Definition remove (H : heap) (m : fmap) (i : nat) : res fmap :=
  if negb (is_apx_file (H i)) then Err AssertionError
  else
    do p <- index_of H m i;
    Ok (mk_fmap (delete_at p (m_keys m)) (delete_at p (m_items m))).

(** [address>=item.address and address < item.address+item.length] *)
Definition hit (f : file) (address : Z) : bool :=
  match f_address f with
  | Some a => (a <=? address) && (address <? a + f_length f)
  | None => false
  end.

(** apx/file_map.py:58-72 [findByAddress] *)
Definition findByAddress (H : heap) (m : fmap) (address : Z) : option nat :=
  if len (m_keys m) =? 0 then None
  else
    let i := bisect_left (m_keys m) address in
    let second :=
      if Nat.ltb 0 i then
        match nth_error (m_items m) (i - 1) with
        | Some j => if hit (H j) address then Some j else None
        | None => None
        end
      else None in
    match nth_error (m_items m) i with
    | Some j => if hit (H j) address then Some j else second
    | None => second
    end.

(** apx/file_map.py:74-79 [findByName]: [return None] is inside the loop. *)
Definition findByName (H : heap) (m : fmap) (name : str) : option nat :=
  match m_items m with
  | [] => None
  | i :: _ => if str_eqb (f_name (H i)) name then Some i else None
  end.
