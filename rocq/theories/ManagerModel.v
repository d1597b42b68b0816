(** Model of the RemoteFile file manager, /repo/remotefile/__init__.py:240-396, used
    through /repo/apx/file_manager.py:4-20. *)
From Verif Require Import Py RmfModel FileModel.

(** Entries of [msgQueue] (tags of remotefile/__init__.py:25-29).  [QStop] is the
    special message None.  A transmit handler is named by a number. *)
Inductive qmsg :=
| QConnect (transmitHandler : nat)
| QFileInfo (fileInfo : bytes)
| QWrite (address : Z) (data : bytes)
| QFileOpen (address : Z)
| QStop.

(** [self.byteOrder], line 252. *)
Definition byteOrder : endian := Little.

(** The manager's data: file objects, both maps, [requestedFiles] (insertion-ordered
    dictionary name -> file), the queue, and the next unused object identity. *)
Record fm := mk_fm {
  fm_heap : heap;
  fm_next : nat;
  fm_local : fmap;
  fm_remote : fmap;
  fm_requested : list (str * nat);
  fm_queue : list qmsg }.

Definition with_heap (s : fm) (H : heap) : fm :=
  mk_fm H (fm_next s) (fm_local s) (fm_remote s) (fm_requested s) (fm_queue s).
Definition with_local (s : fm) (H : heap) (m : fmap) : fm :=
  mk_fm H (fm_next s) m (fm_remote s) (fm_requested s) (fm_queue s).
Definition with_remote (s : fm) (H : heap) (m : fmap) : fm :=
  mk_fm H (fm_next s) (fm_local s) m (fm_requested s) (fm_queue s).
Definition with_requested (s : fm) (r : list (str * nat)) : fm :=
  mk_fm (fm_heap s) (fm_next s) (fm_local s) (fm_remote s) r (fm_queue s).
Definition put (s : fm) (q : qmsg) : fm :=
  mk_fm (fm_heap s) (fm_next s) (fm_local s) (fm_remote s) (fm_requested s) (fm_queue s ++ [q]).

(** remotefile/__init__.py:246-252; [H] holds the objects that exist already, all
    with identities below [n]. *)
Definition init_fm (H : heap) (n : nat) : fm := mk_fm H n empty_map empty_map [] [].

(** Dictionaries with text keys. *)
Fixpoint lookup {A} (k : str) (d : list (str * A)) : option A :=
  match d with
  | [] => None
  | (k', v) :: r => if str_eqb k' k then Some v else lookup k r
  end.
Fixpoint dset {A} (k : str) (v : A) (d : list (str * A)) : list (str * A) :=
  match d with
  | [] => [(k, v)]
  | (k', v') :: r => if str_eqb k' k then (k', v) :: r else (k', v') :: dset k v r
  end.
Fixpoint ddel {A} (k : str) (d : list (str * A)) : list (str * A) :=
  match d with
  | [] => []
  | (k', v') :: r => if str_eqb k' k then r else (k', v') :: ddel k r
  end.

(** Outcome of a manager call: state (kept also when an exception leaves it half
    way), the notifications to node data handlers, the exception. *)
Definition outcome := (fm * list (nat * fevent) * option exn)%type.
Definition fine (s : fm) : outcome := (s, [], None).
Definition fail (s : fm) (e : exn) : outcome := (s, [], Some e).

(** remotefile/__init__.py:312-314 [attachLocalFile] *)
Definition attachLocalFile (s : fm) (i : nat) : outcome :=
  match insert (fm_heap s) (fm_local s) i with
  | Err e => fail s e
  | Ok (H, m) => fine (with_local s (upd H i (with_managed (H i) true)) m)
  end.

(** remotefile/__init__.py:316-317 [requestRemoteFile] *)
Definition requestRemoteFile (s : fm) (i : nat) : outcome :=
  fine (with_requested s (dset (f_name (fm_heap s i)) i (fm_requested s))).

(** remotefile/__init__.py:330-337 [onConnected]: the loop over the local files. *)
Fixpoint announce (s : fm) (items : list nat) : outcome :=
  match items with
  | [] => fine s
  | i :: r =>
    match packFileInfo (f_info (fm_heap s i)) Little with
    | Err e => fail s e
    | Ok b => announce (put s (QFileInfo b)) r
    end
  end.
Definition onConnected (s : fm) (transmitHandler : nat) : outcome :=
  announce (put s (QConnect transmitHandler)) (m_items (fm_local s)).

(** remotefile/__init__.py:344-364: a FILE_INFO command. *)
Definition processFileInfo (s : fm) (data : bytes) : outcome :=
  match unpackFileInfo data byteOrder with
  | Err e => fail s e
  | Ok None => fail s AttributeError
  | Ok (Some info) =>
    match lookup (fi_name info) (fm_requested s) with
    | Some i =>
      let f := fm_heap s i in
      if f_length f =? fi_length info then
        let s1 := with_requested s (ddel (f_name f) (fm_requested s)) in
        let f1 := with_open (with_info f
          (mk_finfo (f_name f) (f_length f) (fi_fileType info) (fi_address info)
             (fi_digestType info) (fi_digestData info))) true in
        let s2 := with_heap s1 (upd (fm_heap s1) i f1) in
        match insert (fm_heap s2) (fm_remote s2) i with
        | Err e => fail s2 e
        | Ok (H, m) =>
          let s3 := with_remote s2 H m in
          match fi_address info with
          | Some a => fine (put s3 (QFileOpen a))
          | None => fail s3 TypeError (* unpackFileInfo always gives an address *)
          end
        end
      else fail s NameError (* line 362: [requstedFile] *)
    | None =>
      let i := fm_next s in
      let f := mk_file KRemote info false false false [] in
      match insert (upd (fm_heap s) i f) (fm_remote s) i with
      | Err e => fail s e
      | Ok (H, m) => fine (mk_fm H (S i) (fm_local s) m (fm_requested s) (fm_queue s))
      end
    end
  end.

(** remotefile/__init__.py:365-374: a FILE_OPEN command. *)
Definition processFileOpen (s : fm) (data : bytes) : outcome :=
  match unpackFileOpen data byteOrder with
  | Err e => fail s e
  | Ok address =>
    match findByAddress (fm_heap s) (fm_local s) address with
    | None => fine s
    | Some i =>
      let f := with_open (fm_heap s i) true in
      let s1 := with_heap s (upd (fm_heap s) i f) in
      match file_read f 0 (f_length f), f_address f with
      | Some content, Some a => fine (put s1 (QWrite a content))
      | _, _ => fine s1
      end
    end
  end.

(** remotefile/__init__.py:375-380: a FILE_CLOSE command. *)
Definition processFileClose (s : fm) (data : bytes) : outcome :=
  match unpackFileClose data byteOrder with
  | Err e => fail s e
  | Ok address =>
    match findByAddress (fm_heap s) (fm_local s) address with
    | None => fine s
    | Some i => fine (with_heap s (upd (fm_heap s) i (with_open (fm_heap s i) false)))
    end
  end.

(** remotefile/__init__.py:339-382 [_processCmd] *)
Definition processCmd (s : fm) (data : bytes) : outcome :=
  if 4 <=? len data then
    let cmd := unpack_uint byteOrder (slice data 0 4) in
    if cmd =? RMF_CMD_FILE_INFO then processFileInfo s data
    else if cmd =? RMF_CMD_FILE_OPEN then processFileOpen s data
    else if cmd =? RMF_CMD_FILE_CLOSE then processFileClose s data
    else fine s
  else fine s.

(** remotefile/__init__.py:384-389 [_processFileWrite].  Only InputFile.write can
    notify here, so there is never a call back into the manager. *)
Definition processFileWrite (s : fm) (address : Z) (more_bit : bool) (data : bytes) : outcome :=
  match findByAddress (fm_heap s) (fm_remote s) address with
  | None => fine s
  | Some i =>
    let f := fm_heap s i in
    match f_isOpen f, f_address f with
    | true, Some a =>
      let offset := address - a in
      if (0 <=? offset) && (offset + len data <=? f_length f) then
        match write3 f offset data more_bit with
        | Err e => fail s e
        | Ok (f', _, ev) => (with_heap s (upd (fm_heap s) i f'), map (fun e => (i, e)) ev, None)
        end
      else fine s
    | _, _ => fine s
    end
  end.

(** remotefile/__init__.py:320-328 [onMsgReceived] *)
Definition onMsgReceived (s : fm) (msg : bytes) : outcome :=
  let '(bytes_parsed, address, more_bit) := unpackHeader msg in
  if 0 <? bytes_parsed then
    match address with
    | None => fail s TypeError
    | Some address =>
      let rest := slice_from msg bytes_parsed in
      if address =? RMF_CMD_START_ADDR then processCmd s rest
      else if address <? RMF_CMD_START_ADDR then processFileWrite s address more_bit rest
      else fail s ValueError
    end
  else fine s.

(** remotefile/__init__.py:391-396 [outPortDataWriteNotify] *)
Definition outPortDataWriteNotify (s : fm) (i : nat) (offset length : Z) : outcome :=
  match f_address (fm_heap s i) with
  | None => fail s AssertionError
  | Some a =>
    match file_read (fm_heap s i) offset length with
    | Some content => fine (put s (QWrite (a + offset) content))
    | None => fine s
    end
  end.

(** A local [file.write(offset, data)] together with the call it makes into the
    manager (OutputFile.write, apx/file.py:85-89). *)
Definition writeLocal (s : fm) (i : nat) (offset : Z) (data : bytes) : outcome :=
  match write2 (fm_heap s i) offset data with
  | Err e => fail s e
  | Ok (f', _, ev) =>
    let s1 := with_heap s (upd (fm_heap s) i f') in
    match ev with
    | [OutNotify o n] => outPortDataWriteNotify s1 i o n
    | [InNotify o n] => (s1, [(i, InNotify o n)], None)
    | _ => fine s1
    end
  end.

(** ** The worker thread *)

Inductive wrk :=
| WNew                         (* created, not started *)
| WRun (transmit : option nat) (* running; its [transmitHandler] *)
| WEnded                       (* got None *)
| WDied (e : exn).             (* an exception left the loop *)

(** What the worker transmits for one queue entry, lines 269-283. *)
Definition wire_of (q : qmsg) : res (option bytes) :=
  match q with
  | QConnect _ | QStop => Ok None
  | QFileInfo info => do h <- packHeader RMF_CMD_START_ADDR false; Ok (Some (h ++ info))
  | QWrite address data => do h <- packHeader address false; Ok (Some (h ++ data))
  | QFileOpen address =>
    do data <- packFileOpen address Little;
    do h <- packHeader RMF_CMD_START_ADDR false; Ok (Some (h ++ data))
  end.

(** One turn of the loop, lines 262-285: new worker state and what was sent to
    which transmit handler.  [send] itself is taken not to raise. *)
Definition work1 (w : wrk) (q : qmsg) : wrk * list (nat * bytes) :=
  match w with
  | WRun t =>
    match q with
    | QStop => (WEnded, [])
    | QConnect h => (WRun (Some h), [])
    | _ =>
      match wire_of q with
      | Err e => (WDied e, [])
      | Ok None => (w, [])
      | Ok (Some b) => match t with Some h => (w, [(h, b)]) | None => (w, []) end
      end
    end
  | _ => (w, [])
  end.

(** The manager with its thread and everything transmitted so far. *)
Record sys := mk_sys { y_fm : fm; y_wrk : wrk; y_sent : list (nat * bytes) }.

(** The worker takes one entry from the queue; it blocks on an empty queue. *)
Definition work (y : sys) : sys :=
  match y_wrk y, fm_queue (y_fm y) with
  | WRun t, q :: r =>
    let '(w', out) := work1 (WRun t) q in
    let s := y_fm y in
    mk_sys (mk_fm (fm_heap s) (fm_next s) (fm_local s) (fm_remote s) (fm_requested s) r)
      w' (y_sent y ++ out)
  | _, _ => y
  end.

(** remotefile/__init__.py:297-299 [start]: a thread can be started once; after
    [stop] the worker is None. *)
Definition start (y : sys) : sys * option exn :=
  match y_wrk y with
  | WNew => (mk_sys (y_fm y) (WRun None) (y_sent y), None)
  | WEnded => (y, Some AttributeError)
  | _ => (y, Some RuntimeError)
  end.
