(** Concurrent writers to one open, managed output file: OutputFile.write
    (/repo/apx/file.py:85-89), File.read/File.write (35-59) and
    FileManager.outPortDataWriteNotify (/repo/remotefile/__init__.py:391-396).
    The three actions of a write - store under the file's lock, read back under the
    lock, put into the queue - are atomic one by one, and other threads may run in
    between. *)
From Verif Require Import Py RmfModel FileModel ManagerModel.

(** What a thread does next. *)
Inductive pc :=
| PIdle                                (* before the next write *)
| PStored (offset length : Z)          (* stored; about to read back *)
| PRead (offset : Z) (content : bytes) (* about to put *).

Record thread := mk_thread { t_pc : pc; t_todo : list (Z * bytes) }.

(** The shared state: the file, the queue and the threads. *)
Record conc := mk_conc { c_file : file; c_queue : list qmsg; c_threads : nat -> thread }.

Definition set_thread (c : conc) (t : nat) (th : thread) : nat -> thread :=
  fun u => if Nat.eqb u t then th else c_threads c u.

(** Thread [t] makes one step; [a] is the file's address. *)
Definition cstep (a : Z) (c : conc) (t : nat) : conc :=
  let th := c_threads c t in
  match t_pc th with
  | PIdle =>
    match t_todo th with
    | [] => c
    | (off, d) :: r =>
      let '(f', retval) := file_write (c_file c) off d in
      mk_conc f' (c_queue c)
        (set_thread c t (mk_thread (if 0 <=? retval then PStored off (len d) else PIdle) r))
    end
  | PStored off n =>
    match file_read (c_file c) off n with
    | Some content => mk_conc (c_file c) (c_queue c) (set_thread c t (mk_thread (PRead off content) (t_todo th)))
    | None => mk_conc (c_file c) (c_queue c) (set_thread c t (mk_thread PIdle (t_todo th)))
    end
  | PRead off content =>
    mk_conc (c_file c) (c_queue c ++ [QWrite (a + off) content]) (set_thread c t (mk_thread PIdle (t_todo th)))
  end.

Definition crun (a : Z) (c : conc) (schedule : list nat) : conc := fold_left (cstep a) schedule c.
