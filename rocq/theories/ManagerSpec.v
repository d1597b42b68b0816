(** Specification vocabulary for the file manager. *)
From Verif Require Import Py RmfModel RmfSpec FileModel FileMapSpec ManagerModel.

(** Everything that can happen to a manager whose worker thread was started: calls
    by the application, calls by the socket thread, and one turn of the worker. *)
Inductive ev :=
| EAttach (i : nat) | ERequest (i : nat) | EWrite (i : nat) (off : Z) (d : bytes) | EStop
| EConnect (h : nat) | EMsg (msg : bytes)
| EWork.

Definition apistep (s : fm) (e : ev) : outcome :=
  match e with
  | EAttach i => attachLocalFile s i
  | ERequest i => requestRemoteFile s i
  | EWrite i off d => writeLocal s i off d
  | EStop => fine (put s QStop)
  | EConnect h => onConnected s h
  | EMsg msg => onMsgReceived s msg
  | EWork => fine s
  end.
Definition st_of (o : outcome) : fm := fst (fst o).
Definition events_of (o : outcome) : list (nat * fevent) := snd (fst o).
Definition exn_of (o : outcome) : option exn := snd o.

(** What a call added to the queue. *)
Definition added (s s' : fm) : list qmsg := skipn (length (fm_queue s)) (fm_queue s').

Definition ystep (y : sys) (e : ev) : sys * list qmsg :=
  match e with
  | EWork => (work y, [])
  | _ => let s' := st_of (apistep (y_fm y) e) in
         (mk_sys s' (y_wrk y) (y_sent y), added (y_fm y) s')
  end.

(** Final state and everything that was ever queued, in order. *)
Fixpoint yrun (y : sys) (evs : list ev) : sys * list qmsg :=
  match evs with
  | [] => (y, [])
  | e :: r => let '(y1, q1) := ystep y e in let '(y2, q2) := yrun y1 r in (y2, q1 ++ q2)
  end.

(** [k] turns of the worker. *)
Fixpoint turns (k : nat) (y : sys) : sys := match k with O => y | S k' => turns k' (work y) end.

(** A started manager on which nothing has happened yet. *)
Definition fresh (H : heap) (n : nat) : sys := mk_sys (init_fm H n) (WRun None) [].

(** What the peers must get for a list of queue entries: every encodable entry, in
    order, to the handler of the latest connection; nothing before a connection. *)
Fixpoint expected (t : option nat) (qs : list qmsg) : list (nat * bytes) :=
  match qs with
  | [] => []
  | QConnect h :: r => expected (Some h) r
  | q :: r =>
    match t, wire_of q with
    | Some h, Ok (Some b) => (h, b) :: expected t r
    | _, _ => expected t r
    end
  end.

(** ** Replicas *)

(** Applying a data message to a copy of a file at address [a]; messages that are
    not wholly inside the file are for somebody else. *)
Definition apply_write (a : Z) (rep : bytes) (w : Z * bytes) : bytes :=
  let '(x, d) := w in
  if (a <=? x) && (x + len d <=? a + len rep) then splice rep (x - a) (x - a + len d) d else rep.

(** The data messages among queue entries. *)
Definition data_of (q : qmsg) : list (Z * bytes) := match q with QWrite x d => [(x, d)] | _ => [] end.

Definition replay (a : Z) (rep : bytes) (qs : list qmsg) : bytes :=
  fold_left (apply_write a) (flat_map data_of qs) rep.

(** Roles of file objects: [L] files are offered by this program, [R] files are
    requested from the peer; [n] bounds the objects the program made. *)
Record roles (H0 : heap) (n : nat) (L R : nat -> Prop) : Prop := {
  ro_apart : forall j, L j -> R j -> False;
  ro_old : forall j, L j -> (j < n)%nat;
  ro_new : forall j, f_managed (H0 j) = false;
  ro_local : forall j, L j -> f_address (H0 j) = None /\ f_isOpen (H0 j) = false /\
                              f_length (H0 j) = len (f_data (H0 j)) /\ 0 < f_length (H0 j) }.

(** A program that keeps to the roles, attaches a file once, and writes to its
    local files only if they are output files. *)
Definition attaches (e : ev) : list nat := match e with EAttach j => [j] | _ => [] end.
Definition keeps_roles (H0 : heap) (L R : nat -> Prop) (evs : list ev) : Prop :=
  NoDup (flat_map attaches evs) /\
  Forall (fun e => match e with
                   | EAttach j => L j
                   | ERequest j => R j
                   | EWrite j _ _ => L j -> f_kind (H0 j) = KOutput
                   | _ => True
                   end) evs.

(** ** The peer's view *)

(** [b] is the announcement of a file with description [info]. *)
Definition announcement (info : finfo) (b : bytes) : Prop :=
  unpackHeader b = (4, Some 0x3FFFFC00, false) /\ unpackFileInfo (skipn 4 b) Little = Ok (Some info).

(** The data messages the peer sees in what was transmitted. *)
Definition data_msg (m : bytes) : list (Z * bytes) :=
  match unpackHeader m with
  | (k, Some a, _) => if a <? 0x3FFFFC00 then [(a, skipn (Z.to_nat k) m)] else []
  | (_, None, _) => []
  end.

Definition is_connect (e : ev) : Prop := exists h, e = EConnect h.
Definition is_msg (e : ev) : Prop := exists m, e = EMsg m.
