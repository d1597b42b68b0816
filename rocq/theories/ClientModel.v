(** The client of one node: model of /repo/apx/client.py.

    A client owns a file manager (with its worker thread), a node and the data of
    the node.  One node per client; [connect_tcp] is modelled as the start of the
    worker (59), the messages of the socket thread are events of their own
    (SocketModel cuts them out of the byte stream).  The listener is an object that
    accepts the two arguments of line 89 and does not raise; its calls are recorded.
    Not modelled: [stop] (79-82) beyond what ManagerModel says, and identifiers that
    are neither ports nor texts nor numbers ([port] is unbound then). *)
From Verif Require Import Py TypesModel TextModel SigModel AttrModel NodeModel ParserModel CompilerModel VmModel
  RmfModel FileModel ManagerModel NodeDataModel.

Record client := mk_client {
  c_world : world;
  c_sys : sys;                          (* self.fileManager *)
  c_node : option (node * ndata);       (* self.node, self.nodeData *)
  c_listener : bool;                    (* self.dataListener is set *)
  c_calls : list (nat * pyval);         (* its calls so far: port object, value *)
  c_hung : bool                         (* the socket thread waits for the lock for ever *)
}.

Definition with_fm (c : client) (s : fm) : client :=
  mk_client (c_world c) (mk_sys s (y_wrk (c_sys c)) (y_sent (c_sys c))) (c_node c)
    (c_listener c) (c_calls c) (c_hung c).
Definition with_ndata (c : client) (nd : node) (D : ndata) : client :=
  mk_client (c_world c) (c_sys c) (Some (nd, D)) (c_listener c) (c_calls c) (c_hung c).
Definition c_fm (c : client) : fm := y_fm (c_sys c).

(** No file objects yet. *)
Definition no_files : heap :=
  fun _ => mk_file KFile (mk_finfo [] 0 0 None 0 []) false false false [].

(** 19-26 [Client()] *)
Definition new_client (W : world) : client :=
  mk_client W (mk_sys (init_fm no_files 0) WNew []) None false [] false.

(** Calls into the file manager one after the other, up to the first exception. *)
Definition then_ (o : outcome) (f : fm -> outcome) : outcome :=
  match o with
  | (s, l, None) => let '(s', l', e) := f s in (s', l ++ l', e)
  | x => x
  end.

(** 28-44 [attach_node] *)
Definition attach_node (fuel : nat) (c : client) (nd : node) : res client :=
  let s := c_fm c in
  do '(W, H, n, D) <- node_data fuel (c_world c) nd (fm_heap s) (fm_next s);
  let s := mk_fm H n (fm_local s) (fm_remote s) (fm_requested s) (fm_queue s) in
  let o := match d_in D with Some i => requestRemoteFile s i | None => fine s end in
  let o := then_ o (fun s => match d_out D with Some i => attachLocalFile s i | None => fine s end) in
  let o := then_ o (fun s => attachLocalFile s (d_def D)) in
  match o with
  | (s, _, None) =>
    Ok (mk_client W (mk_sys s (y_wrk (c_sys c)) (y_sent (c_sys c))) (Some (nd, with_client D true))
          (c_listener c) (c_calls c) (c_hung c))
  | (_, _, Some e) => Err e
  end.

(** 46-53 [create_node] *)
Definition create_node (fuel : nat) (c : client) (text : str) : res client :=
  do '(W, nd) <- loads (c_world c) text;
  attach_node fuel (mk_client W (c_sys c) (c_node c) (c_listener c) (c_calls c) (c_hung c)) nd.

(** How an operation names its port. *)
Inductive ident := IdPort (o : nat) | IdName (s : str) | IdNum (i : Z).

(** 71-77 [find] *)
Definition client_find (c : client) (name : str) : option found :=
  match c_node c with Some (nd, _) => node_find (c_world c) nd (Some name) | None => None end.

(** [l[port.id] is port], with an id that may be missing *)
Definition is_own (W : world) (l : list nat) (o : nat) : res bool :=
  match pt_id (w_ports W o) with
  | None => Err TypeError
  | Some i => do t <- index l i; Ok (Nat.eqb t o)
  end.

(** node_data.py 133-134, 142-143, 160-161 *)
Definition need_id (i : option Z) : res Z := match i with Some i => Ok i | None => Err ValueError end.

(** 93-112: whether the port to read is a require port, and its id.  The list
    access of line 104 never gives None, so 105-108 do nothing. *)
Definition read_target (W : world) (nd : node) (id : ident) : res (bool * Z) :=
  do '(r, i) <-
    match id with
    | IdPort o =>
      let p := w_ports W o in
      do own <- is_own W (if pt_provide p then n_provide nd else n_require nd) o;
      if own then Ok (negb (pt_provide p), pt_id p) else Err ValueError
    | IdName s =>
      match node_find W nd (Some s) with
      | Some (FPort o) => Ok (negb (pt_provide (w_ports W o)), pt_id (w_ports W o))
      | Some (FType o) => Ok (false, dt_id (w_types W o))
      | None => Err AttributeError
      end
    | IdNum k =>
      do o <- index (n_require nd) k;
      Ok (negb (pt_provide (w_ports W o)), pt_id (w_ports W o))
    end;
  do i <- need_id i;
  Ok (r, i).

(** 91-112 [read]; None without a node. *)
Definition client_read (c : client) (id : ident) : client * pres (option oval) :=
  match c_node c with
  | None => (c, Done None)
  | Some (nd, D) =>
    match read_target (c_world c) nd id with
    | Err e => (c, Raised e)
    | Ok (true, i) =>
      let '(D', r) := read_require_port (c_world c) (fm_heap (c_fm c)) D i in
      (with_ndata c nd D',
       match r with Done v => Done (Some (OVal v)) | Raised e => Raised e | Blocked => Blocked end)
    | Ok (false, i) =>
      (c, match read_provide_port (c_world c) D i with
          | Done v => Done (Some v) | Raised e => Raised e | Blocked => Blocked end)
    end
  end.

(** 122-138: the id of the port to write.  The messages of 129, 133 and 137 use the
    missing attribute [self.port]. *)
Definition write_target (W : world) (nd : node) (id : ident) : res Z :=
  do i <-
    match id with
    | IdPort o =>
      do own <- is_own W (n_provide nd) o;
      if own then Ok (pt_id (w_ports W o))
      else if pt_provide (w_ports W o) then Err AttributeError else Err ValueError
    | IdName s =>
      match node_find W nd (Some s) with
      | Some (FPort o) => if pt_provide (w_ports W o) then Ok (pt_id (w_ports W o)) else Err AttributeError
      | _ => Err AttributeError
      end
    | IdNum k => do o <- index (n_provide nd) k; Ok (pt_id (w_ports W o))
    end;
  need_id i.

(** 120-138 [write]: the node data, then the call of the output file into the
    manager (file.py 85-89). *)
Definition client_write (c : client) (id : ident) (v : pyval) : client * pres (option oval) :=
  match c_node c with
  | None => (c, Done None)
  | Some (nd, D) =>
    match write_target (c_world c) nd id with
    | Err e => (c, Raised e)
    | Ok i =>
      let '(H, D', evs, r) := write_provide_port (c_world c) (fm_heap (c_fm c)) D i v in
      let s := with_heap (c_fm c) H in
      let c' := with_ndata c nd D' in
      match r, evs with
      | Done _, [(k, OutNotify off n)] =>
        let '(s', _, e) := outPortDataWriteNotify s k off n in
        (with_fm c' s', match e with None => Done None | Some e => Raised e end)
      | Done _, _ => (with_fm c' s, Done None)
      | Raised e, _ => (with_fm c' s, Raised e)
      | Blocked, _ => (with_fm c' s, Blocked)
      end
    end
  end.

(** A message from the socket: the manager's part, then what the input file tells
    the node data (file.py 70-75) and these the listener (87-89). *)
Definition client_msg (c : client) (msg : bytes) : client * pres (option oval) :=
  if c_hung c then (c, Blocked)
  else
    let '(s, evs, e) := onMsgReceived (c_fm c) msg in
    let c := with_fm c s in
    match e, evs, c_node c with
    | Some e, _, _ => (c, Raised e)
    | None, [(k, InNotify off n)], Some (nd, D) =>
      let '(D', calls, r) := in_port_notify (c_world c) (fm_heap s) D off n in
      (mk_client (c_world c) (c_sys c) (Some (nd, D')) (c_listener c)
         (c_calls c ++ (if c_listener c then calls else []))
         (match r with Blocked => true | _ => false end),
       match r with Done _ => Done None | Raised e => Raised e | Blocked => Blocked end)
    | None, _, _ => (c, Done None)
    end.

(** What can happen to a client. *)
Inductive cev :=
| CWrite (id : ident) (v : pyval)
| CRead (id : ident)
| CListen (on : bool)            (* 84-85 [set_listener] *)
| CStart                         (* 59, from [connect_tcp] *)
| CConnect (h : nat)             (* the socket thread: onConnected *)
| CMsg (msg : bytes)             (* the socket thread: onMsgReceived *)
| CWork.                         (* one turn of the worker of the manager *)

Definition client_step (c : client) (e : cev) : client * pres (option oval) :=
  match e with
  | CWrite id v => client_write c id v
  | CRead id => client_read c id
  | CListen b =>
    (mk_client (c_world c) (c_sys c) (c_node c) b (c_calls c) (c_hung c), Done None)
  | CStart =>
    let '(y, e) := start (c_sys c) in
    (mk_client (c_world c) y (c_node c) (c_listener c) (c_calls c) (c_hung c),
     match e with None => Done None | Some e => Raised e end)
  | CConnect h =>
    let '(s, _, e) := onConnected (c_fm c) h in
    (with_fm c s, match e with None => Done None | Some e => Raised e end)
  | CMsg msg => client_msg c msg
  | CWork =>
    (mk_client (c_world c) (work (c_sys c)) (c_node c) (c_listener c) (c_calls c) (c_hung c), Done None)
  end.

Fixpoint client_run (c : client) (evs : list cev) : client * list (pres (option oval)) :=
  match evs with
  | [] => (c, [])
  | e :: r =>
    let '(c1, a) := client_step c e in
    let '(c2, l) := client_run c1 r in (c2, a :: l)
  end.
