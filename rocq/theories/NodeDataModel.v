(** The data of a node: model of /repo/apx/node_data.py.

    Ports and types live in a [world], files in a file heap.  Not modelled:
    [NodeData] of a text (line 46 uses the text's missing attribute [name], so it
    always raises). *)
From Verif Require Import Py TypesModel TextModel SigModel AttrModel NodeModel CompilerModel VmModel
  RmfModel FileModel.

(** node_data.py 7 [PortMapRange] *)
Record portmap := mk_portmap { pm_offset : Z; pm_len : Z; pm_port : nat }.

(** Entries of [outPortValues], 200-205: the InitValue object or 0 at first, later
    whatever was written. *)
Inductive oval := OInit (v : ivalue) | OVal (v : pyval).

(** What the loops 53-68 and 74-89 collect for one side of the node (the byte map
    is kept for require ports only; the values for provide ports only). *)
Record side := mk_side {
  s_offset : Z;
  s_init : bytes;
  s_map : list portmap;
  s_bytemap : list nat;
  s_progs : list bytes;
  s_values : list oval
}.
Definition empty_side : side := mk_side 0 [] [] [] [] [].

Definition init_of (p : port) : ivalue :=
  match pt_attr p with Some a => pa_init a | None => IVNone end.

(** 187-198 [createPackProg] and [createUnpackProg] after the compiler; the error
    message for a missing id cannot be formatted. *)
Definition check_sync (progs : list bytes) (id : option Z) : res unit :=
  match id with
  | Some i => if len progs =? i then Ok tt else Err RuntimeError
  | None => Err TypeError
  end.

(** One turn of the loops 56-66 and 77-87. *)
Definition add_to_side (fuel : nat) (d : dir) (types : list nat) (W : world) (s : side) (o : nat)
    : res (world * side) :=
  let p := w_ports W o in
  do _ <- match d, pt_id p with Unpack, None => Err AssertionError | _, _ => Ok tt end;
  do '(e, target) <- resolve_sig (w_types W) types (pt_elem p);
  let W := set_port W o (with_pelem p e) in
  do n <- packLen fuel (w_types W) e;
  do prog <- compileProg fuel d (w_types W) target;
  do _ <- check_sync (s_progs s) (pt_id p);
  do init <- match init_of p with
             | IVNone => mk_zeros n
             | v => createInitData fuel (w_types W) target v
             end;
  Ok (W, mk_side (s_offset s + n) (s_init s ++ init)
           (s_map s ++ [mk_portmap (s_offset s) n o])
           (s_bytemap s ++ repeat o (Z.to_nat n))
           (s_progs s ++ [prog])
           (s_values s ++ [match init_of p with IVNone => OVal (VInt 0) | v => OInit v end])).

Fixpoint add_all (fuel : nat) (d : dir) (types : list nat) (W : world) (s : side) (l : list nat)
    : res (world * side) :=
  match l with
  | [] => Ok (W, s)
  | o :: r => do '(W, s) <- add_to_side fuel d types W s o; add_all fuel d types W s r
  end.

(** 53-72 [_createInPortDataFile] and 74-93 [_createOutPortDataFile], with the test
    for an empty port list of 44-45. *)
Definition create_side (fuel : nat) (d : dir) (W : world) (nd : node) (ports : list nat)
    : res (world * side * option file) :=
  match ports with
  | [] => Ok (W, empty_side, None)
  | _ :: _ =>
    do '(W, s) <- add_all fuel d (n_types nd) W empty_side ports;
    if negb (len (s_init s) =? s_offset s) then Err AssertionError
    else if 0 <? s_offset s then
      match n_name nd with
      | None => Err TypeError
      | Some name =>
        do f <- new_file (match d with Unpack => KInput | Pack => KOutput end)
                  (name ++ (match d with Unpack => lit ".in" | Pack => lit ".out" end))
                  (s_offset s) (Some (s_init s));
        Ok (W, s, Some f)
      end
    else Ok (W, s, None)
  end.

(** 96-99 [_createDefinitionFile] *)
Definition create_definition (name : option str) (text : str) : res file :=
  match name with
  | None => Err TypeError
  | Some name =>
    do f <- new_file KOutput (name ++ lit ".apx") (len text) None;
    do b <- encode_ascii text;
    do '(f, _, _) <- write2 f 0 b;
    Ok f
  end.

(** The NodeData object; files by identity. *)
Record ndata := mk_ndata {
  d_in : option nat;
  d_out : option nat;
  d_def : nat;
  d_inside : side;
  d_outside : side;
  d_locked : bool;
  d_client : bool
}.
Definition with_lock (D : ndata) (b : bool) : ndata :=
  mk_ndata (d_in D) (d_out D) (d_def D) (d_inside D) (d_outside D) b (d_client D).
Definition with_client (D : ndata) (b : bool) : ndata :=
  mk_ndata (d_in D) (d_out D) (d_def D) (d_inside D) (d_outside D) (d_locked D) b.
Definition with_values (D : ndata) (l : list oval) : ndata :=
  let s := d_outside D in
  mk_ndata (d_in D) (d_out D) (d_def D) (d_inside D)
    (mk_side (s_offset s) (s_init s) (s_map s) (s_bytemap s) (s_progs s) l) (d_locked D) (d_client D).

(** File objects get the identities [k], [k + 1], [k + 2]. *)
Definition new_file_id (F : heap) (k : nat) (f : option file) : heap * nat * option nat :=
  match f with
  | Some f => (upd F k f, S k, Some k)
  | None => (F, k, None)
  end.

(** 23-51 [NodeData.__init__] of a node. *)
Definition node_data (fuel : nat) (W : world) (nd : node) (F : heap) (k : nat)
    : res (world * heap * nat * ndata) :=
  do text <- context_dumps false W [nd];
  do '(W, ins, fin) <- create_side fuel Unpack W nd (n_require nd);
  do '(W, outs, fout) <- create_side fuel Pack W nd (n_provide nd);
  do fdef <- create_definition (n_name nd) text;
  let '(F, k, i) := new_file_id F k (option_map (fun f => with_handled f true) fin) in
  let '(F, k, o) := new_file_id F k fout in
  Ok (W, upd F k fdef, S k, mk_ndata i o k ins outs false false).

(** Outcome of an operation that takes the lock: [Blocked] waits forever for a lock
    nobody will release. *)
Inductive pres (A : Type) := Done (a : A) | Raised (e : exn) | Blocked.
Arguments Done {A} a.
Arguments Raised {A} e.
Arguments Blocked {A}.

(** [l[i] = x] for 0 <= i < len *)
Definition set_nth {A} (l : list A) (i : Z) (x : A) : list A :=
  firstn (Z.to_nat i) l ++ x :: skipn (Z.to_nat (i + 1)) l.

(** 135-136, 144-145, 162-163: the map entry of a port id. *)
Definition port_entry (W : world) (m : list portmap) (port_id : Z) : res portmap :=
  do e <- index m port_id;
  match pt_id (w_ports W (pm_port e)) with
  | Some i => if i =? port_id then Ok e else Err AssertionError
  | None => Err AssertionError
  end.

(** 130-137 [write_provide_port] with 148-155 [_packProvidePort].  The lock is not
    released when the machine raises. *)
Definition write_provide_port (W : world) (F : heap) (D : ndata) (port_id : Z) (v : pyval)
    : heap * ndata * list (nat * fevent) * pres unit :=
  match port_entry W (s_map (d_outside D)) port_id with
  | Err e => (F, D, [], Raised e)
  | Ok m =>
    match index (s_progs (d_outside D)) port_id, mk_zeros (pm_len m) with
    | Err e, _ | _, Err e => (F, D, [], Raised e)
    | Ok prog, Ok data =>
      if d_locked D then (F, D, [], Blocked)
      else
        match exec_pack_prog prog data 0 v with
        | Err e => (F, with_lock D true, [], Raised e)
        | Ok data =>
          let D := with_values D (set_nth (s_values (d_outside D)) port_id (OVal v)) in
          match d_out D with
          | None => (F, D, [], Raised AttributeError)
          | Some i =>
            match write2 (F i) (pm_offset m) data with
            | Err e => (F, D, [], Raised e)
            | Ok (f, _, ev) => (upd F i f, D, map (fun e => (i, e)) ev, Done tt)
            end
          end
        end
    end
  end.

(** 139-146 [read_provide_port] *)
Definition read_provide_port (W : world) (D : ndata) (port_id : Z) : pres oval :=
  match (do _ <- port_entry W (s_map (d_outside D)) port_id; index (s_values (d_outside D)) port_id) with
  | Ok v => Done v
  | Err e => Raised e
  end.

(** 166-175 [_unpackRequirePort]; again the lock stays taken when the machine
    raises. *)
Definition unpack_require (F : heap) (D : ndata) (port_id off n : Z) : ndata * pres pyval :=
  match index (s_progs (d_inside D)) port_id with
  | Err e => (D, Raised e)
  | Ok prog =>
    match d_in D with
    | None => (D, Raised AttributeError)
    | Some i =>
      match file_read (F i) off n with
      | None => (D, Raised RuntimeError)
      | Some data =>
        if d_locked D then (D, Blocked)
        else
          match exec_unpack_prog prog data 0 with
          | Err e => (with_lock D true, Raised e)
          | Ok v => (D, Done v)
          end
      end
    end
  end.

(** 157-164 [read_require_port] *)
Definition read_require_port (W : world) (F : heap) (D : ndata) (port_id : Z) : ndata * pres pyval :=
  match port_entry W (s_map (d_inside D)) port_id with
  | Err e => (D, Raised e)
  | Ok m => unpack_require F D port_id (pm_offset m) (pm_len m)
  end.

(** 110-127 [byte_to_port].  The generator checks the range when it is first asked;
    each turn advances, [fuel] bounds the turns. *)
Fixpoint byte_loop (fuel : nat) (W : world) (s : side) (data_offset end_offset : Z)
    : res (list portmap) :=
  match fuel with
  | O => Err RecursionError
  | S k =>
    if data_offset <? end_offset then
      do o <- index (s_bytemap s) data_offset;
      do m <- match pt_id (w_ports W o) with
              | Some i => index (s_map s) i
              | None => Err TypeError
              end;
      if negb (Nat.eqb (pm_port m) o) then Err AssertionError
      else do r <- byte_loop k W s (pm_offset m + pm_len m) end_offset; Ok (m :: r)
    else Ok []
  end.
Definition byte_to_port (W : world) (D : ndata) (start_offset data_len : Z) : res (list portmap) :=
  let s := d_inside D in
  let file_len := len (s_bytemap s) in
  let end_offset := start_offset + data_len in
  if file_len <? start_offset then Err ValueError
  else if file_len <? end_offset then Err ValueError
  else byte_loop (S (S (length (s_bytemap s)))) W s start_offset end_offset.

(** 101-108 [inPortDataWriteNotify]: the calls made to the client, in order.  What
    the client does with them is not modelled.  The generator is run to its end
    first: its errors (none for nodes built by [node_data]) come before the calls. *)
Fixpoint notify_loop (W : world) (F : heap) (D : ndata) (l : list portmap)
    : ndata * list (nat * pyval) * pres unit :=
  match l with
  | [] => (D, [], Done tt)
  | m :: r =>
    match pt_id (w_ports W (pm_port m)) with
    | None => (D, [], Raised TypeError)
    | Some i =>
      match unpack_require F D i (pm_offset m) (pm_len m) with
      | (D, Done v) =>
        let '(D, calls, out) := notify_loop W F D r in (D, (pm_port m, v) :: calls, out)
      | (D, Raised e) => (D, [], Raised e)
      | (D, Blocked) => (D, [], Blocked)
      end
    end
  end.
Definition in_port_notify (W : world) (F : heap) (D : ndata) (off n : Z)
    : ndata * list (nat * pyval) * pres unit :=
  if d_client D then
    match byte_to_port W D off n with
    | Err e => (D, [], Raised e)
    | Ok l => notify_loop W F D l
    end
  else (D, [], Done tt).
