(** The command line tools: model of the scripts in /repo/util.

    A tool gets its parsed arguments and the disk; it returns the disk it leaves and
    what it prints, or the exception that ends it.  The standard input is a text
    (None: nothing is there to read). *)
From Verif Require Import Py TypesModel TextModel SigModel AttrModel NodeModel ParserModel NodeDataModel FilesModel.

Inductive outcome :=
| Printed (s : str)
| Usage              (* prints the help text and exits with code 1 *)
| Failed (e : exn).

Definition finish_with (d : disk) (r : res str) : disk * outcome :=
  (d, match r with Ok s => Printed s | Err e => Failed e end).

(** [print(text)] *)
Definition print (s : str) : str := s ++ [NEWLINE].

(** util/apx_size.py 7-11: the lengths of the data of a node, in bytes. *)
Fixpoint total_len (fuel : nat) (H : theap) (W : world) (l : list nat) : res Z :=
  match l with
  | [] => Ok 0
  | o :: r => do n <- packLen fuel H (pt_elem (w_ports W o)); do m <- total_len fuel H W r; Ok (n + m)
  end.
Definition apx_size (fuel : nat) (d : disk) (path : str) : disk * outcome :=
  finish_with d (
    do '(W, nd) <- parse_file d empty_world path;
    do i <- total_len fuel (w_types W) W (n_require nd);
    do o <- total_len fuel (w_types W) W (n_provide nd);
    Ok (print (lit "in:" ++ [9] ++ dec_str i ++ [9] ++ lit "out:" ++ [9] ++ dec_str o))).

(** The arguments of apx_finalize.py, apx_normalize.py and apx_mirror.py. *)
Record args := mk_args {
  a_inputs : list str;
  a_output : option str;
  a_pipe : bool;
  a_name : option str;       (* apx_mirror only *)
  a_normalize : bool         (* apx_mirror only *)
}.
(** apx_finalize.py 16, apx_normalize.py 15, apx_mirror.py 13 *)
Definition output_of (a : args) : res str :=
  match a_output a with Some p => Ok p | None => index (a_inputs a) 0 end.
(** The node that is read from the standard input or from the first file
    (apx_finalize.py 18-19 and 22, apx_mirror.py 15-18). *)
Definition input_node (a : args) (stdin : str) (d : disk) : res (world * node) :=
  if a_pipe a then load empty_world (universal stdin)
  else do p <- index (a_inputs a) 0; parse_file d empty_world p.
(** The node is printed or saved (apx_finalize.py 20 and 23, apx_mirror.py 25-28). *)
Definition put_node (a : args) (normalized : bool) (out : str) (d : disk) (W : world) (nd : node) : disk * outcome :=
  if a_pipe a then
    finish_with d (do '(_, _, t) <- node_dumps normalized W nd; Ok (print t))
  else
    let '(d, r) := save_apx normalized (Some out) d W nd in
    finish_with d (do _ <- r; Ok []).

(** apx_finalize.py 12-23 (normalized = False) and apx_normalize.py 12-22 (normalized = True):
    both have the same text otherwise. *)
Definition rewrite_tool (normalized : bool) (a : args) (stdin : str) (d : disk) : disk * outcome :=
  if (len (a_inputs a) =? 0) && negb (a_pipe a) then (d, Usage)
  else
    match (do out <- output_of a; do '(W, nd) <- input_node a stdin d; Ok (out, W, nd)) with
    | Err e => (d, Failed e)
    | Ok (out, W, nd) => put_node a normalized out d W nd
    end.
Definition apx_finalize := rewrite_tool false.
Definition apx_normalize := rewrite_tool true.

(** apx_mirror.py 13-28; the variable [port] of 20-22 is not used. *)
Definition rename (nd : node) (name : option str) : node :=
  match name with
  | Some s => mk_node (Some s) (n_final nd) (n_types nd) (n_require nd) (n_provide nd) (n_map nd)
  | None => nd
  end.
Definition apx_mirror (a : args) (stdin : str) (d : disk) : disk * outcome :=
  match (do out <- output_of a; do '(W, nd) <- input_node a stdin d; do '(W, nd) <- mirror W nd None; Ok (out, W, nd)) with
  | Err e => (d, Failed e)
  | Ok (out, W, nd) => put_node a (a_normalize a) out d W (rename nd (a_name a))
  end.

(** apx_join.py 14-23: one parser reads all the files; at least one is given. *)
Fixpoint parse_files (old : option node) (d : disk) (W : world) (paths : list str) : res (world * list node) :=
  match paths with
  | [] => Ok (W, [])
  | p :: r =>
    do '(W, nd) <- parse_with old d W p;
    do '(W, l) <- parse_files (Some nd) d W r;
    Ok (W, nd :: l)
  end.
Fixpoint extend_all (fuel : nat) (W : world) (nd : node) (l : list node) : res (world * node) :=
  match l with
  | [] => Ok (W, nd)
  | x :: r => do '(W, nd) <- extend fuel W nd x; extend_all fuel W nd r
  end.
Definition apx_join (fuel : nat) (inputs : list str) (name : str) (sort normalize : bool) (d : disk) : disk * outcome :=
  match (do '(W, l) <- parse_files None d empty_world inputs;
         do '(W, nd) <- extend_all fuel W (new_node (Some name)) l;
         finalize sort false W nd) with
  | Err e => (d, Failed e)
  | Ok (W, nd) =>
    let '(d, r) := save_apx normalize None d W nd in
    finish_with d (do _ <- r; Ok [])
  end.

(** apx_split.py 6-23 [parse_lines_in_file] *)
Definition name_lines (text : str) : list str :=
  filter (fun l => negb (len l =? 0))
    (map (fun l => rstrip is_space (lstrip (take_while (fun c => negb (c =? 35)) l))) (read_lines text)).

(** [os.path.basename] and [os.path.splitext(...)[0]] of a name without slash: leading
    dots do not start an extension. *)
Definition basename (p : str) : str := rev (take_while (fun c => negb (c =? 47)) (rev p)).
Definition splitext (p : str) : str :=
  let r := rev p in
  match drop_while (fun c => negb (c =? 46)) r with
  | [] => p
  | _ :: before => if existsb (fun c => negb (c =? 46)) before then rev before else p
  end.
Fixpoint contains (x s : str) : bool :=
  starts_with x s || match s with [] => false | _ :: r => contains x r end.
(** 25-32 [create_apx_node_from_file_name] *)
Definition node_for (file_name : option str) (default : str) : node :=
  new_node (Some (match file_name with
                  | None => default
                  | Some p => let b := basename p in if contains (lit ".apx") b then splitext b else b
                  end)).

Record split_args := mk_split_args {
  s_input : str;
  s_names : list str;
  s_head : option str;
  s_tail : option str;
  s_head_name : str;
  s_tail_name : str;
  s_file : option str;
  s_sort : bool;
  s_mirror : bool
}.

(** 63-68: the ports for the head; [done] are the names processed.  A name that is a
    type is no port: [add_port_from_node] refuses it. *)
Fixpoint head_ports (fuel : nat) (W : world) (source head : node) (done : list (option str)) (names : list str)
    : res (world * node * list (option str)) :=
  match names with
  | [] => Ok (W, head, done)
  | s :: r =>
    match node_find W source (Some s) with
    | None => head_ports fuel W source head done r
    | Some f =>
      let nm := match f with FType o => dt_name (w_types W o) | FPort o => pt_name (w_ports W o) end in
      if existsb (opt_eqb nm) done then head_ports fuel W source head done r
      else
        match f with
        | FType _ => Err ValueError
        | FPort o =>
          do '(W, head, _) <- add_port_from fuel W head o;
          head_ports fuel W source head (nm :: done) r
        end
    end
  end.

(** 82-84: all the other ports. *)
Fixpoint tail_ports (fuel : nat) (W : world) (tail : node) (done : list (option str)) (l : list nat) : res (world * node) :=
  match l with
  | [] => Ok (W, tail)
  | o :: r =>
    if existsb (opt_eqb (pt_name (w_ports W o))) done then tail_ports fuel W tail done r
    else do '(W, tail, _) <- add_port_from fuel W tail o; tail_ports fuel W tail done r
  end.

Definition mirror_if (m : bool) (W : world) (nd : node) : res (world * node) :=
  if m then mirror W nd None else Ok (W, nd).

(** apx_split.py 52-86.  The tail is mirrored before it gets its ports, and line 81
    finalizes the head a second time, which does nothing. *)
Definition apx_split (fuel : nat) (a : split_args) (d : disk) : disk * outcome :=
  match s_file a, s_names a with
  | None, [] => (d, Usage)
  | _, _ =>
    let head := node_for (s_head a) (s_head_name a) in
    let r :=
      do '(W, source) <- parse_file d empty_world (s_input a);
      do names <- match s_file a with
                  | Some f => do t <- read_file d f; Ok (name_lines t)
                  | None => Ok (s_names a)
                  end;
      do '(W, head, done) <- head_ports fuel W source head [] names;
      do '(W, head) <- mirror_if (s_mirror a) W head;
      do '(W, head) <- finalize (s_sort a) false W head;
      Ok (W, source, head, done) in
    match r with
    | Err e => (d, Failed e)
    | Ok (W, source, head, done) =>
      let '(d, out) :=
        match s_head a with
        | Some p => let '(d, r) := save_apx true (Some p) d W head in (d, do '(W, _) <- r; Ok (W, []))
        | None => (d, do '(W, _, t) <- node_dumps true W head; Ok (W, print t))
        end in
      match out with
      | Err e => (d, Failed e)
      | Ok (W, text) =>
        match s_tail a with
        | None => (d, Printed text)
        | Some p =>
          match (do '(W, tail) <- mirror_if (s_mirror a) W (node_for (s_tail a) (s_tail_name a));
                 tail_ports fuel W tail done (n_provide source ++ n_require source)) with
          | Err e => (d, Failed e)
          | Ok (W, tail) =>
            let '(d, r) := save_apx true (Some p) d W tail in
            finish_with d (do _ <- r; Ok text)
          end
        end
      end
    end
  end.
