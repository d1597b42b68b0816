(** Definition files: model of [Node.save_apx], [Node.write], [Context.save_apx] and
    [Parser.parse].

    A disk maps paths to texts.  Simplifications: a path that can be opened names a
    file of its own (no links, no directories, no rights), and texts are encoded and
    decoded without loss. *)
From Verif Require Import Py TypesModel TextModel SigModel AttrModel NodeModel ParserModel.

Definition disk := str -> option str.
Definition put_file (d : disk) (path text : str) : disk := fun p => if str_eqb p path then Some text else d p.

(** A file opened as text: CR LF and CR are read as LF. *)
Fixpoint universal (s : str) : str :=
  match s with
  | [] => []
  | c :: r =>
    if c =? 13 then
      match r with
      | [] => [10]
      | x :: r' => if x =? 10 then 10 :: universal r' else 10 :: universal r
      end
    else c :: universal r
  end.
Definition read_file (d : disk) (path : str) : res str :=
  match d path with Some t => Ok (universal t) | None => Err OSError end.

(** parser.py 195-200 [parse] with a parser whose earlier node is [old]. *)
Definition parse_with (old : option node) (d : disk) (W : world) (path : str) : res (world * node) :=
  do t <- read_file d path; load_with old W t.
Definition parse_file : disk -> world -> str -> res (world * node) := parse_with None.

(** node.py 233-243 [write]: lines are made and written one by one; what is written
    before an exception stays written. *)
Fixpoint write_all (l : list (res str)) : str * option exn :=
  match l with
  | [] => ([], None)
  | Ok s :: r => let '(t, e) := write_all r in (s ++ [NEWLINE] ++ t, e)
  | Err e :: _ => ([], Some e)
  end.
Definition written (normalized : bool) (W : world) (nd : node) : str * option exn :=
  let H := w_types W in
  write_all (Ok (lit "N""" ++ opt_text (n_name nd) ++ lit """")
             :: map (fun o => type_string false H (H o)) (n_types nd)
             ++ map (fun o => port_string normalized H (w_ports W o)) (n_provide nd)
             ++ map (fun o => port_string normalized H (w_ports W o)) (n_require nd)).

(** The body of the with statements in node.py 215-218 and context.py 45-48: the new
    file and what is raised. *)
Definition write_node (normalized : bool) (d : disk) (path : str) (W : world) (nd : node) : disk * option exn :=
  let '(t, e) := written normalized W nd in
  (put_file d path (lit "APX/1.2" ++ [NEWLINE] ++ t ++ match e with None => [NEWLINE] | Some _ => [] end), e).

(** [os.path.normpath(os.path.join('.', name+'.apx'))].  Simplification: right for
    names without slash. *)
Definition default_path (name : option str) : res str :=
  match name with Some s => Ok (s ++ lit ".apx") | None => Err TypeError end.

(** node.py 203-218 [save_apx]. *)
Definition save_apx (normalized : bool) (output_file : option str) (d : disk) (W : world) (nd : node)
    : disk * res (world * node) :=
  match finalize true false W nd with
  | Err e => (d, Err e)
  | Ok (W, nd) =>
    match (match output_file with Some p => Ok p | None => default_path (n_name nd) end) with
    | Err e => (d, Err e)
    | Ok path =>
      let '(d, e) := write_node normalized d path W nd in
      (d, match e with None => Ok (W, nd) | Some e => Err e end)
    end
  end.

(** context.py 31-50 [Context.save_apx] into the current directory; the result is the
    list of file names. *)
Fixpoint context_save (normalized : bool) (d : disk) (W : world) (nodes : list node) : disk * res (list str) :=
  match nodes with
  | [] => (d, Ok [])
  | nd :: r =>
    match default_path (n_name nd) with
    | Err e => (d, Err e)
    | Ok path =>
      match write_node normalized d path W nd with
      | (d, Some e) => (d, Err e)
      | (d, None) => let '(d, l) := context_save normalized d W r in (d, do l <- l; Ok (path :: l))
      end
    end
  end.
