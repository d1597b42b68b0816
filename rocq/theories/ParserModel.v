(** The definition language parser: model of /repo/apx/parser.py and
    [Node.append] of a text (node.py 148-165). *)
From Verif Require Import Py TypesModel TextModel SigModel AttrModel NodeModel.

(** parser.py 20-21 [strip_comment]: from # to the end of the line. *)
Fixpoint strip_comment (in_comment : bool) (s : str) : str :=
  match s with
  | [] => []
  | c :: r =>
    if c =? 10 then c :: strip_comment false r
    else if in_comment then strip_comment true r
    else if c =? 35 then strip_comment true r
    else c :: strip_comment false r
  end.

(** parser.py 15 the expression _p0 *)
Definition is_linetype (c : Z) : bool := (c =? 43) || (c =? 45) || ((65 <=? c) && (c <=? 90)).
Definition is_eol (c : Z) : bool := (c =? 32) || (c =? 13) || (c =? 10).

(** parser.py 24-46 [apx_split_line]: None or a tuple. *)
Definition split_line (s : str) : option (list (option str)) :=
  let processed := rstrip is_eol (strip_comment false s) in
  match processed with
  | [] => None
  | c :: _ =>
    if is_linetype c then
      let lineType := take_while is_linetype processed in
      let '(name, remain) := parse_str (drop_while is_linetype processed) in
      match remain with
      | [] => Some [Some lineType; name]
      | _ :: _ =>
        let dsg := take_while (fun c => negb (c =? 58)) remain in
        match drop_while (fun c => negb (c =? 58)) remain with
        | [] => Some [Some lineType; name; Some dsg; None]
        | _ :: rest => Some [Some lineType; name; Some dsg; Some rest]
        end
      end
    else Some [None; Some processed]
  end.

(** parser.py 51-57 [_parseHeaderLine]: the version digits.  Simplification: \d is
    ASCII only. *)
Definition header_version (s : str) : option (Z * Z) :=
  match s with
  | 65 :: 80 :: 88 :: 47 :: a :: 46 :: b :: _ =>
    if is_digit a && is_digit b then Some (a, b) else None
  | _ => None
  end.

(** The parser object; [p_node] keeps its value between calls. *)
Inductive section := START | NODE | TYPE | PROVIDE | REQUIRE.
Record parser := mk_parser { p_cs : section; p_node : option node }.
Definition new_parser : parser := mk_parser START None.

(** [DataType(parts[1], parts[2], parts[3])] and the port constructors.  A tuple of
    four parts always has a signature. *)
Definition part (parts : list (option str)) (i : Z) : res (option str) := index parts i.
Definition decl (parts : list (option str)) : res (option str * str * option str) :=
  do n <- part parts 1; do s <- part parts 2; do a <- part parts 3;
  match s with Some s => Ok (n, s, a) | None => Err NotImplementedError end.

(** parser.py 203-215 [_applyType], [_applyPort]: here [self.node] is not None. *)
Definition apply_type (W : world) (nd : node) (parts : list (option str)) : res (world * node) :=
  do '(n, s, a) <- decl parts;
  do d <- make_type n s a;
  let '(W, o) := new_type W d in
  do '(W, nd, _) <- add_type W nd o; Ok (W, nd).
Definition apply_port (provide : bool) (W : world) (nd : node) (parts : list (option str))
    : res (world * node) :=
  do '(n, s, a) <- decl parts;
  do p <- make_port provide n s a;
  let '(W, o) := new_port W p in
  add_port W nd o.

(** parser.py 59-121 [_processLine].  In the provide section any other line type is
    passed over without a word. *)
Definition process_line (W : world) (P : parser) (line : str) : res (world * parser) :=
  match split_line line with
  | None => Ok (W, P)
  | Some parts =>
    let t := match parts with t :: _ => t | [] => None end in
    let is (c : Z) := opt_eqb t (Some [c]) in
    match p_cs P, p_node P with
    | START, _ =>
      if is 78 then do n <- part parts 1; Ok (W, mk_parser NODE (Some (new_node n)))
      else Err ParseError
    | cs, Some nd =>
      let add_t := do '(W, nd) <- apply_type W nd parts; Ok (W, mk_parser TYPE (Some nd)) in
      let add_p := do '(W, nd) <- apply_port true W nd parts; Ok (W, mk_parser PROVIDE (Some nd)) in
      let add_r := do '(W, nd) <- apply_port false W nd parts; Ok (W, mk_parser REQUIRE (Some nd)) in
      match cs with
      | NODE | TYPE =>
        if is 84 then add_t else if is 80 then add_p else if is 82 then add_r else Err ParseError
      | PROVIDE => if is 80 then add_p else if is 82 then add_r else Ok (W, P)
      | _ => if is 82 then add_r else if is 80 then add_p else Err ParseError
      end
    | _, None => Err AttributeError (* not reachable: these sections follow a node line *)
    end
  end.

Fixpoint process_lines (W : world) (P : parser) (l : list str) : res (world * parser) :=
  match l with
  | [] => Ok (W, P)
  | x :: r => do '(W, P) <- process_line W P x; process_lines W P r
  end.

Definition is_crlf (c : Z) : bool := (c =? 13) || (c =? 10).

(** parser.py 163-193 [loads] on a parser whose earlier node is [old]. *)
Definition loads_with (old : option node) (W : world) (text : str) : res (world * node) :=
  let ls := split_on NEWLINE text in
  do body <-
    match header_version (rstrip is_crlf (hd [] ls)) with
    | None => Ok ls
    | Some (49, 50) => Ok (tl ls)
    | Some _ => Err NotImplementedError
    end;
  do '(W, P) <- process_lines W (mk_parser START old) body;
  match p_node P with
  | None => Err RuntimeError
  | Some nd => do W <- resolve_types W nd; Ok (W, nd)
  end.
Definition loads : world -> str -> res (world * node) := loads_with None.

(** [fp.readline()] until it returns the empty text, for a file with the given
    content: lines with their line feed (translation of line ends by the file
    object happens before). *)
Fixpoint read_lines (s : str) : list str :=
  match s with
  | [] => []
  | c :: r =>
    if c =? 10 then [c] :: read_lines r
    else match read_lines r with
         | [] => [[c]]
         | f :: l => (c :: f) :: l
         end
  end.

(** parser.py 143-161 [load] and 123-137 [_parseV12]: a first line that is no header
    is dropped. *)
Definition load_with (old : option node) (W : world) (text : str) : res (world * node) :=
  let ls := read_lines text in
  do body <-
    match header_version (rstrip is_crlf (hd [] ls)) with
    | None | Some (49, 50) => Ok (tl ls)
    | Some _ => Err NotImplementedError
    end;
  do '(W, P) <- process_lines W (mk_parser START old) (map (rstrip is_crlf) body);
  match p_node P with
  | None => Err AttributeError
  | Some nd => do W <- resolve_types W nd; Ok (W, nd)
  end.
Definition load : world -> str -> res (world * node) := load_with None.

(** node.py 134-167 [append] of a text. *)
Definition append_text (W : world) (nd : node) (item : str) : res (world * node) :=
  match split_line item with
  | None => Err TypeError
  | Some parts =>
    if negb (len parts =? 4) then Err ValueError
    else
      let t := match parts with t :: _ => t | [] => None end in
      if opt_eqb t (Some [82]) then apply_port false W nd parts
      else if opt_eqb t (Some [80]) then apply_port true W nd parts
      else Err ValueError
  end.
