(** Ports and nodes: model of Port in /repo/apx/base.py, of /repo/apx/node.py and of
    [Context.dumps].

    Ports and data types are objects shared by reference.  A [world] holds both
    heaps; objects are numbered in creation order.  A call that raises returns
    only the exception: what it had changed before is in NodeLeftModel, except for
    the import and [mirror].
    The AUTOSAR import (node.py 36-132) is in AutosarModel, writing to disk
    (node.py 203-243, context.py 31-59) is in FilesModel. *)
From Verif Require Import Py TypesModel TextModel SigModel AttrModel.

(** base.py 124-133 [Port]; [pt_provide]: the class is ProvidePort. *)
Record port := mk_port {
  pt_provide : bool;
  pt_name : option str;
  pt_elem : delem;
  pt_attr : option pattr;
  pt_id : option Z
}.

Record world := mk_world {
  w_types : theap;
  w_ntypes : nat;
  w_ports : nat -> port;
  w_nports : nat
}.

Definition empty_world : world :=
  mk_world (fun _ => mk_dtype None (DRec None []) None None None) 0
           (fun _ => mk_port false None (DRec None []) None None) 0.

Definition upd_nat {A} (f : nat -> A) (i : nat) (x : A) : nat -> A :=
  fun j => if Nat.eqb j i then x else f j.

Definition set_type (W : world) (o : nat) (d : dtype) : world :=
  mk_world (upd_nat (w_types W) o d) (w_ntypes W) (w_ports W) (w_nports W).
Definition set_port (W : world) (o : nat) (p : port) : world :=
  mk_world (w_types W) (w_ntypes W) (upd_nat (w_ports W) o p) (w_nports W).
Definition new_type (W : world) (d : dtype) : world * nat :=
  (mk_world (upd_nat (w_types W) (w_ntypes W) d) (S (w_ntypes W)) (w_ports W) (w_nports W), w_ntypes W).
Definition new_port (W : world) (p : port) : world * nat :=
  (mk_world (w_types W) (w_ntypes W) (upd_nat (w_ports W) (w_nports W) p) (S (w_nports W)), w_nports W).

Definition with_elem (d : dtype) (e : delem) : dtype :=
  mk_dtype (dt_name d) e (dt_attr d) (dt_id d) (dt_short d).
Definition with_tid (d : dtype) (i : option Z) : dtype :=
  mk_dtype (dt_name d) (dt_elem d) (dt_attr d) i (dt_short d).
Definition with_short (d : dtype) (s : option str) : dtype :=
  mk_dtype (dt_name d) (dt_elem d) (dt_attr d) (dt_id d) s.
Definition with_pelem (p : port) (e : delem) : port :=
  mk_port (pt_provide p) (pt_name p) e (pt_attr p) (pt_id p).
Definition with_pid (p : port) (i : option Z) : port :=
  mk_port (pt_provide p) (pt_name p) (pt_elem p) (pt_attr p) i.

(** base.py 128-133, 170, 183: [RequirePort(name, dsg, attributes)]. *)
Definition make_port (provide : bool) (name : option str) (dsg : str) (attr : option str) : res port :=
  do e <- parse_signature dsg;
  do a <- match attr with
          | None => Ok None
          | Some t => do a <- parse_port_attr t; Ok (Some a)
          end;
  Ok (mk_port provide name e a None).

(** base.py 197-202 [DataType(name, dsg, attributes)]. *)
Definition make_type (name : option str) (dsg : str) (attr : option str) : res dtype :=
  do e <- parse_signature dsg;
  do _ <- match attr with
          | None => Ok None
          | Some t => parse_type_attr t
          end;
  Ok (mk_dtype name e attr None None).

(** base.py 138-142 [Port.to_string] and 207-212 [DataType.to_string]. *)
Definition decl_string (letter : Z) (name : option str) (sig : str) (attr : option str) : str :=
  [letter; QUOTE] ++ opt_text name ++ [QUOTE] ++ sig
  ++ match attr with Some a => [58] ++ a | None => [] end.

Definition port_string (normalized : bool) (H : theap) (p : port) : res str :=
  do sig <- elem_string normalized H (pt_elem p);
  Ok (decl_string (if pt_provide p then 80 else 82) (pt_name p) sig
        (match pt_attr p with Some a => Some (pa_str a) | None => None end)).

Definition type_string (normalized : bool) (H : theap) (d : dtype) : res str :=
  do sig <- elem_string normalized H (dt_elem d);
  Ok (decl_string 84 (match dt_short d with Some s => Some s | None => dt_name d end) sig (dt_attr d)).

(** base.py 173-177 and 186-190 [mirror] and [clone]: require ports are copied
    through their normalized text, provide ports through the plain one. *)
Definition copy_port (provide' : bool) (H : theap) (p : port) : res port :=
  do sig <- elem_string (negb (pt_provide p)) H (pt_elem p);
  make_port provide' (pt_name p) sig (match pt_attr p with Some a => Some (pa_str a) | None => None end).
Definition mirror_port (H : theap) (p : port) : res port := copy_port (negb (pt_provide p)) H p.
Definition clone_port (H : theap) (p : port) : res port := copy_port (pt_provide p) H p.

(** base.py 214-218 [DataType.clone]. *)
Definition clone_type (H : theap) (d : dtype) : res dtype :=
  do sig <- elem_string true H (dt_elem d);
  make_type (dt_name d) sig (dt_attr d).

(** base.py 315-317 [DataSignature.resolve_data_element]: the updated element and
    what it finally stands for. *)
Definition resolve_sig (H : theap) (types : list nat) (e : delem) : res (delem * delem) :=
  do e' <- resolve_type H (Some types) e;
  do d <- resolve_data_element H e';
  Ok (e', d).

(** node.py 27-33 [Node]. *)
Record node := mk_node {
  n_name : option str;
  n_final : bool;
  n_types : list nat;
  n_require : list nat;
  n_provide : list nat;
  n_map : list (option str * nat)
}.
Definition new_node (name : option str) : node := mk_node name false [] [] [] [].

Definition map_find (name : option str) (m : list (option str * nat)) : option nat :=
  option_map snd (find (fun kv => opt_eqb (fst kv) name) m).

(** node.py 379-383 and 397-401 [_verify_data_types_are_equal] and
    [_verify_ports_are_equal], given the two texts. *)
Definition verify_equal (a b : res str) : res unit :=
  do x <- a; do y <- b;
  if str_eqb x y then Ok tt else Err ValueError.

(** node.py 170-179 [add_type]; the result names the type object of the node. *)
Definition add_type (W : world) (nd : node) (o : nat) : res (world * node * nat) :=
  let d := w_types W o in
  match map_find (dt_name d) (n_map nd) with
  | None =>
    do '(e, _) <- resolve_sig (w_types W) (n_types nd) (dt_elem d);
    Ok (set_type W o (with_elem d e),
        mk_node (n_name nd) (n_final nd) (n_types nd ++ [o]) (n_require nd) (n_provide nd)
                (n_map nd ++ [(dt_name d, o)]), o)
  | Some o' =>
    do _ <- verify_equal (type_string true (w_types W) (w_types W o'))
                         (type_string true (w_types W) d);
    Ok (W, nd, o')
  end.

(** [if port.dsg.dataElement.isReference: port.resolve_type(self.dataTypes)] *)
Definition resolve_port (W : world) (types : list nat) (p : port) : res port :=
  if is_reference (pt_elem p) then
    do '(e, _) <- resolve_sig (w_types W) types (pt_elem p); Ok (with_pelem p e)
  else Ok p.

(** node.py 189-201 [add_require_port] and [add_provide_port]. *)
Definition add_port (W : world) (nd : node) (o : nat) : res (world * node) :=
  let p := w_ports W o in
  let l := if pt_provide p then n_provide nd else n_require nd in
  do p' <- resolve_port W (n_types nd) (with_pid p (Some (len l)));
  Ok (set_port W o p',
      if pt_provide p
      then mk_node (n_name nd) (n_final nd) (n_types nd) (n_require nd) (n_provide nd ++ [o]) (n_map nd)
      else mk_node (n_name nd) (n_final nd) (n_types nd) (n_require nd ++ [o]) (n_provide nd) (n_map nd)).

(** node.py 328-347 [find]: types first, then require ports, then provide ports. *)
Inductive found := FType (o : nat) | FPort (o : nat).
Definition node_find (W : world) (nd : node) (name : option str) : option found :=
  match find (fun o => opt_eqb (dt_name (w_types W o)) name) (n_types nd) with
  | Some o => Some (FType o)
  | None =>
    option_map FPort
      (find (fun o => opt_eqb (pt_name (w_ports W o)) name) (n_require nd ++ n_provide nd))
  end.

(** node.py 358-364 [resolve_types], over one list of ports. *)
Fixpoint resolve_ports (W : world) (types ports : list nat) : res world :=
  match ports with
  | [] => Ok W
  | o :: r =>
    do p <- resolve_port W types (w_ports W o);
    resolve_ports (set_port W o p) types r
  end.
Definition resolve_types (W : world) (nd : node) : res world :=
  resolve_ports W (n_types nd) (n_require nd ++ n_provide nd).

(** [sorted(l, key=lambda x: x.name)]: stable, by code points; comparing None with
    anything is a TypeError. *)
Fixpoint str_ltb (a b : str) : bool :=
  match a, b with
  | _, [] => false
  | [], _ :: _ => true
  | x :: a', y :: b' => (x <? y) || ((x =? y) && str_ltb a' b')
  end.
Fixpoint insert_by (key : nat -> str) (x : nat) (l : list nat) : list nat :=
  match l with
  | [] => [x]
  | y :: r => if str_ltb (key x) (key y) then x :: l else y :: insert_by key x r
  end.
Definition sort_by (key : nat -> str) (l : list nat) : list nat :=
  fold_left (fun acc x => insert_by key x acc) l [].
Definition sorted_by (name : nat -> option str) (l : list nat) : res (list nat) :=
  if (2 <=? len l) && existsb (fun o => match name o with None => true | Some _ => false end) l
  then Err TypeError
  else Ok (sort_by (fun o => opt_text (name o)) l).

(** node.py 403-411 [_sort_elements] *)
Definition sort_elements (W : world) (nd : node) (sort_all : bool) : res node :=
  do ts <- sorted_by (fun o => dt_name (w_types W o)) (n_types nd);
  if sort_all then
    do rs <- sorted_by (fun o => pt_name (w_ports W o)) (n_require nd);
    do ps <- sorted_by (fun o => pt_name (w_ports W o)) (n_provide nd);
    Ok (mk_node (n_name nd) (n_final nd) ts rs ps (n_map nd))
  else Ok (mk_node (n_name nd) (n_final nd) ts (n_require nd) (n_provide nd) (n_map nd)).

(** node.py 349-356 [compact_types] and 413-415 [_set_type_ids]. *)
Fixpoint number_types (f : dtype -> Z -> dtype) (W : world) (i : Z) (l : list nat) : world :=
  match l with
  | [] => W
  | o :: r => number_types f (set_type W o (f (w_types W o) i)) (i + 1) r
  end.
Definition compact_types (W : world) (nd : node) : world :=
  number_types (fun d i => with_short d (Some (84 :: dec_str i))) W 0 (n_types nd).
Definition set_type_ids (W : world) (nd : node) : world :=
  number_types (fun d i => with_tid d (Some i)) W 0 (n_types nd).

(** node.py 366-377 [finalize] *)
Definition finalize (sort compact : bool) (W : world) (nd : node) : res (world * node) :=
  if n_final nd then Ok (W, nd)
  else
    do nd <- sort_elements W nd sort;
    do W <- resolve_types W nd;
    let W := if compact then compact_types W nd else W in
    let W := set_type_ids W nd in
    Ok (W, mk_node (n_name nd) true (n_types nd) (n_require nd) (n_provide nd) (n_map nd)).

Fixpoint map_res {A B} (f : A -> res B) (l : list A) : res (list B) :=
  match l with [] => Ok [] | x :: r => do y <- f x; do ys <- map_res f r; Ok (y :: ys) end.

(** node.py 245-256 [lines] *)
Definition lines (normalized : bool) (W : world) (nd : node) : res (list str) :=
  let H := w_types W in
  do ts <- map_res (fun o => type_string false H (H o)) (n_types nd);
  do ps <- map_res (fun o => port_string normalized H (w_ports W o)) (n_provide nd);
  do rs <- map_res (fun o => port_string normalized H (w_ports W o)) (n_require nd);
  Ok ((lit "N""" ++ opt_text (n_name nd) ++ lit """") :: ts ++ ps ++ rs).

Definition NEWLINE : Z := 10.

(** node.py 223-228 [dumps] *)
Definition node_dumps (normalized : bool) (W : world) (nd : node) : res (world * node * str) :=
  do '(W, nd) <- finalize true false W nd;
  do ls <- lines normalized W nd;
  Ok (W, nd, lit "APX/1.2" ++ [NEWLINE] ++ join [NEWLINE] ls ++ [NEWLINE]).

(** context.py 62-71 [Context.dumps] of a context with the given nodes: nodes are
    not finalized. *)
Definition context_dumps (normalized : bool) (W : world) (nodes : list node) : res str :=
  do ls <- map_res (lines normalized W) nodes;
  Ok (join [NEWLINE] (lit "APX/1.2" :: concat ls) ++ [NEWLINE]).

(** [deepcopy(self.dataTypes)]: every type object gets a copy, [shift] numbers
    further on, whose references go to copies (objects that the list does not
    reach are copied too, which nobody can see). *)
Fixpoint shift_elem (n : nat) (e : delem) : delem :=
  match e with
  | DRef nm (RObj o) => DRef nm (RObj (o + n)%nat)
  | DRec nm es => DRec nm (map (shift_elem n) es)
  | _ => e
  end.
Definition copy_types (W : world) : world :=
  let n := w_ntypes W in
  mk_world (fun o => if Nat.ltb o n then w_types W o
                     else let d := w_types W (o - n)%nat in with_elem d (shift_elem n (dt_elem d)))
           (n + n)%nat (w_ports W) (w_nports W).

Fixpoint new_ports (W : world) (l : list port) : world * list nat :=
  match l with
  | [] => (W, [])
  | p :: r => let '(W, o) := new_port W p in let '(W, os) := new_ports W r in (W, o :: os)
  end.

Fixpoint map_set (name : option str) (o : nat) (m : list (option str * nat)) : list (option str * nat) :=
  match m with
  | [] => [(name, o)]
  | (k, v) :: r => if opt_eqb k name then (k, o) :: r else (k, v) :: map_set name o r
  end.

(** node.py 258-271 [mirror] ([name] = None keeps the name). *)
Definition mirror (W : world) (nd : node) (name : option str) : res (world * node) :=
  let name := match name with Some s => Some s | None => n_name nd end in
  let n := w_ntypes W in
  let W1 := copy_types W in
  let types := map (fun o => o + n)%nat (n_types nd) in
  do rp <- map_res (fun o => mirror_port (w_types W) (w_ports W o)) (n_provide nd);
  do pp <- map_res (fun o => mirror_port (w_types W) (w_ports W o)) (n_require nd);
  let '(W2, rs) := new_ports W1 rp in
  let '(W3, ps) := new_ports W2 pp in
  let m := fold_left (fun m o => map_set (dt_name (w_types W3 o)) o m) types [] in
  let nd' := mk_node name false types rs ps m in
  do W4 <- resolve_types W3 nd';
  Ok (W4, nd').

(** node.py 385-395 [_check_duplicate_port] *)
Fixpoint check_duplicate (W : world) (p : port) (l : list nat) : res (option nat) :=
  match l with
  | [] => Ok None
  | o :: r =>
    let q := w_ports W o in
    if opt_eqb (pt_name q) (pt_name p) then
      if Bool.eqb (pt_provide q) (pt_provide p) then
        do _ <- verify_equal (port_string true (w_types W) q) (port_string true (w_types W) p);
        Ok (Some o)
      else Err ValueError
    else check_duplicate W p r
  end.

(** node.py 305-326 [add_data_type_from_node]; [fuel] is the recursion limit.  The
    result is the clone, even where [add_type] kept an existing type. *)
Fixpoint add_type_from (fuel : nat) (W : world) (nd : node) (o : nat) : res (world * node * nat) :=
  match fuel with
  | O => Err RecursionError
  | S k =>
    do '(W, nd) <-
      match dt_elem (w_types W o) with
      | DPrim _ _ _ _ _ => Ok (W, nd)
      | DRec _ es =>
        fold_left (fun acc e =>
          do '(W, nd) <- acc;
          match e with
          | DRef _ (RObj o') => do '(W, nd, _) <- add_type_from k W nd o'; Ok (W, nd)
          | DRef _ _ => Err ValueError
          | _ => Ok (W, nd)
          end) es (Ok (W, nd))
      | DRef _ _ => Err NotImplementedError
      end;
    do d <- clone_type (w_types W) (w_types W o);
    let '(W, o') := new_type W d in
    do '(W, nd, _) <- add_type W nd o';
    Ok (W, nd, o')
  end.

(** [to_port.dsg.dataElement.typeReference = to_data_type]: the clone of a reference
    is a reference. *)
Definition set_ref (e : delem) (o : nat) : delem :=
  match e with DRef n _ => DRef n (RObj o) | _ => e end.

(** node.py 273-303 [add_port_from_node] *)
Definition add_port_from (fuel : nat) (W : world) (nd : node) (po : nat) : res (world * node * nat) :=
  let p := w_ports W po in
  do dup <- check_duplicate W p (n_provide nd ++ n_require nd);
  match dup with
  | Some o => Ok (W, nd, o)
  | None =>
    do p' <- clone_port (w_types W) p;
    do '(W, nd, p') <-
      match pt_elem p with
      | DRef _ (RObj o) =>
        do '(W, nd, o') <-
          match node_find W nd (dt_name (w_types W o)) with
          | None => add_type_from fuel W nd o
          | Some (FType o') =>
            do _ <- verify_equal (type_string true (w_types W) (w_types W o'))
                                 (type_string true (w_types W) (w_types W o));
            Ok (W, nd, o')
          | Some (FPort o') =>
            (* texts of a port and a type never agree *)
            do _ <- verify_equal (port_string true (w_types W) (w_ports W o'))
                                 (type_string true (w_types W) (w_types W o));
            Err ValueError
          end;
        Ok (W, nd, with_pelem p' (set_ref (pt_elem p') o'))
      | DRef _ _ => Err RuntimeError
      | _ => Ok (W, nd, p')
      end;
    let '(W, o) := new_port W p' in
    do '(W, nd) <- add_port W nd o;
    Ok (W, nd, o)
  end.

(** node.py 181-187 [extend] *)
Fixpoint add_ports_from (fuel : nat) (W : world) (nd : node) (l : list nat) : res (world * node) :=
  match l with
  | [] => Ok (W, nd)
  | o :: r => do '(W, nd, _) <- add_port_from fuel W nd o; add_ports_from fuel W nd r
  end.
Definition extend (fuel : nat) (W : world) (nd other : node) : res (world * node) :=
  add_ports_from fuel W nd (n_require other ++ n_provide other).
