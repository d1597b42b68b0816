(** What calls on a node leave behind also when they raise: the part of
    /repo/apx/node.py and of [resolve_type] in /repo/apx/base.py that NodeModel.v and
    TypesModel.v leave out.

    Each function here gives the world and the node at the moment its namesake
    returns or raises, and what it returned or raised. *)
From Verif Require Import Py TypesModel TextModel SigModel AttrModel NodeModel ParserModel.

Definition left (A : Type) : Type := world * node * res A.

(** base.py 575-604 [DataElement.resolve_type]: references are bound in place one
    after the other, those before a failing one stay bound. *)
Fixpoint resolve_left (H : theap) (l : list nat) (e : delem) : delem * option exn :=
  match e with
  | DRef n (RInt i) =>
    match index l i with
    | Ok o => (DRef n (RObj o), None)
    | Err x => (e, Some x)
    end
  | DRef n (RName s) =>
    match find_type H s l with
    | Some o => (DRef n (RObj o), None)
    | None => (e, Some ApxTypeError)
    end
  | DRec n es =>
    let '(es', x) := (fix go es := match es with
                                   | [] => ([], None)
                                   | e :: r =>
                                     match resolve_left H l e with
                                     | (e', Some x) => (e' :: r, Some x)
                                     | (e', None) => let '(r', x) := go r in (e' :: r', x)
                                     end
                                   end) es in
    (DRec n es', x)
  | _ => (e, None)
  end.

(** base.py 315-317 [DataSignature.resolve_data_element].  As in [resolve_sig], the
    chain is followed in the heap of before: no type of the list refers to the
    object whose signature this is. *)
Definition resolve_sig_left (H : theap) (l : list nat) (e : delem) : delem * option exn :=
  match resolve_left H l e with
  | (e', Some x) => (e', Some x)
  | (e', None) =>
    match resolve_data_element H e' with
    | Ok _ => (e', None)
    | Err x => (e', Some x)
    end
  end.

(** node.py 170-179 [add_type] *)
Definition add_type_left (W : world) (nd : node) (o : nat) : left nat :=
  let d := w_types W o in
  match map_find (dt_name d) (n_map nd) with
  | None =>
    let '(e, x) := resolve_sig_left (w_types W) (n_types nd) (dt_elem d) in
    let W := set_type W o (with_elem d e) in
    match x with
    | Some x => (W, nd, Err x)
    | None =>
      (W, mk_node (n_name nd) (n_final nd) (n_types nd ++ [o]) (n_require nd) (n_provide nd)
                  (n_map nd ++ [(dt_name d, o)]), Ok o)
    end
  | Some o' =>
    match verify_equal (type_string true (w_types W) (w_types W o'))
                       (type_string true (w_types W) d) with
    | Ok _ => (W, nd, Ok o')
    | Err x => (W, nd, Err x)
    end
  end.

(** 191-192, 198-199, 363-364: [if port.dsg.dataElement.isReference: port.resolve_type(...)] *)
Definition resolve_port_left (W : world) (types : list nat) (p : port) : port * option exn :=
  if is_reference (pt_elem p) then
    let '(e, x) := resolve_sig_left (w_types W) types (pt_elem p) in (with_pelem p e, x)
  else (p, None).

(** node.py 189-201 [add_require_port] and [add_provide_port]: the id is set first. *)
Definition add_port_left (W : world) (nd : node) (o : nat) : left unit :=
  let p := w_ports W o in
  let l := if pt_provide p then n_provide nd else n_require nd in
  let '(p', x) := resolve_port_left W (n_types nd) (with_pid p (Some (len l))) in
  let W := set_port W o p' in
  match x with
  | Some x => (W, nd, Err x)
  | None =>
    (W, (if pt_provide p
         then mk_node (n_name nd) (n_final nd) (n_types nd) (n_require nd) (n_provide nd ++ [o]) (n_map nd)
         else mk_node (n_name nd) (n_final nd) (n_types nd) (n_require nd ++ [o]) (n_provide nd) (n_map nd)),
     Ok tt)
  end.

(** node.py 148-165 [append] of a text: the port is built before the node is touched. *)
Definition append_text_left (W : world) (nd : node) (item : str) : left unit :=
  let add (pr : bool) parts :=
    match decl parts with
    | Err x => (W, nd, Err x)
    | Ok (n, s, a) =>
      match make_port pr n s a with
      | Err x => (W, nd, Err x)
      | Ok p => let '(W, o) := new_port W p in add_port_left W nd o
      end
    end in
  match split_line item with
  | None => (W, nd, Err TypeError)
  | Some parts =>
    if negb (len parts =? 4) then (W, nd, Err ValueError)
    else
      let t := match parts with t :: _ => t | [] => None end in
      if opt_eqb t (Some [82]) then add false parts
      else if opt_eqb t (Some [80]) then add true parts
      else (W, nd, Err ValueError)
  end.

(** A caller that goes on after every exception. *)
Fixpoint append_each (W : world) (nd : node) (items : list str) : world * node * list (res unit) :=
  match items with
  | [] => (W, nd, [])
  | x :: r =>
    let '(W, nd, a) := append_text_left W nd x in
    let '(W, nd, l) := append_each W nd r in (W, nd, a :: l)
  end.

(** node.py 305-326 [add_data_type_from_node] *)
Fixpoint add_type_from_left (fuel : nat) (W : world) (nd : node) (o : nat) : left nat :=
  match fuel with
  | O => (W, nd, Err RecursionError)
  | S k =>
    let '(W1, nd1, x) :=
      match dt_elem (w_types W o) with
      | DPrim _ _ _ _ _ => (W, nd, Ok tt)
      | DRec _ es =>
        fold_left (fun (acc : left unit) e =>
          match acc with
          | (W, nd, Err x) => (W, nd, Err x)
          | (W, nd, Ok _) =>
            match e with
            | DRef _ (RObj o') =>
              match add_type_from_left k W nd o' with
              | (W, nd, Ok _) => (W, nd, Ok tt)
              | (W, nd, Err x) => (W, nd, Err x)
              end
            | DRef _ _ => (W, nd, Err ValueError)
            | _ => (W, nd, Ok tt)
            end
          end) es (W, nd, Ok tt)
      | DRef _ _ => (W, nd, Err NotImplementedError)
      end in
    match x with
    | Err x => (W1, nd1, Err x)
    | Ok _ =>
      match clone_type (w_types W1) (w_types W1 o) with
      | Err x => (W1, nd1, Err x)
      | Ok d =>
        let '(W2, o') := new_type W1 d in
        match add_type_left W2 nd1 o' with
        | (W3, nd3, Ok _) => (W3, nd3, Ok o')
        | (W3, nd3, Err x) => (W3, nd3, Err x)
        end
      end
    end
  end.

(** node.py 273-303 [add_port_from_node] *)
Definition add_port_from_left (fuel : nat) (W : world) (nd : node) (po : nat) : left nat :=
  let p := w_ports W po in
  match check_duplicate W p (n_provide nd ++ n_require nd) with
  | Err x => (W, nd, Err x)
  | Ok (Some o) => (W, nd, Ok o)
  | Ok None =>
    match clone_port (w_types W) p with
    | Err x => (W, nd, Err x)
    | Ok p' =>
      let '(W1, nd1, q) :=
        match pt_elem p with
        | DRef _ (RObj o) =>
          match node_find W nd (dt_name (w_types W o)) with
          | None =>
            match add_type_from_left fuel W nd o with
            | (W, nd, Ok o') => (W, nd, Ok (with_pelem p' (set_ref (pt_elem p') o')))
            | (W, nd, Err x) => (W, nd, Err x)
            end
          | Some (FType o') =>
            match verify_equal (type_string true (w_types W) (w_types W o'))
                               (type_string true (w_types W) (w_types W o)) with
            | Ok _ => (W, nd, Ok (with_pelem p' (set_ref (pt_elem p') o')))
            | Err x => (W, nd, Err x)
            end
          | Some (FPort o') =>
            match verify_equal (port_string true (w_types W) (w_ports W o'))
                               (type_string true (w_types W) (w_types W o)) with
            | Ok _ => (W, nd, Err ValueError)
            | Err x => (W, nd, Err x)
            end
          end
        | DRef _ _ => (W, nd, Err RuntimeError)
        | _ => (W, nd, Ok p')
        end in
      match q with
      | Err x => (W1, nd1, Err x)
      | Ok q =>
        let '(W2, o) := new_port W1 q in
        match add_port_left W2 nd1 o with
        | (W3, nd3, Ok _) => (W3, nd3, Ok o)
        | (W3, nd3, Err x) => (W3, nd3, Err x)
        end
      end
    end
  end.

(** node.py 181-187 [extend] *)
Fixpoint add_ports_from_left (fuel : nat) (W : world) (nd : node) (l : list nat) : left unit :=
  match l with
  | [] => (W, nd, Ok tt)
  | o :: r =>
    match add_port_from_left fuel W nd o with
    | (W, nd, Ok _) => add_ports_from_left fuel W nd r
    | (W, nd, Err x) => (W, nd, Err x)
    end
  end.
Definition extend_left (fuel : nat) (W : world) (nd other : node) : left unit :=
  add_ports_from_left fuel W nd (n_require other ++ n_provide other).

(** node.py 358-364 [resolve_types] *)
Fixpoint resolve_ports_left (W : world) (types ports : list nat) : world * option exn :=
  match ports with
  | [] => (W, None)
  | o :: r =>
    let '(p, x) := resolve_port_left W types (w_ports W o) in
    let W := set_port W o p in
    match x with
    | Some x => (W, Some x)
    | None => resolve_ports_left W types r
    end
  end.

(** node.py 403-411 [_sort_elements]: one list after the other is replaced. *)
Definition sort_left (W : world) (nd : node) (sort_all : bool) : node * option exn :=
  match sorted_by (fun o => dt_name (w_types W o)) (n_types nd) with
  | Err x => (nd, Some x)
  | Ok ts =>
    let nd := mk_node (n_name nd) (n_final nd) ts (n_require nd) (n_provide nd) (n_map nd) in
    if sort_all then
      match sorted_by (fun o => pt_name (w_ports W o)) (n_require nd) with
      | Err x => (nd, Some x)
      | Ok rs =>
        let nd := mk_node (n_name nd) (n_final nd) ts rs (n_provide nd) (n_map nd) in
        match sorted_by (fun o => pt_name (w_ports W o)) (n_provide nd) with
        | Err x => (nd, Some x)
        | Ok ps => (mk_node (n_name nd) (n_final nd) ts rs ps (n_map nd), None)
        end
      end
    else (nd, None)
  end.

(** node.py 366-377 [finalize] *)
Definition finalize_left (sort compact : bool) (W : world) (nd : node) : left unit :=
  if n_final nd then (W, nd, Ok tt)
  else
    match sort_left W nd sort with
    | (nd, Some x) => (W, nd, Err x)
    | (nd, None) =>
      match resolve_ports_left W (n_types nd) (n_require nd ++ n_provide nd) with
      | (W, Some x) => (W, nd, Err x)
      | (W, None) =>
        let W := if compact then compact_types W nd else W in
        let W := set_type_ids W nd in
        (W, mk_node (n_name nd) true (n_types nd) (n_require nd) (n_provide nd) (n_map nd), Ok tt)
      end
    end.
