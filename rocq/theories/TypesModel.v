(** Data types: model of the type part of /repo/apx/base.py.

    [DataElement] objects are trees; [DataType] objects are shared by reference,
    so they live in a heap [nat -> dtype] and a resolved reference names a heap
    cell.  Python's recursion limit is the argument [fuel]: a call deeper than
    that raises RecursionError. *)
From Verif Require Import Py.

(** base.py 7-18: type codes below RECORD_TYPE_CODE. *)
Inductive tcode := CU8 | CU16 | CU32 | CU64 | CS8 | CS16 | CS32 | CS64 | CSTR.

(** A type reference: an index, a name, or a resolved [DataType] object. *)
Inductive tref := RInt (i : Z) | RName (s : str) | RObj (o : nat).

(** base.py 417-457 [DataElement]: a primitive with optional limits and array
    length, a record, or a reference.  [name] is None unless it is a record
    member.  Simplification: a record with an array length is not modelled (no
    parser rule and no factory method makes one). *)
Inductive delem :=
| DPrim (name : option str) (code : tcode) (lo hi alen : option Z)
| DRec (name : option str) (elements : list delem)
| DRef (name : option str) (ref : tref).

Definition de_name (e : delem) : option str :=
  match e with DPrim n _ _ _ _ => n | DRec n _ => n | DRef n _ => n end.

(** base.py 193-203 [DataType] ([attr] is kept as text).  A declaration without
    a quoted name has the name None. *)
Record dtype := mk_dtype {
  dt_name : option str;
  dt_elem : delem;
  dt_attr : option str;
  dt_id : option Z;
  dt_short : option str
}.

Definition theap := nat -> dtype.

Definition MAX_RECURSE_DEPTH : nat := 10.

Definition is_reference (e : delem) : bool :=
  match e with DRef _ _ => true | _ => false end.

(** base.py 606-620 [DataElement.resolve_data_element]. *)
Fixpoint resolve_loop (count : nat) (H : theap) (e : delem) : res delem :=
  match count with
  | O => if is_reference e then Err RuntimeError else Ok e
  | S k =>
    match e with
    | DRef _ (RObj o) => resolve_loop k H (dt_elem (H o))
    | DRef _ _ => Err ApxTypeError
    | _ => Ok e
    end
  end.
Definition resolve_data_element (H : theap) (e : delem) : res delem :=
  resolve_loop MAX_RECURSE_DEPTH H e.

(** base.py 459-470 the [arrayLen] attribute. *)
Definition arrayLen (e : delem) : option Z :=
  match e with DPrim _ _ _ _ a => a | _ => None end.

(** base.py 472-474 [DataElement.isArray]. *)
Definition isArray (H : theap) (e : delem) : res bool :=
  do d <- resolve_data_element H e;
  Ok (match arrayLen d with Some _ => true | None => false end).

(** base.py 270-273 [typeSizes]. *)
Definition typeSize (c : tcode) : Z :=
  match c with
  | CU8 => 1 | CU16 => 2 | CU32 => 4 | CU64 => 8
  | CS8 => 1 | CS16 => 2 | CS32 => 4 | CS64 => 8
  | CSTR => 1
  end.

(** base.py 269-292 [DataSignature._calcElemSize]. *)
Fixpoint calcElemSize (fuel : nat) (H : theap) (e : delem) : res Z :=
  match fuel with
  | O => Err RecursionError
  | S k =>
    match e with
    | DRef _ (RObj o) => calcElemSize k H (dt_elem (H o))
    | DRef _ _ => Err AssertionError
    | DRec _ es =>
      fold_left (fun acc c => do a <- acc; do s <- calcElemSize k H c; Ok (a + s)) es (Ok 0)
    | DPrim _ c _ _ a =>
      Ok (match a with Some n => typeSize c * n | None => typeSize c end)
    end
  end.

(** Number of nodes of an element: bounds the number of turns of the loop below. *)
Fixpoint delem_size (e : delem) : nat :=
  match e with
  | DRec _ es => S ((fix go l := match l with [] => O | x :: r => delem_size x + go r end) es)
  | _ => 1
  end%nat.

(** base.py 247-267 [DataSignature.packLen]: the while loop with its explicit
    stack of iterators.  [turns] bounds the loop; [packLen] passes a number that
    is always enough. *)
Fixpoint packLen_loop (turns fuel : nat) (H : theap) (i : list delem)
    (stack : list (list delem)) (result : Z) : res Z :=
  match turns with
  | O => Err RecursionError
  | S t =>
    match i with
    | [] =>
      match stack with
      | [] => Ok result
      | i' :: stack' => packLen_loop t fuel H i' stack' result
      end
    | e :: i' =>
      match e with
      | DRec _ es => packLen_loop t fuel H es (i' :: stack) result
      | _ => do s <- calcElemSize fuel H e; packLen_loop t fuel H i' stack (result + s)
      end
    end
  end.
Definition packLen (fuel : nat) (H : theap) (e : delem) : res Z :=
  packLen_loop (2 * delem_size e + 1) fuel H [e] [] 0.

(** base.py 575-604 [DataElement.resolve_type]: the element with its references
    replaced by objects of [typeList].  Simplification: the in-place update of
    the elements before a failing one is not visible in the result. *)
Definition opt_eqb (a b : option str) : bool :=
  match a, b with
  | Some x, Some y => str_eqb x y
  | None, None => true
  | _, _ => false
  end.

Definition find_type (H : theap) (name : str) (l : list nat) : option nat :=
  find (fun o => opt_eqb (dt_name (H o)) (Some name)) l.

Fixpoint resolve_type (H : theap) (typeList : option (list nat)) (e : delem) : res delem :=
  match e with
  | DRef _ (RObj _) => Ok e
  | DRef n (RInt i) =>
    match typeList with
    | None => Err ValueError
    | Some l => do o <- index l i; Ok (DRef n (RObj o))
    end
  | DRef n (RName s) =>
    match typeList with
    | None => Err ValueError
    | Some l =>
      match find_type H s l with
      | Some o => Ok (DRef n (RObj o))
      | None => Err ApxTypeError
      end
    end
  | DRec n es =>
    do es' <- (fix go l := match l with
                           | [] => Ok []
                           | x :: r => do x' <- resolve_type H typeList x;
                                       do r' <- go r; Ok (x' :: r')
                           end) es;
    Ok (DRec n es')
  | DPrim _ _ _ _ _ => Ok e
  end.
