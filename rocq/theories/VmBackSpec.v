(** Buffers in which strings are filled up with zeros: after a zero byte in a string
    there are only zeros. *)
From Verif Require Import Py TypesModel VmModel TypesSpec.

Fixpoint tidy (t : ty) (b : bytes) : Prop :=
  match t with
  | TStr _ => forall a r, b = a ++ 0 :: r -> Forall (eq 0) r
  | TRec ms =>
    (fix go l b := match l with
                   | [] => True
                   | (_, t) :: r => tidy t (firstn (Z.to_nat (tlen t)) b) /\ go r (skipn (Z.to_nat (tlen t)) b)
                   end) ms b
  | _ => True
  end.

(** No array member is longer than the number of members of its record. *)
Fixpoint short_arrays (t : ty) : Prop :=
  match t with
  | TRec ms =>
    (fix go l := match l with
                 | [] => True
                 | (_, t) :: r => match t with TArr _ n => n <= len ms | _ => short_arrays t end /\ go r
                 end) ms
  | _ => True
  end.

(** No strings. *)
Fixpoint numeric (t : ty) : Prop :=
  match t with
  | TInt _ | TArr _ _ => True
  | TChr | TStr _ => False
  | TRec ms => (fix go l := match l with [] => True | (_, t) :: r => numeric t /\ go r end) ms
  end.
