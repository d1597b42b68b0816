(** Which data elements have a text form that can be read back, and what reading
    it gives. *)
From Verif Require Import Py TypesModel TextModel.

Definition quoteless (s : str) : Prop := ~ In QUOTE s.

(** Brackets that pair up, as they must inside T["..."]. *)
Inductive bracketed : str -> Prop :=
| bk_nil : bracketed []
| bk_char c s : c <> 91 -> c <> 93 -> bracketed s -> bracketed (c :: s)
| bk_pair a b : bracketed a -> bracketed b -> bracketed (91 :: a ++ 93 :: b).

Definition type_name_ok (n : option str) : Prop :=
  match n with Some s => quoteless s /\ bracketed s | None => False end.

(** [by_name]: the normalized form, which ignores type ids. *)
Fixpoint printable (by_name : bool) (H : theap) (e : delem) : Prop :=
  match e with
  | DPrim _ _ lo hi a =>
    (lo = None <-> hi = None) /\ match a with Some n => 0 <= n | None => True end
  | DRec _ es =>
    (fix go l := match l with
                 | [] => True
                 | x :: r => (exists s, de_name x = Some s /\ quoteless s) /\ printable by_name H x /\ go r
                 end) es
  | DRef _ (RName s) => type_name_ok (Some s)
  | DRef _ (RObj o) =>
    match dt_id (H o) with
    | Some _ => if by_name then type_name_ok (dt_name (H o)) else True
    | None => type_name_ok (dt_name (H o))
    end
  | DRef _ (RInt _) => False
  end.

(** The element as its text describes it: type objects become their id or name. *)
Definition reference_text (by_name : bool) (d : dtype) : tref :=
  match (if by_name then None else dt_id d), dt_name d with
  | Some i, _ => RInt i
  | None, Some s => RName s
  | None, None => RName []
  end.
Fixpoint described (by_name : bool) (H : theap) (e : delem) : delem :=
  match e with
  | DRef n (RObj o) => DRef n (reference_text by_name (H o))
  | DRec n es => DRec n (map (described by_name H) es)
  | _ => e
  end.

(** The element itself has no name in its text (a member's name belongs to the
    record). *)
Definition nameless (e : delem) : delem :=
  match e with
  | DPrim _ c lo hi a => DPrim None c lo hi a
  | DRec _ es => DRec None es
  | DRef _ r => DRef None r
  end.

(** Every reference is a type object that its id, or its name where it has no id or
    [by_name] is set, finds in [types]. *)
Definition locates (by_name : bool) (H : theap) (types : list nat) (o : nat) : Prop :=
  match (if by_name then None else dt_id (H o)) with
  | Some i => 0 <= i /\ nth_error types (Z.to_nat i) = Some o
  | None => exists k, nth_error types k = Some o /\
      forall j o', (j < k)%nat -> nth_error types j = Some o' -> dt_name (H o') <> dt_name (H o)
  end.
Fixpoint located (by_name : bool) (H : theap) (types : list nat) (e : delem) : Prop :=
  match e with
  | DPrim _ _ _ _ _ => True
  | DRec _ es => (fix go l := match l with [] => True | x :: r => located by_name H types x /\ go r end) es
  | DRef _ (RObj o) => locates by_name H types o
  | DRef _ _ => False
  end.

(** What every parsed element looks like. *)
Fixpoint as_parsed (e : delem) : Prop :=
  match e with
  | DPrim _ _ lo hi a =>
    (lo = None <-> hi = None) /\ match a with Some n => 0 <= n | None => True end
  | DRec _ es =>
    (fix go l := match l with
                 | [] => True
                 | x :: r => match de_name x with Some s => quoteless s | None => True end /\ as_parsed x /\ go r
                 end) es
  | DRef _ (RName s) => quoteless s /\ bracketed s
  | DRef _ (RInt _) => True
  | DRef _ (RObj _) => False
  end.

(** Every member of every record has a name. *)
Fixpoint named (e : delem) : Prop :=
  match e with
  | DRec _ es => (fix go l := match l with [] => True | x :: r => de_name x <> None /\ named x /\ go r end) es
  | _ => True
  end.

(** No reference is an index. *)
Fixpoint indexless (e : delem) : Prop :=
  match e with
  | DRec _ es => (fix go l := match l with [] => True | x :: r => indexless x /\ go r end) es
  | DRef _ (RInt _) => False
  | _ => True
  end.

(** No reference is a type object. *)
Fixpoint unlinked (e : delem) : Prop :=
  match e with
  | DRec _ es => (fix go l := match l with [] => True | x :: r => unlinked x /\ go r end) es
  | DRef _ (RObj _) => False
  | _ => True
  end.
