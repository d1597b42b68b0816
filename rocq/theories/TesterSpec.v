(** What a ramp should do. *)
From Verif Require Import Py VmModel TypesSpec NodeDataModel NodeDataSpec ClientModel.

(** From [a] upwards to [b], without turning back. *)
Inductive climb : Z -> list Z -> Z -> Prop :=
| climb_end a b : a <= b -> climb a [b] b
| climb_step a v l b : a <= v -> climb v l b -> climb a (v :: l) b.

(** The history of a ramp: waiting, setting, waiting, setting ... *)
Fixpoint weave (port : nat) (values : list Z) (idle : list (list cev)) : list cev :=
  match values with
  | [] => []
  | v :: r => hd [] idle ++ CWrite (IdPort port) (VInt v) :: weave port r (tl idle)
  end.

(** Everything but writing. *)
Definition passive (e : cev) : Prop := match e with CWrite _ _ => False | _ => True end.

(** Whatever the peer sends for such a port can be read. *)
Definition always_readable (t : ty) : Prop :=
  forall b, len b = tlen t -> readable t b <> None.
