(** The history of a client behind a socket. *)
From Verif Require Import Py NodeDataModel ClientModel SocketModel NetModel.

Definition of_program (e : cev) : bool := match e with CConnect _ | CMsg _ => false | _ => true end.

Definition chunks (evs : list nev) : bytes := flat_map (fun e => match e with Chunk b => b | App _ => [] end) evs.
Definition program (evs : list nev) : list cev := flat_map (fun e => match e with Chunk _ => [] | App e => [e] end) evs.
Definition nev_ok (e : nev) : Prop :=
  match e with Chunk b => b <> [] /\ bytes_ok b | App e => of_program e = true end.

(** The answers to the program in a history of the client. *)
Definition program_answers {A} (hist : list cev) (l : list A) : list A :=
  map snd (filter (fun x => of_program (fst x)) (combine hist l)).

(** What came of the connection and the messages. *)
Definition peer_answers {A} (hist : list cev) (l : list A) : list A :=
  map snd (filter (fun x => negb (of_program (fst x))) (combine hist l)).
(** The socket thread and the outcomes of the messages: it runs while none of them
    raised; the first one that raised is the last one and has ended the thread. *)
Definition quiet {A} (a : pres A) : Prop := forall e, a <> Raised e.
Definition fate {A} (s : wstatus) (l : list (pres A)) : Prop :=
  match s with
  | Running => Forall quiet l
  | Stopped => exists q, l = q ++ [Raised OSError] /\ Forall quiet q
  | Crashed e => e <> OSError /\ exists q, l = q ++ [Raised e] /\ Forall quiet q
  end.
