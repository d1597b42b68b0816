(** A client behind its socket: /repo/apx/client.py 55-63 with
    /repo/remotefile/socket_adapter.py.  The socket thread hands complete messages to
    the file manager of the client (and so to its node data); an exception there ends
    the thread.  Between two reads of the socket the application and the worker
    thread do what they like. *)
From Verif Require Import Py NodeDataModel ClientModel SocketModel.

(** The exception of a callback; one that waits for ever raises none. *)
Definition raised {A} (p : pres A) : option exn := match p with Raised e => Some e | _ => None end.

(** The handler that [connect_tcp] sets (57); [h] is the socket adapter. *)
Definition client_handler (h : nat) : handler client :=
  mk_handler client
    (fun c => let '(c', a) := client_step c (CConnect h) in (c', raised a))
    (fun c m => let '(c', a) := client_step c (CMsg m) in (c', raised a)).

(** What happens: a read of the socket returns bytes, or something of the program. *)
Inductive nev := Chunk (b : bytes) | App (e : cev).

Definition net_step (h : nat) (w : worker client) (e : nev) : worker client * list (pres (option NodeDataModel.oval)) :=
  match e with
  | Chunk b => (recv (Some (client_handler h)) w b, [])
  | App e =>
    let '(c, a) := client_step (a_st (w_ad w)) e in
    (mk_worker (w_unprocessed w) (mk_astate (a_ack (w_ad w)) c) (w_status w), [a])
  end.

Fixpoint net_run (h : nat) (w : worker client) (evs : list nev) : worker client * list (pres (option NodeDataModel.oval)) :=
  match evs with
  | [] => (w, [])
  | e :: r =>
    let '(w1, a) := net_step h w e in
    let '(w2, l) := net_run h w1 r in (w2, a ++ l)
  end.
