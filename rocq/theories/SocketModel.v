(** Model of the byte stream side of the socket adapter,
    /repo/remotefile/socket_adapter.py.
    The OS socket is replaced by the list of chunks that [recv] returns and the
    bytes handed to [send].  Threads: the worker is the only reader. *)
From Verif Require Import Py NumHeaderModel.

(** A receive handler (remotefile/__init__.py:179-190) with its own state; each
    callback returns the new state and the exception it raises, if any. *)
Record handler (S : Type) := mk_handler {
  h_connected : S -> S * option exn;
  h_msg : S -> bytes -> S * option exn }.
Arguments h_connected {S} _ _.
Arguments h_msg {S} _ _ _.

(** socket_adapter.py:13-22: [isAcknowledgeSeen] and the handler's state. *)
Record astate (S : Type) := mk_astate { a_ack : bool; a_st : S }.
Arguments mk_astate {S} _ _.
Arguments a_ack {S} _.
Arguments a_st {S} _.

(** The acknowledge literal, socket_adapter.py:120. *)
Definition ACK_MSG : bytes := [0xbf; 0xff; 0xfc; 0; 0; 0; 0; 0].

(** What happens to one complete message, socket_adapter.py:119-126.
    [None] as handler is [receiveHandler = None]. *)
Definition deliver {S} (h : option (handler S)) (a : astate S) (msg : bytes)
  : astate S * option exn :=
  if negb (a_ack a) then
    if (len msg =? 8) && str_eqb msg ACK_MSG then
      match h with
      | None => (mk_astate true (a_st a), Some AttributeError)
      | Some h => let '(s, e) := h_connected h (a_st a) in (mk_astate true s, e)
      end
    else (a, Some RuntimeError)
  else
    match h with
    | None => (a, None)
    | Some h => let '(s, e) := h_msg h (a_st a) msg in (mk_astate (a_ack a) s, e)
    end.

(** socket_adapter.py:108-129 [_parseMessage]. *)
Definition parseMessage {S} (h : option (handler S)) (a : astate S)
    (buf : bytes) (iBegin iEnd : Z) : astate S * res Z :=
  match decode32 buf iBegin (Some iEnd) with
  | Err e => (a, Err e)
  | Ok (bytesParsed, value) =>
    if bytesParsed <? 0 then (a, Ok bytesParsed)
    else if bytesParsed =? 0 then (a, Ok iBegin)
    else
      match value with
      | None => (a, Err TypeError)
      | Some value =>
        let iNext := iBegin + bytesParsed in
        if iNext + value <=? iEnd then
          let msg := slice buf iNext (iNext + value) in
          let '(a', e) := deliver h a msg in
          match e with
          | Some e => (a', Err e)
          | None => (a', Ok (iNext + value))
          end
        else (a, Ok iBegin)
      end
  end.

(** socket_adapter.py:88-106 [_parseData]; the loop gets fuel, one unit per
    iteration.  [RecursionError] marks exhausted fuel. *)
Fixpoint parseLoop {S} (fuel : nat) (h : option (handler S)) (a : astate S)
    (buf : bytes) (iBegin iEnd : Z) : astate S * res Z :=
  match fuel with
  | O => (a, Err RecursionError)
  | Datatypes.S k =>
    if iBegin <? iEnd then
      match parseMessage h a buf iBegin iEnd with
      | (a', Err e) => (a', Err e)
      | (a', Ok iNext) =>
        if iNext <? iBegin then (a', Ok (-1))
        else if iNext =? iBegin then (a', Ok iBegin)
        else parseLoop k h a' buf iNext iEnd
      end
    else (a, Ok iBegin)
  end.

Definition parseData {S} (h : option (handler S)) (a : astate S) (buf : bytes)
  : astate S * res Z :=
  parseLoop (Datatypes.S (length buf)) h a buf 0 (len buf).

(** The worker thread, socket_adapter.py:24-50.  It ends silently when the
    socket is closed (empty chunk), on a negative parse result or on OSError;
    any other exception kills the thread. *)
Inductive wstatus := Running | Stopped | Crashed (e : exn).

Record worker (S : Type) := mk_worker {
  w_unprocessed : bytes;
  w_ad : astate S;
  w_status : wstatus }.
Arguments mk_worker {S} _ _ _.
Arguments w_unprocessed {S} _.
Arguments w_ad {S} _.
Arguments w_status {S} _.

Definition init_worker {S} (s : S) : worker S := mk_worker [] (mk_astate false s) Running.

Definition recv {S} (h : option (handler S)) (w : worker S) (chunk : bytes) : worker S :=
  match w_status w with
  | Running =>
    if len chunk =? 0 then mk_worker (w_unprocessed w) (w_ad w) Stopped
    else
      let un := w_unprocessed w ++ chunk in
      match parseData h (w_ad w) un with
      | (a', Ok result) =>
        if result <? 0 then mk_worker un a' Stopped
        else if 0 <? result then mk_worker (slice_from un result) a' Running
        else mk_worker un a' Running
      | (a', Err OSError) => mk_worker un a' Stopped
      | (a', Err e) => mk_worker un a' (Crashed e)
      end
  | _ => w
  end.

Definition recv_all {S} (h : option (handler S)) (w : worker S) (chunks : list bytes) : worker S :=
  fold_left (recv h) chunks w.

(** socket_adapter.py:81-86 [send]: the bytes written to the socket. *)
Definition send (data : bytes) : res bytes :=
  do header <- encode32 (len data);
  Ok (header ++ data).

(** socket_adapter.py:54-65 [connect]: the first bytes a client writes. *)
Definition GREETING : bytes := lit "RMFP/1.0" ++ [10] ++ lit "NumHeader-Format:32" ++ [10; 10].
Definition connect_bytes : res bytes := send GREETING.

(** A sequence of sends on one connection. *)
Fixpoint send_all (msgs : list bytes) : res bytes :=
  match msgs with
  | [] => Ok []
  | m :: r => do a <- send m; do b <- send_all r; Ok (a ++ b)
  end.
