(** What a client does, in terms of an abstract node ([astate]) and a mailbox. *)
From Verif Require Import Py TypesModel TextModel NodeModel VmModel TypesSpec RmfModel FileModel
  NodeDataModel NodeDataSpec ClientModel.

Definition ports_of (nd : node) (provide : bool) : list nat := if provide then n_provide nd else n_require nd.

(** Port number [i] is what the node finds under this name: no type has the name,
    nor an earlier port, and require ports come before provide ports. *)
Definition named (W : world) (nd : node) (s : str) (provide : bool) (i : nat) : Prop :=
  exists o, nth_error (ports_of nd provide) i = Some o /\ pt_name (w_ports W o) = Some s /\
  (forall t, In t (n_types nd) -> dt_name (w_types W t) <> Some s) /\
  (forall j o', (j < i)%nat -> nth_error (ports_of nd provide) j = Some o' -> pt_name (w_ports W o') <> Some s) /\
  (provide = true -> forall o', In o' (n_require nd) -> pt_name (w_ports W o') <> Some s).

(** ... and a type, if a type has it. *)
Definition named_type (W : world) (nd : node) (s : str) (t : nat) : Prop :=
  exists i, nth_error (n_types nd) i = Some t /\ dt_name (w_types W t) = Some s /\
  (forall j t', (j < i)%nat -> nth_error (n_types nd) j = Some t' -> dt_name (w_types W t') <> Some s).

(** A number means a port of one kind; negative numbers count from the end. *)
Definition numbered_port (nd : node) (provide : bool) (k : Z) (i : nat) : Prop :=
  (i < length (ports_of nd provide))%nat /\ (k = Z.of_nat i \/ k = Z.of_nat i - len (ports_of nd provide)).

(** [picks W nd id writing provide i]: for this operation the identifier means the
    port number [i] of this kind. *)
Inductive picks (W : world) (nd : node) : ident -> bool -> bool -> nat -> Prop :=
| pk_object o writing provide i : nth_error (ports_of nd provide) i = Some o ->
    writing = false \/ provide = true -> picks W nd (IdPort o) writing provide i
| pk_name s writing provide i : named W nd s provide i ->
    writing = false \/ provide = true -> picks W nd (IdName s) writing provide i
| pk_number k writing i : numbered_port nd writing k i -> picks W nd (IdNum k) writing writing i.

(** Ports are in the list of their kind. *)
Definition kinds_ok (W : world) (nd : node) : Prop :=
  (forall o, In o (n_require nd) -> pt_provide (w_ports W o) = false) /\
  (forall o, In o (n_provide nd) -> pt_provide (w_ports W o) = true).

(** The address at which the peer keeps the input file, once it is open; whether
    the socket thread still lives. *)
Record cstate := mk_cstate { k_node : astate; k_box : option Z; k_hung : bool }.

(** A message that carries data. *)
Definition carries (msg : bytes) (a : Z) (d : bytes) (more : bool) : Prop :=
  exists k, unpackHeader msg = (k, Some a, more) /\ 0 < k /\ a < 0x3FFFFC00 /\ d = skipn (Z.to_nat k) msg.
(** ... for the input file at [b] with [n] bytes *)
Definition lands (b n a : Z) (d : bytes) : Prop := b <= a < b + n /\ a + len d <= b + n.

(** A message that announces the file [name] with [n] bytes at address [a]. *)
Definition announces (msg : bytes) (name : str) (n a : Z) : Prop :=
  exists k more info, unpackHeader msg = (k, Some 0x3FFFFC00, more) /\ 0 < k /\
    unpackFileInfo (skipn (Z.to_nat k) msg) Little = Ok (Some info) /\
    unpack_uint Little (slice (skipn (Z.to_nat k) msg) 0 4) = 3 /\
    fi_name info = name /\ fi_length info = n /\ fi_address info = Some a.

(** Answers of the client for replies of the node. *)
Definition answers (r : reply) (a : pres (option oval)) : Prop :=
  match r, a with
  | AStored _, Done None => True
  | AValue v, Done (Some v') => v' = v
  | ACalls _, Done None => True
  | AFailed _, Raised _ => True
  | AWaits _, Blocked => True
  | _, _ => False
  end.
Definition calls_of (r : reply) : list (nat * pyval) :=
  match r with ACalls l | AFailed l | AWaits l => l | _ => [] end.

Inductive cmove (W : world) (nd : node) (ins outs : list ty) (inname : str) :
  cstate -> cev -> cstate -> list (nat * pyval) -> pres (option oval) -> Prop :=
| cm_write s b h id i v live s' r a : picks W nd id true true i ->
    astep ins outs live true s (NWrite (Z.of_nat i) v) s' r -> answers r a ->
    cmove W nd ins outs inname (mk_cstate s b h) (CWrite id v) (mk_cstate s' b h) [] a
| cm_write_none s id v e : (forall i, ~ picks W nd id true true i) ->
    cmove W nd ins outs inname s (CWrite id v) s [] (Raised e)
| cm_read s b h id i live s' r a : picks W nd id false false i ->
    astep ins outs live true s (NRead (Z.of_nat i)) s' r -> answers r a ->
    cmove W nd ins outs inname (mk_cstate s b h) (CRead id) (mk_cstate s' b h) [] a
| cm_value s b h id i v : picks W nd id false true i -> nth_error (a_vals s) i = Some v ->
    cmove W nd ins outs inname (mk_cstate s b h) (CRead id) (mk_cstate s b h) [] (Done (Some v))
| cm_read_type s b h nm t i v : named_type W nd nm t -> dt_id (w_types W t) = Some (Z.of_nat i) ->
    nth_error (a_vals s) i = Some v ->
    cmove W nd ins outs inname (mk_cstate s b h) (CRead (IdName nm)) (mk_cstate s b h) [] (Done (Some v))
| cm_read_none s b h id e : (forall i p, ~ picks W nd id false p i) ->
    (forall nm t i v, id = IdName nm -> named_type W nd nm t -> dt_id (w_types W t) = Some (Z.of_nat i) ->
       nth_error (a_vals s) i <> Some v) ->
    cmove W nd ins outs inname (mk_cstate s b h) (CRead id) (mk_cstate s b h) [] (Raised e)
| cm_data s b msg x d more live s' r a : carries msg x d more -> lands b (total ins) x d ->
    astep ins outs live true s (NArrive (x - b) d more) s' r -> answers r a ->
    cmove W nd ins outs inname (mk_cstate s (Some b) false) (CMsg msg)
      (mk_cstate s' (Some b) (match a with Blocked => true | _ => false end)) (calls_of r) a
| cm_opened s msg b : announces msg inname (total ins) b -> 0 < total ins ->
    cmove W nd ins outs inname (mk_cstate s None false) (CMsg msg) (mk_cstate s (Some b) false) [] (Done None)
| cm_other s box msg a :
    (forall x d more b, carries msg x d more -> box = Some b -> ~ lands b (total ins) x d) ->
    (forall b, box = None -> 0 < total ins -> ~ announces msg inname (total ins) b) -> a <> Blocked ->
    cmove W nd ins outs inname (mk_cstate s box false) (CMsg msg) (mk_cstate s box false) [] a
| cm_hung s box msg :
    cmove W nd ins outs inname (mk_cstate s box true) (CMsg msg) (mk_cstate s box true) [] Blocked
| cm_listen s b : cmove W nd ins outs inname s (CListen b) s [] (Done None)
| cm_start s a : a <> Blocked -> cmove W nd ins outs inname s CStart s [] a
| cm_connect s h a : a <> Blocked -> cmove W nd ins outs inname s (CConnect h) s [] a
| cm_work s : cmove W nd ins outs inname s CWork s [] (Done None).

(** Calls with port objects, and the same calls with the numbers of require ports. *)
Definition heard_as (nd : node) (objs calls : list (nat * pyval)) : Prop :=
  Forall2 (fun o c => nth_error (n_require nd) (fst c) = Some (fst o) /\ snd o = snd c) objs calls.

(** Histories; [calls] are those the listener heard. *)
Inductive cmoves (W : world) (nd : node) (ins outs : list ty) (inname : str) :
  cstate -> bool -> list cev -> cstate -> list (nat * pyval) -> list (pres (option oval)) -> Prop :=
| cms_nil s on : cmoves W nd ins outs inname s on [] s [] []
| cms_cons s on e s1 c1 a evs s2 c2 l :
    cmove W nd ins outs inname s e s1 c1 a ->
    cmoves W nd ins outs inname s1 (match e with CListen b => b | _ => on end) evs s2 c2 l ->
    cmoves W nd ins outs inname s on (e :: evs) s2 ((if on then c1 else []) ++ c2) (a :: l).
