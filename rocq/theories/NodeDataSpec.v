(** What the data of a node means: an abstract node keeps one byte string per
    provide port, the last value of each provide port, and the input bytes. *)
From Verif Require Import Py TypesModel TextModel AttrModel NodeModel VmModel TypesSpec FileModel NodeDataModel.

(** [l] are byte ranges one after the other from [a] to [b]. *)
Fixpoint consecutive (a : Z) (l : list portmap) (b : Z) : Prop :=
  match l with
  | [] => a = b
  | m :: r => pm_offset m = a /\ consecutive (a + pm_len m) r b
  end.

Definition inside (m : portmap) (x : Z) : Prop := pm_offset m <= x < pm_offset m + pm_len m.

(** Array lengths are not negative (the DataElement constructor sees to that). *)
Fixpoint sane (e : delem) : Prop :=
  match e with
  | DPrim _ _ _ _ (Some n) => 0 <= n
  | DRec _ es => (fix go l := match l with [] => True | x :: r => sane x /\ go r end) es
  | _ => True
  end.
Definition sane_world (W : world) : Prop :=
  (forall o, sane (dt_elem (w_types W o))) /\ (forall o, sane (pt_elem (w_ports W o))).

(** Sum of the sizes of types, and the part of [data] that belongs to port [i]. *)
Fixpoint total (ts : list ty) : Z := match ts with [] => 0 | t :: r => tlen t + total r end.
Definition port_start (ts : list ty) (i : nat) : Z := total (firstn i ts).
Definition part_of (ts : list ty) (data : bytes) (i : nat) : bytes :=
  match nth_error ts i with
  | Some t => firstn (Z.to_nat (tlen t)) (skipn (Z.to_nat (port_start ts i)) data)
  | None => []
  end.

(** Records with records inside cannot be read (C28). *)
Definition readable (t : ty) (b : bytes) : option pyval :=
  match t with
  | TRec ms => if existsb (fun m => is_rec (snd m)) ms then None else dec t b
  | _ => dec t b
  end.

Record astate := mk_astate {
  a_parts : list bytes;   (* the bytes of each provide port *)
  a_vals : list oval;     (* the value of each provide port *)
  a_in : bytes;           (* the content of the input file *)
  a_stuck : bool          (* the lock was never given back *)
}.

Inductive nop :=
| NWrite (i : Z) (v : pyval)                        (* write_provide_port *)
| NValue (i : Z)                                    (* read_provide_port *)
| NRead (i : Z)                                     (* read_require_port *)
| NArrive (off : Z) (d : bytes) (more : bool).      (* a remote write to the input file *)

Inductive reply :=
| AStored (notified : list (Z * Z))     (* written; ranges passed on to the file manager *)
| AValue (v : oval)
| ACalls (calls : list (nat * pyval))   (* the client was called for these port numbers *)
| AFailed (calls : list (nat * pyval))  (* an exception, after these calls *)
| AWaits (calls : list (nat * pyval)).  (* waits for the lock forever *)

(** The require ports whose bytes meet [off, off+n), first port first. *)
Definition affected (ts : list ty) (off n : Z) : list nat :=
  filter (fun i => match nth_error ts i with
                   | Some t => Z.max (port_start ts i) off <? Z.min (port_start ts i + tlen t) (off + n)
                   | None => false
                   end) (seq 0 (length ts)).

(** Calling the client for these ports: stops at the first unreadable one. *)
Fixpoint deliver (ts : list ty) (data : bytes) (l : list nat) : list (nat * pyval) * bool :=
  match l with
  | [] => ([], true)
  | i :: r =>
    match nth_error ts i with
    | Some t =>
      match readable t (part_of ts data i) with
      | Some v => let '(c, ok) := deliver ts data r in ((i, v) :: c, ok)
      | None => ([], false)
      end
    | None => ([], false)
    end
  end.

Definition replaced {A} (l : list A) (i : nat) (x : A) : list A := firstn i l ++ x :: skipn (S i) l.

(** [astep ins outs live heard s op s' r]: types of the require and provide ports;
    [live]: the output file is attached and open; [heard]: there is a client. *)
Inductive astep (ins outs : list ty) (live heard : bool) : astate -> nop -> astate -> reply -> Prop :=
| as_store s i t v b : a_stuck s = false -> nth_error outs i = Some t -> roomy t v -> enc t v = Some b ->
    0 < total outs ->
    astep ins outs live heard s (NWrite (Z.of_nat i) v)
      (mk_astate (replaced (a_parts s) i b) (replaced (a_vals s) i (OVal v)) (a_in s) false)
      (AStored (if live then [(port_start outs i, tlen t)] else []))
| as_store_empty s i t v b : a_stuck s = false -> nth_error outs i = Some t -> roomy t v -> enc t v = Some b ->
    total outs = 0 ->
    astep ins outs live heard s (NWrite (Z.of_nat i) v)
      (mk_astate (a_parts s) (replaced (a_vals s) i (OVal v)) (a_in s) false) (AFailed [])
| as_refuse s i t v : a_stuck s = false -> nth_error outs i = Some t ->
    (roomy t v -> enc t v = None) ->
    astep ins outs live heard s (NWrite (Z.of_nat i) v)
      (mk_astate (a_parts s) (a_vals s) (a_in s) true) (AFailed [])
| as_write_wait s i t v : a_stuck s = true -> nth_error outs i = Some t ->
    astep ins outs live heard s (NWrite (Z.of_nat i) v) s (AWaits [])
| as_write_none s i v : i < 0 \/ len outs <= i -> astep ins outs live heard s (NWrite i v) s (AFailed [])
| as_value s i v : nth_error (a_vals s) i = Some v ->
    astep ins outs live heard s (NValue (Z.of_nat i)) s (AValue v)
| as_value_none s i : i < 0 \/ len outs <= i -> astep ins outs live heard s (NValue i) s (AFailed [])
| as_read s i t v : a_stuck s = false -> 0 < total ins -> nth_error ins i = Some t ->
    readable t (part_of ins (a_in s) i) = Some v ->
    astep ins outs live heard s (NRead (Z.of_nat i)) s (AValue (OVal v))
| as_read_bad s i t : a_stuck s = false -> 0 < total ins -> nth_error ins i = Some t ->
    readable t (part_of ins (a_in s) i) = None ->
    astep ins outs live heard s (NRead (Z.of_nat i))
      (mk_astate (a_parts s) (a_vals s) (a_in s) true) (AFailed [])
| as_read_wait s i t : a_stuck s = true -> 0 < total ins -> nth_error ins i = Some t ->
    astep ins outs live heard s (NRead (Z.of_nat i)) s (AWaits [])
| as_read_none s i : i < 0 \/ len ins <= i \/ total ins = 0 ->
    astep ins outs live heard s (NRead i) s (AFailed [])
| as_arrive_out s off d more : off < 0 \/ len (a_in s) < off + len d ->
    astep ins outs live heard s (NArrive off d more) s (ACalls [])
| as_arrive s off d more data' l calls ok r :
    0 <= off -> off + len d <= len (a_in s) ->
    data' = firstn (Z.to_nat off) (a_in s) ++ d ++ skipn (Z.to_nat (off + len d)) (a_in s) ->
    l = (if negb more && heard then affected ins off (len d) else []) ->
    deliver ins data' l = (calls, ok) ->
    r = (if a_stuck s then match l with [] => ACalls [] | _ => AWaits [] end
         else if ok then ACalls calls else AFailed calls) ->
    astep ins outs live heard s (NArrive off d more)
      (mk_astate (a_parts s) (a_vals s) data' (a_stuck s || negb ok)) r.

Inductive arun (ins outs : list ty) (live heard : bool) : astate -> list nop -> astate -> list reply -> Prop :=
| ar_nil s : arun ins outs live heard s [] s []
| ar_cons s op s1 r ops s2 rs : astep ins outs live heard s op s1 r ->
    arun ins outs live heard s1 ops s2 rs -> arun ins outs live heard s (op :: ops) s2 (r :: rs).

(** The same operations on the model. *)
Definition reply_of {A} (f : A -> reply) (calls : list (nat * pyval)) (p : pres A) : reply :=
  match p with Done a => f a | Raised _ => AFailed calls | Blocked => AWaits calls end.

Definition out_ranges (l : list (nat * fevent)) : list (Z * Z) :=
  flat_map (fun x => match snd x with OutNotify o n => [(o, n)] | InNotify _ _ => [] end) l.

(** The client is called with port objects; ports are reported by their id. *)
Definition port_number (W : world) (o : nat) : nat :=
  match pt_id (w_ports W o) with Some i => Z.to_nat i | None => 0 end.
Definition numbered (W : world) (calls : list (nat * pyval)) : list (nat * pyval) :=
  map (fun c => (port_number W (fst c), snd c)) calls.

Definition cstep (W : world) (F : heap) (D : ndata) (op : nop) : heap * ndata * reply :=
  match op with
  | NWrite i v =>
    let '(F', D', ev, r) := write_provide_port W F D i v in
    (F', D', reply_of (fun _ => AStored (out_ranges ev)) [] r)
  | NValue i => (F, D, reply_of AValue [] (read_provide_port W D i))
  | NRead i => let '(D', r) := read_require_port W F D i in (F, D', reply_of (fun v => AValue (OVal v)) [] r)
  | NArrive off d more =>
    match d_in D with
    | None => (F, D, ACalls [])
    | Some k =>
      let '(f, _, ev) := input_write (F k) off d more in
      let F' := upd F k f in
      match ev with
      | [InNotify o n] =>
        let '(D', calls, r) := in_port_notify W F' D o n in
        (F', D', reply_of (fun _ => ACalls (numbered W calls)) (numbered W calls) r)
      | _ => (F', D, ACalls [])
      end
    end
  end.

Fixpoint crun (W : world) (F : heap) (D : ndata) (ops : list nop) : heap * ndata * list reply :=
  match ops with
  | [] => (F, D, [])
  | op :: r =>
    let '(F1, D1, x) := cstep W F D op in
    let '(F2, D2, xs) := crun W F1 D1 r in (F2, D2, x :: xs)
  end.

(** ** Initial values *)

(** The bytes of an init value of the shape of the type: numbers modulo their
    width, text by its character codes, cut or filled with zeros. *)
Fixpoint init_bytes (t : ty) (v : ivalue) : option bytes :=
  match t, v with
  | TInt k, IVInt z => Some (num_le (width k) z)
  | TArr k n, IVList l =>
    if len l =? n then
      (fix go l := match l with
                   | [] => Some []
                   | IVInt z :: r => match go r with Some b => Some (num_le (width k) z ++ b) | None => None end
                   | _ => None
                   end) l
    else None
  | TStr n, IVStr s =>
    if forallb byte_okb (firstn (Z.to_nat n) s) then Some (fit n s) else None
  | TRec ms, IVList l =>
    (fix go ms l := match ms, l with
                    | [], [] => Some []
                    | (_, t) :: ms', x :: l' =>
                      match init_bytes t x, go ms' l' with
                      | Some a, Some b => Some (a ++ b)
                      | _, _ => None
                      end
                    | _, _ => None
                    end) ms l
  | _, _ => None
  end.

(** The bytes a port starts with. *)
Definition first_bytes (t : ty) (v : ivalue) : option bytes :=
  match v with IVNone => Some (zeros (tlen t)) | _ => init_bytes t v end.

(** The Python value an init value stands for. *)
Fixpoint value_of (t : ty) (v : ivalue) : option pyval :=
  match t, v with
  | TInt _, IVInt z => Some (VInt z)
  | TArr k _, IVList l =>
    (fix go l := match l with
                 | [] => Some (VList [])
                 | IVInt z :: r => match go r with Some (VList x) => Some (VList (VInt z :: x)) | _ => None end
                 | _ => None
                 end) l
  | TStr _, IVStr s => Some (VStr s)
  | TRec ms, IVList l =>
    (fix go ms l := match ms, l with
                    | [], [] => Some (VDict [])
                    | (nm, t) :: ms', x :: l' =>
                      match value_of t x, go ms' l' with
                      | Some a, Some (VDict d) => Some (VDict ((nm, a) :: d))
                      | _, _ => None
                      end
                    | _, _ => None
                    end) ms l
  | _, _ => None
  end.
