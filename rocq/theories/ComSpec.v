(** Specification of the Com layer: a semantics for its C statements, and what sending
    and receiving should do.

    Values are those of GenSpec.v.  [memcmp] compares objects of the same type; padding
    between members is taken to be the same always. *)
From Verif Require Import Py TypesModel TextModel AttrModel NodeModel VmModel TypesSpec CompilerModel
  NodeDataModel NodeDataSpec GenModel GenSpec GenFilesModel AutosarModel ComModel.

Fixpoint same_val (a b : cval) : bool :=
  match a, b with
  | CInt x, CInt y => x =? y
  | CArr l, CArr m => str_eqb l m
  | CStruct fs, CStruct gs =>
    (fix go fs gs := match fs, gs with
                     | [], [] => true
                     | (k, x) :: fs', (h, y) :: gs' => str_eqb k h && same_val x y && go fs' gs'
                     | _, _ => false
                     end) fs gs
  | _, _ => false
  end.

(** The static variables, the output data of the node, what the parameter is or points
    to, and the calls of Write functions so far. *)
Record comst := mk_comst {
  cs_vars : str -> option cval;
  cs_out : bytes;
  cs_arg : cval;
  cs_log : list (str * cval)
}.

(** The function that a name stands for. *)
Definition named (fs : list cfun) (s : str) : option cfun :=
  match filter (fun f => str_eqb (cf_name f) s) fs with [f] => Some f | _ => None end.

Section Running.
(** The Write and Read functions of the node; the input data; the parameter: pointer or
    not, and its name, which hides a variable of that name. *)
Variable writes reads : list cfun.
Variable input : bytes.
Variable ptr : bool.
Variable pname : str.

Definition variable (s : comst) (x : str) : option cval := if str_eqb x pname then None else cs_vars s x.
Definition by_value (s : comst) (x : str) : option cval :=
  if str_eqb x pname then if ptr then None else Some (cs_arg s) else cs_vars s x.
Definition by_pointer (s : comst) (x : str) : option cval :=
  if str_eqb x pname then if ptr then Some (cs_arg s) else None else None.
Definition set_var (s : comst) (x : str) (v : cval) : comst :=
  mk_comst (fun y => if str_eqb y x then Some v else cs_vars s y) (cs_out s) (cs_arg s) (cs_log s).

Definition holds (c : comcond) (s : comst) : option bool :=
  match c with
  | CDiffer a b =>
    match by_value s a, by_value s b with
    | Some (CInt x), Some (CInt y) => Some (negb (x =? y))
    | _, _ => None
    end
  | CDifferMem a b =>
    let? x := by_pointer s a in let? y := variable s b in Some (negb (same_val x y))
  end.

(** A call: a Write function gets a value or the address of a variable, a Read function
    gets the pointer that the caller was given. *)
Definition call_node (f : str) (ref : bool) (x : str) (s : comst) : option comst :=
  match named writes f with
  | Some w =>
    let? v := (if ref then variable s x else by_value s x) in
    if Bool.eqb ref (cf_pointer w) then
      let? m := call w (cs_out s) v in
      let s' := mk_comst (cs_vars s) (m_buf m) (cs_arg s) (cs_log s ++ [(f, v)]) in
      Some (if ref then set_var s' x (m_val m) else s')
    else None
  | None =>
    let? r := named reads f in
    if ref then None
    else
      let? v := by_pointer s x in
      if cf_pointer r then
        let? m := call r input v in
        Some (mk_comst (cs_vars s) (cs_out s) (m_val m) (cs_log s))
      else None
  end.

(** The flag: the function has returned. *)
Fixpoint com_exec (c : comstmt) (s : comst) : option (comst * bool) :=
  match c with
  | CIf c body =>
    let? b := holds c s in
    if b then
      (fix go l s := match l with
                     | [] => Some (s, false)
                     | c :: r => let? p := com_exec c s in if snd p then Some p else go r (fst p)
                     end) body s
    else Some (s, false)
  | CAssign a b =>
    let? _ := variable s a in
    match by_value s b with
    | Some (CInt x) => Some (set_var s a (CInt x), false)
    | _ => None
    end
  | CCopy a b =>
    let? _ := variable s a in
    let? x := by_pointer s b in Some (set_var s a x, false)
  | CCall f ref x => let? s := call_node f ref x s in Some (s, false)
  | CReturn => Some (s, true)
  end.
Fixpoint com_run (l : list comstmt) (s : comst) : option (comst * bool) :=
  match l with
  | [] => Some (s, false)
  | c :: r => let? p := com_exec c s in if snd p then Some p else com_run r (fst p)
  end.
End Running.

(** Somebody calls function number [u_fun] for the object [u_arg] while the input data
    are [u_input]. *)
Record use := mk_use { u_fun : nat; u_arg : cval; u_input : bytes }.

(** What the callers get back, and the state in the end; None if something undefined
    happens on the way. *)
Fixpoint com_play (funs : list (cproto * list comstmt)) (writes reads : list cfun) (uses : list use) (s : comst)
    : option (comst * list cval) :=
  match uses with
  | [] => Some (s, [])
  | u :: r =>
    let? f := nth_error funs (u_fun u) in
    match cp_params (fst f) with
    | [(_, ptr, pname)] =>
      let? p := com_run writes reads (u_input u) ptr pname (snd f) (mk_comst (cs_vars s) (cs_out s) (u_arg u) (cs_log s)) in
      if snd p then
        let? q := com_play funs writes reads r (fst p) in
        Some (fst q, cs_arg (fst p) :: snd q)
      else None
    | _ => None
    end
  end.

(** The values that differ from the one before. *)
Fixpoint changes (x : cval) (l : list cval) : list cval :=
  match l with
  | [] => []
  | y :: r => if same_val x y then changes x r else y :: changes y r
  end.

(** What the uses send to a port: the first functions are the senders. *)
Definition sent_to (senders : list comfunc) (port : str) (uses : list use) : list cval :=
  flat_map (fun u => match nth_error senders (u_fun u) with
                     | Some f => if str_eqb (cm_port f) port then [u_arg u] else []
                     | None => []
                     end) uses.
(** What was written to a port. *)
Definition written_to (node port : str) (log : list (str * cval)) : list cval :=
  flat_map (fun e => if str_eqb (fst e) (lit "ApxNode_Write_" ++ node ++ lit "_" ++ port) then [snd e] else []) log.

(** The static variable of a sender. *)
Definition static_name (f : comfunc) : str := lit "m_" ++ cm_port f ++ lit "_" ++ cm_elem f.

(** The port of that name is number [i] of its side and has type [t]. *)
Definition port_at (W : world) (ports : list nat) (ts : list ty) (name : str) (i : nat) (t : ty) : Prop :=
  exists o, nth_error ports i = Some o /\ pt_name (w_ports W o) = Some name /\ nth_error ts i = Some t.

(** The ports of a component are on the right side. *)
Definition right_sides (c : component) : Prop :=
  Forall (fun p => ap_provide p = true) (cc_provide c) /\ Forall (fun p => ap_provide p = false) (cc_require c).

(** A component as the autosar package makes it: the ports have different names; senders
    are for require ports, receivers for provide ports, which the node has on the other
    side. *)
Record proper (c : component) : Prop := mk_proper {
  pr_sides : right_sides c;
  pr_names1 : NoDup (map ap_name (cc_provide c));
  pr_names2 : NoDup (map ap_name (cc_require c));
  pr_send : forall f, In f (cc_send c) -> In (cm_port f) (map ap_name (cc_require c));
  pr_receive : forall f, In f (cc_receive c) -> In (cm_port f) (map ap_name (cc_provide c))
}.

(** Values that are not numbers are handed over by pointer. *)
Definition is_number (t : ty) : bool := match t with TInt _ => true | _ => false end.

(** A sender has one parameter, which does not have the name of its variable. *)
Definition sender_fits (f : comfunc) (t : ty) : Prop :=
  cm_complex f = negb (is_number t) /\
  exists ty a, cp_params (cm_proto f) = [(ty, cm_complex f, a)] /\ a <> static_name f.
(** A receiver has one parameter, a pointer. *)
Definition receiver_fits (f : comfunc) : Prop := exists ty a, cp_params (cm_proto f) = [(ty, true, a)].

(** A use that makes sense: the object has the type of the port, and the input data are
    those of the node. *)
Inductive good_use (sfx : str) (c : component) (W : world) (nd : node) (ts rs : list ty) (u : use) : Prop :=
| good_send f i t : nth_error (cc_send c) (u_fun u) = Some f -> port_at W (n_provide nd) ts (cm_port f) i t ->
    shape sfx t (u_arg u) -> good_use sfx c W nd ts rs u
| good_receive k f i t : u_fun u = (length (cc_send c) + k)%nat -> nth_error (cc_receive c) k = Some f ->
    port_at W (n_require nd) rs (cm_port f) i t -> shape sfx t (u_arg u) ->
    bytes_ok (u_input u) -> len (u_input u) = total rs -> good_use sfx c W nd ts rs u.

(** What a caller gets back: a sender leaves the object alone, a receiver fills it from
    the bytes of its port. *)
Definition result_of (c : component) (W : world) (nd : node) (rs : list ty) (u : use) (y : cval) : Prop :=
  (forall f, nth_error (cc_send c) (u_fun u) = Some f -> y = u_arg u) /\
  (forall k f i t, u_fun u = (length (cc_send c) + k)%nat -> nth_error (cc_receive c) k = Some f ->
     port_at W (n_require nd) rs (cm_port f) i t -> y = loaded t (u_arg u) (part_of rs (u_input u) i)).

(** Every variable holds what the output data say about its port. *)
Definition in_step (sfx : str) (c : component) (W : world) (nd : node) (ts : list ty) (s : comst) : Prop :=
  len (cs_out s) = total ts /\
  forall f i t, In f (cc_send c) -> port_at W (n_provide nd) ts (cm_port f) i t ->
    exists x, cs_vars s (static_name f) = Some x /\ shape sfx t x /\ image t x = part_of ts (cs_out s) i.

(** The functions that a statement calls. *)
Fixpoint called (c : comstmt) : list str :=
  match c with
  | CIf _ b => flat_map called b
  | CCall f _ _ => [f]
  | _ => []
  end.
Definition all_called (funs : list (cproto * list comstmt)) : list str := flat_map (fun f => flat_map called (snd f)) funs.

(** A static variable in C. *)
Definition static_line (ty name init : str) : str := lit "static " ++ ty ++ lit " " ++ name ++ lit " = " ++ init ++ lit ";".

(** The first sender that uses a variable. *)
Definition first_user (l : list comfunc) (name : str) (f : comfunc) : Prop :=
  exists before after, l = before ++ f :: after /\ static_name f = name /\ Forall (fun h => static_name h <> name) before.
