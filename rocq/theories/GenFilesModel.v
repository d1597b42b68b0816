(** All the files of the C code generator: the header, the header of the callbacks and
    the source, written by a [NodeGenerator] (/repo/apx/generator.py) that may have been
    used before.

    What [generate] leaves in the generator object is the state [gstate]; it is given
    also for a call that raises.  Not modelled: the directories and the files that are
    already there.  As in GenModel.v, how cfile prints is taken from
    tests/expected_gen. *)
From Verif Require Import Py TypesModel TextModel SigModel AttrModel NodeModel CompilerModel VmModel
  NodeDataModel GenModel.

(** ** Prototypes *)

(** [C.function]: [cp_ret] is the result type, [cp_star] whether it is a pointer,
    [cp_params] the parameters: type, pointer, name. *)
Record cproto := mk_cproto {
  cp_ret : str;
  cp_star : bool;
  cp_name : str;
  cp_params : list (option str * bool * str)
}.
Definition param_text (p : option str * bool * str) : str :=
  let '(t, star, name) := p in opt_text t ++ lit " " ++ (if star then lit "*" else []) ++ name.
Definition proto_text (f : cproto) : str :=
  cp_ret f ++ (if cp_star f then lit " * " else lit " ") ++ cp_name f ++ lit "("
  ++ match cp_params f with [] => lit "void" | ps => join (lit ", ") (map param_text ps) end ++ lit ")".
Definition proto_line (f : cproto) : str := proto_text f ++ lit ";".

(** 186-189 and 209-212: the function of a port. *)
Definition signal_proto (s : siginfo) : cproto :=
  mk_cproto (lit "Std_ReturnType") false (si_func s) [(si_type s, si_pointer s, lit "val")].
(** 419-421 *)
Definition node_protos (name : str) : list cproto :=
  [mk_cproto (lit "apx_nodeData_t") true (lit "ApxNode_Init_" ++ name) [];
   mk_cproto (lit "apx_nodeData_t") true (lit "ApxNode_GetNodeData_" ++ name) [];
   mk_cproto (lit "bool") false (lit "ApxNode_IsConnected_" ++ name) []].
(** 431-435 *)
Definition notify_name (name : str) : str := name ++ lit "_inPortDataWritten".
Definition notify_proto (fname : str) : cproto :=
  mk_cproto (lit "void") false fname
    [(Some (lit "void"), true, lit "arg"); (Some (lit "apx_nodeData_t"), true, lit "nodeData");
     (Some (lit "uint32_t"), false, lit "offset"); (Some (lit "uint32_t"), false, lit "len")].

(** ** The state of a generator *)

(** [callbacks.local_vars], [callbacks.functions], [callbacks.pending], and the name of
    [InPortDataNotifyFunc].  [firstCallback] and [lastCallbackOffset] are set before
    they are used, [callbacks.data_vars] is made from [local_vars] every time. *)
Record gstate := mk_gstate {
  g_vars : list (str * option str * option Z);
  g_funs : list cproto;
  g_pending : list callback;
  g_notify : option str
}.
(** 123-130 and 71-77 *)
Definition new_gen : gstate := mk_gstate [] [] [] None.

(** 196-200 and 79-90: one require port. *)
Definition create (st : gstate) (callbacks : option (list (str * option str))) (s : siginfo) : res gstate :=
  match callbacks with
  | None => Ok st
  | Some m =>
    match si_name s with
    | None => Err AttributeError
    | Some nm =>
      let f := lookup (Some nm) m in
      Ok (mk_gstate
            (g_vars st ++ match f with Some _ => [(nm, si_type s, arrayLen (si_target s))] | None => [] end)
            (g_funs st)
            (g_pending st ++ [mk_callback s f (lit "APX_RX_OFFSET_" ++ upper nm) (lit "APX_RX_LEN_" ++ upper nm)])
            (g_notify st))
    end
  end.

(** 184-204 *)
Fixpoint gen_ins (fuel : nat) (types : list nat) (name : str) (callbacks : option (list (str * option str)))
    (st : gstate) (W : world) (offset : Z) (ports : list nat) : gstate * res (world * list siginfo) :=
  match ports with
  | [] => (st, Ok (W, []))
  | o :: r =>
    match gen_signal fuel Unpack types name W offset o with
    | Err e => (st, Err e)
    | Ok (W, s) =>
      match create st callbacks s with
      | Err e => (st, Err e)
      | Ok st =>
        match gen_ins fuel types name callbacks st W (offset + si_len s) r with
        | (st, Ok (W, l)) => (st, Ok (W, s :: l))
        | (st, Err e) => (st, Err e)
        end
      end
    end
  end.

(** [sorted(…, key=offset)] *)
Fixpoint insert_offset (x : callback) (l : list callback) : list callback :=
  match l with
  | [] => [x]
  | y :: r => if si_offset (cb_sig y) <? si_offset (cb_sig x) then y :: insert_offset x r else x :: l
  end.
Definition by_offset (l : list callback) : list callback := fold_right insert_offset [] l.
(** [sorted(local_vars, key=variable_name)] *)
Definition by_name (l : list (str * option str * option Z)) : list (str * option str * option Z) :=
  fold_right (insert_name (fun v => fst (fst v))) [] (rev l).

(** 92-115 [CallbackInfo.finalize]: the prototypes it adds, and the exception. *)
Fixpoint add_functions (H : theap) (l : list callback) : list cproto * option exn :=
  match l with
  | [] => ([], None)
  | c :: r =>
    match cb_func c with
    | None => add_functions H r
    | Some f =>
      match isComplexType H (si_target (cb_sig c)) with
      | Err e => ([], Some e)
      | Ok ref =>
        let '(fs, e) := add_functions H r in
        (mk_cproto (lit "void") false f [(si_type (cb_sig c), ref, lit "value")] :: fs, e)
      end
    end
  end.

(** ** The files *)

Record cfiles := mk_cfiles {
  f_cbk : option (list str);
  f_header : list str;
  f_source : list str
}.

Definition include (name : str) : str := lit "#include """ ++ name ++ lit """".
Definition guarded (guard : str) (body : list str) : list str :=
  [lit "#ifndef " ++ guard; lit "#define " ++ guard; []] ++ body ++ [[]; lit "#endif //" ++ guard].

(** 709-720 [_writeCallbackPrototypes] *)
Definition cbk_lines (name : str) (funs : list cproto) : list str :=
  guarded (upper (lit "ApxNode_" ++ name) ++ lit "_CBK_H")
    (heading "INCLUDES" ++ [include (lit "Rte_Type.h"); []] ++ heading "FUNCTION PROTOTYPES" ++ map proto_line funs).

(** 405-439 [_writeHeaderFile]; [funs] are the functions of the ports. *)
Definition header_lines (name : str) (includes : list str) (funs : list cproto) (input : bool) : list str :=
  guarded (upper (lit "ApxNode_" ++ name) ++ lit "_H")
    ([lit "#include <stdbool.h>"; include (lit "apx_nodeData.h")] ++ map include includes ++ [[]]
     ++ heading "CONSTANTS" ++ [[]] ++ heading "FUNCTION PROTOTYPES"
     ++ map proto_line (node_protos name) ++ [[]] ++ map proto_line funs
     ++ (if input then [proto_line (notify_proto (notify_name name))] else [])).

(** 635-690: the notification function, [fname] being that of the generator object. *)
Definition notifier_text (fname : option str) (x : notifier) : list str :=
  match fname, x with
  | None, _ | _, NoNotifier => []
  | Some f, _ => proto_text (notify_proto f) :: tl (notifier_lines [] x)
  end.
Definition make_notifier (H : theap) (fname : option str) (has_callbacks : bool) (pending : list callback)
    (vars : list (str * option str * option Z)) : res notifier :=
  match fname with
  | None => Ok NoNotifier
  | Some _ =>
    if has_callbacks then
      let first := first_callback pending in
      do parts <- switch_parts H first (last_offset pending) false pending;
      Ok (Switch (match first with
                  | Some f => if si_offset (cb_sig f) =? 0 then None else Some (cb_offset_define f)
                  | None => None
                  end) parts (by_name vars))
    else Ok Ignores
  end.

(** 441-707 [_writeSourceFile] *)
Definition write_source (version : str) (st : gstate) (sfx : str) (W : world) (nd : node) (name : str) (has_callbacks : bool)
    (direct : list str) (synced : bool) (ins outs : list siginfo) : gstate * res (list str) :=
  let pending := by_offset (g_pending st) in
  match (do text <- context_dumps false W [nd];
         do outinit <- init_table outs;
         do ininit <- init_table ins;
         do reads <- gen_funcs (w_types W) sfx Unpack direct ins ins;
         do writes <- gen_funcs (w_types W) sfx Pack direct outs outs;
         do notifier <- make_notifier (w_types W) (g_notify st) has_callbacks pending (g_vars st);
         let cbl := if has_callbacks then g_pending st else [] in
         Ok (mk_cfile name (n_name nd) has_callbacks synced (len text + 1) (sum_lens ins) (sum_lens outs)
               (map (fun c => (cb_len_define c, si_len (cb_sig c))) (by_len cbl))
               (map (fun c => (cb_offset_define c, si_offset (cb_sig c))) (by_offset cbl))
               ininit outinit (map literal_line (split_on NEWLINE text)) reads writes notifier)) with
  | Err e => (st, Err e)
  | Ok c =>
    (mk_gstate (g_vars st) (g_funs st)
       (match g_notify st with Some _ => if has_callbacks then [] else g_pending st | None => g_pending st end) (g_notify st),
     Ok (source_front version c ++ notifier_text (g_notify st) (c_notifier c) ++ heading "LOCAL FUNCTIONS"))
  end.

(** 132-237 [generate] *)
Definition generate_files (version : str) (fuel : nat) (st : gstate) (sfx : str) (W : world) (nd : node) (name : option str)
    (includes : list str) (callbacks : option (list (str * option str))) (direct : list str) (synced : bool)
    : gstate * res (world * node * cfiles) :=
  match (do nm <- match name, n_name nd with
                  | Some s, _ => Ok s
                  | None, Some s => Ok s
                  | None, None => Err TypeError
                  end;
         do '(W, nd) <- finalize true false W nd; Ok (nm, W, nd)) with
  | Err e => (st, Err e)
  | Ok (nm, W, nd) =>
    match gen_ins fuel (n_types nd) nm callbacks st W 0 (n_require nd) with
    | (st, Err e) => (st, Err e)
    | (st, Ok (W, ins)) =>
      match gen_signals fuel Pack (n_types nd) nm W 0 (n_provide nd) with
      | Err e => (st, Err e)
      | Ok (W, outs) =>
        let '(fs, failed) := add_functions (w_types W) (by_offset (g_pending st)) in
        let st := mk_gstate (g_vars st) (g_funs st ++ fs) (g_pending st) (g_notify st) in
        match failed with
        | Some e => (st, Err e)
        | None =>
          let has_callbacks := match callbacks with Some _ => true | None => false end in
          let cbk := if has_callbacks then Some (cbk_lines nm (g_funs st)) else None in
          let input := 0 <? sum_lens ins in
          let header := header_lines nm includes (map signal_proto (ins ++ outs)) input in
          let st := mk_gstate (g_vars st) (g_funs st) (g_pending st) (if input then Some (notify_name nm) else g_notify st) in
          match write_source version st sfx W nd nm has_callbacks direct synced ins outs with
          | (st, Err e) => (st, Err e)
          | (st, Ok source) => (st, Ok (W, nd, mk_cfiles cbk header source))
          end
        end
      end
    end
  end.
