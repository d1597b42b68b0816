(** The Com layer generator: model of [ComGenerator] (/repo/apx/generator.py 723-890).

    The functions of the upper layer come from the autosar package: [comfunc] has what
    the generator looks at.  Every function is its own object.  Files and directories
    are not modelled: a file is its lines.  As in GenModel.v, how cfile prints is taken
    from tests/expected_gen; the include guard, which cfile makes from the file name,
    is a parameter. *)
From Verif Require Import Py TypesModel TextModel SigModel AttrModel NodeModel CompilerModel VmModel
  NodeDataModel GenModel GenFilesModel AutosarModel.

(** [proto], [port.name], [data_element.name], [data_element.dataType.name],
    [dataType.isComplexType], and what [initializer_string] makes of the init value. *)
Record comfunc := mk_comfunc {
  cm_proto : cproto;
  cm_port : str;
  cm_elem : str;
  cm_type : str;
  cm_complex : bool;
  cm_init : res str
}.

(** A component: its ports and [upperLayerAPI]. *)
Record component := mk_component {
  cc_name : str;
  cc_provide : list aport;
  cc_require : list aport;
  cc_send : list comfunc;
  cc_receive : list comfunc
}.

(** ** The code *)

Inductive comcond :=
| CDiffer (a b : str)       (* a != b *)
| CDifferMem (a b : str).   (* memcmp(a, &b, sizeof(b)) != 0 *)
Inductive comstmt :=
| CIf (c : comcond) (body : list comstmt)
| CAssign (a b : str)       (* a = b *)
| CCopy (a b : str)         (* memcpy(&a, b, sizeof(a)) *)
| CCall (f : str) (ref : bool) (x : str)   (* f(x) or f(&x) *)
| CReturn.                  (* return E_OK *)

(** 723-726 [ComVariable]: name, type, initializer. *)
Record comvar := mk_comvar { cv_name : str; cv_type : str; cv_init : str }.

(** 783-790 [_local_var]; [local_vars] in the order of insertion. *)
Definition var_name (f : comfunc) : str := lit "m_" ++ cm_port f ++ lit "_" ++ cm_elem f.
Definition local_var (vars : list comvar) (f : comfunc) : res (list comvar * comvar) :=
  match find (fun v => str_eqb (cv_name v) (var_name f)) vars with
  | Some v => Ok (vars, v)
  | None => do t <- cm_init f; let v := mk_comvar (var_name f) (cm_type f) t in Ok (vars ++ [v], v)
  end.

(** [com_func.proto.args[0].name] *)
Definition arg_name (f : comfunc) : res str :=
  match cp_params (cm_proto f) with [] => Err IndexError | (_, _, n) :: _ => Ok n end.

(** 756-774 [createSendBody] *)
Definition send_body (node : option str) (vars : list comvar) (f : comfunc) : res (list comvar * list comstmt) :=
  do '(vars, v) <- local_var vars f;
  do a <- arg_name f;
  let cond := if cm_complex f then CDifferMem a (cv_name v) else CDiffer a (cv_name v) in
  let copy := if cm_complex f then CCopy (cv_name v) a else CAssign (cv_name v) a in
  let callee := lit "ApxNode_Write_" ++ opt_text node ++ lit "_" ++ cm_port f in
  Ok (vars, [CIf cond [copy; CCall callee (cm_complex f) (cv_name v)]; CReturn]).

(** 776-781 [createReceiveBody] *)
Definition receive_body (node : option str) (f : comfunc) : res (list comstmt) :=
  do a <- arg_name f;
  Ok [CCall (lit "ApxNode_Read_" ++ opt_text node ++ lit "_" ++ cm_port f) false a; CReturn].

(** 750-754 [createAPI] *)
Fixpoint send_bodies (node : option str) (vars : list comvar) (l : list comfunc) : res (list comvar * list (cproto * list comstmt)) :=
  match l with
  | [] => Ok (vars, [])
  | f :: r =>
    do '(vars, b) <- send_body node vars f;
    do '(vars, bs) <- send_bodies node vars r;
    Ok (vars, (cm_proto f, b) :: bs)
  end.
Definition receive_bodies (node : option str) (l : list comfunc) : res (list (cproto * list comstmt)) :=
  map_res (fun f => do b <- receive_body node f; Ok (cm_proto f, b)) l.

(** ** The generator object *)

Record comgen := mk_comgen {
  cg_node : node;
  cg_vars : list comvar;
  cg_funs : list (cproto * list comstmt);
  cg_header : option str
}.

(** 733-748 *)
Definition new_com (W : world) (c : component) : res (world * comgen) :=
  do '(W, nd) <- import_swc W (cc_name c) (cc_provide c) (cc_require c);
  do '(W, nd) <- mirror W nd None;
  do '(vars, sends) <- send_bodies (n_name nd) [] (cc_send c);
  do receives <- receive_bodies (n_name nd) (cc_receive c);
  Ok (W, mk_comgen nd vars (sends ++ receives) None).

(** ** The files *)

(** 834-850 [generateHeader]; the name of the file is kept for the source. *)
Definition generate_header (guard file_name : str) (g : comgen) : comgen * list str :=
  (mk_comgen (cg_node g) (cg_vars g) (cg_funs g) (Some file_name),
   guarded (guard ++ lit "_H")
     (heading "INCLUDES" ++ [include (lit "Rte_Type.h"); []] ++ heading "CONSTANTS AND DATA TYPES" ++ [[]]
      ++ heading "GLOBAL FUNCTIONS" ++ map (fun f => proto_line (fst f)) (cg_funs g))).

Definition amp (ref : bool) (x : str) : str := if ref then lit "&" ++ x else x.
Definition cond_text (c : comcond) : str :=
  match c with
  | CDiffer a b => lit "if (" ++ a ++ lit " != " ++ b ++ lit ")"
  | CDifferMem a b => lit "if (memcmp(" ++ a ++ lit ", &" ++ b ++ lit ", sizeof(" ++ b ++ lit ")) != 0)"
  end.
Fixpoint com_lines (indent : nat) (s : comstmt) : list str :=
  match s with
  | CIf c body =>
    [line indent (cond_text c); line indent (lit "{")]
    ++ flat_map (com_lines (indent + 3)) body ++ [line indent (lit "}")]
  | CAssign a b => [stmt indent (a ++ lit " = " ++ b)]
  | CCopy a b => [stmt indent (lit "memcpy(&" ++ a ++ lit ", " ++ b ++ lit ", sizeof(" ++ a ++ lit "))")]
  | CCall f ref x => [stmt indent (f ++ lit "(" ++ amp ref x ++ lit ")")]
  | CReturn => [stmt indent (lit "return E_OK")]
  end.
Definition com_fun_lines (f : cproto * list comstmt) : list str :=
  [[]; proto_text (fst f); lit "{"] ++ flat_map (com_lines 3) (snd f) ++ [lit "}"].
(** 728-729 [declaration] *)
Definition var_line (v : comvar) : str := lit "static " ++ cv_type v ++ lit " " ++ cv_name v ++ lit " = " ++ cv_init v ++ lit ";".
(** [sorted(…, key=name)] *)
Definition sorted_vars (l : list comvar) : list comvar := fold_right (insert_name cv_name) [] (rev l).

(** 852-890 [generateSource] *)
Definition generate_source (g : comgen) : list str :=
  heading "INCLUDES"
  ++ [lit "#include <string.h>"; include (opt_text (cg_header g)); include (lit "ApxNode_" ++ opt_text (n_name (cg_node g)) ++ lit ".h"); []]
  ++ heading "CONSTANTS AND DATA TYPES" ++ [[]] ++ heading "LOCAL FUNCTION PROTOTYPES"
  ++ [[]] ++ heading "LOCAL VARIABLES" ++ map var_line (sorted_vars (cg_vars g))
  ++ [[]] ++ heading "GLOBAL FUNCTIONS" ++ flat_map com_fun_lines (cg_funs g).
