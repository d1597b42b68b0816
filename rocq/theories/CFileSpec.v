(** A generated C file as a whole: its macros, tables, the function that initializes the
    node data and the function that is told about new input, as a compiler reads them
    (see CTextSpec.v). *)
From Verif Require Import Py TypesModel TextModel AttrModel NodeModel VmModel TypesSpec CompilerModel
  NodeDataModel NodeDataSpec GenModel GenSpec GenFilesModel ComModel CTextSpec.

Definition only {A} (l : list A) : option A := match l with [x] => Some x | _ => None end.

(** ** Macros, tables, arrays *)

(** Lines like #define NAME 12u. *)
Definition macro_line (l : str) : list (str * Z) :=
  match l with
  | c :: r =>
    if c =? 35 then
      match lex Between r with Some [TId d; TId n; TNum z] => if is "define" d then [(n, z)] else [] | _ => [] end
    else []
  | [] => []
  end.
Definition macros (l : list str) : list (str * Z) := flat_map macro_line l.

Fixpoint numbers (t : list tok) : option (list Z) :=
  match t with
  | [TNum z; TOp ORbrc] => Some [z]
  | TNum z :: TOp OComma :: r => let? l := numbers r in Some (z :: l)
  | _ => None
  end.
Fixpoint strings (t : list tok) : option str :=
  match t with
  | [TStr s] => Some s
  | TStr s :: r => let? l := strings r in Some (s ++ l)
  | _ => None
  end.
Definition is_byte (b : basetype) : bool := same_base b BU8.

(** static const uint8_t NAME[LENGTH]= {1, 2}; *)
Definition table_of (name : str) (u : unit_) : option (str * list Z) :=
  match u with
  | UOther (TKw KStatic :: TKw KConst :: TType b :: TId n :: TOp OLbrk :: TId m :: TOp ORbrk :: TOp OEq :: TOp OLbrc :: t) =>
    if is_byte b && str_eqb n name then let? l := numbers t in Some (m, l) else None
  | _ => None
  end.
(** static uint8_t NAME[LENGTH]; *)
Definition array_of (name : str) (u : unit_) : option str :=
  match u with
  | UOther [TKw KStatic; TType b; TId n; TOp OLbrk; TId m; TOp ORbrk] => if is_byte b && str_eqb n name then Some m else None
  | _ => None
  end.
(** static const char *NAME= "..." "..."; *)
Definition text_of (name : str) (u : unit_) : option str :=
  match u with
  | UOther (TKw KStatic :: TKw KConst :: TKw KChar :: TOp OStar :: TId n :: TOp OEq :: t) => if str_eqb n name then strings t else None
  | _ => None
  end.
Definition collect {A} (f : unit_ -> option A) (us : list unit_) : list A :=
  flat_map (fun u => match f u with Some x => [x] | None => [] end) us.

Section File.
Variable lines : list str.
Variable us : list unit_.

Definition constant (name : str) : option Z := macro (macros lines) name.
(** The contents of a table; too many numbers do not compile, missing ones are 0. *)
Definition table (name : str) : option bytes :=
  let? p := only (collect (table_of name) us) in
  let? n := constant (fst p) in
  if len (snd p) <=? n then Some (map (fun z => z mod 256) (snd p) ++ repeat 0 (Z.to_nat (n - len (snd p)))) else None.
(** An array of bytes before anything is stored in it. *)
Definition array (name : str) : option bytes :=
  let? m := only (collect (array_of name) us) in
  let? n := constant m in
  if 0 <=? n then Some (repeat 0 (Z.to_nat n)) else None.

(** ** Initializing *)

(** What apx_nodeData_create gets: name, definition and its length, input data and
    whether there are synced flags, output data; and the handler for new input. *)
Record made := mk_made {
  md_name : str;
  md_definition : str;
  md_length : Z;
  md_in : bytes;
  md_synced : bool;
  md_out : bytes;
  md_handler : option str
}.
(** The arrays that were stored into, the handler table, the node data. *)
Record istate := mk_istate { is_data : list (str * bytes); is_table : option str; is_node : option made }.

Definition contents (st : istate) (name : str) : option bytes :=
  match find (fun p => str_eqb (fst p) name) (is_data st) with Some p => Some (snd p) | None => array name end.
(** [&x[0]] *)
Definition start_of (e : cx) : option str :=
  match e with XAddr (XIndex (XId s) (XNum z)) => if z =? 0 then Some s else None | _ => None end.
Definition zero (e : cx) : bool := match e with XNum z => z =? 0 | _ => false end.
(** The data, the flags and the length of one direction; all bytes of an array have to
    be used.  The third part: whether there are flags. *)
Definition side (st : istate) (data flags : cx) (n : cx) : option (bytes * bool) :=
  if zero data && zero flags && zero n then Some ([], false)
  else
    match n with
    | XId m =>
      let? s := start_of data in
      let? k := constant m in
      let? b := contents st s in
      if len b =? k then
        match flags with
        | XId f => if is "NULL" f then Some (b, false) else None
        | _ => let? f := start_of flags in let? x := contents st f in if len x =? k then Some (b, true) else None
        end
      else None
    | _ => None
    end.

Definition init_call (st : istate) (f : str) (args : list cx) : option istate :=
  match args with
  | [a; b; XId n] =>
    (* memcpy(&a[0], &b[0], N) *)
    if is "memcpy" f then
      let? x := start_of a in let? y := start_of b in
      let? k := constant n in let? old := contents st x in let? new := table y in
      if (0 <=? k) && (k <=? len old) && (k <=? len new)
      then Some (mk_istate ((x, firstn (Z.to_nat k) new ++ skipn (Z.to_nat k) old) :: is_data st) (is_table st) (is_node st))
      else None
    else None
  | [a; z; XSize (XId s)] =>
    (* memset(&a[0], 0, sizeof(a)), memset(&a, 0, sizeof(a)) *)
    if is "memset" f && zero z then
      match a with
      | XAddr (XId t) => if str_eqb t s && is "nodeDataHandler" s then Some (mk_istate (is_data st) None (is_node st)) else None
      | _ => let? x := start_of a in let? old := contents st x in
             if str_eqb x s then Some (mk_istate ((x, repeat 0 (length old)) :: is_data st) (is_table st) (is_node st)) else None
      end
    else None
  | [d; XStr name; XCastPtr b t; XId n; i1; i2; i3; o1; o2; o3] =>
    if is "apx_nodeData_create" f && node_data d && is_byte b then
      let? s := start_of t in
      let? text := only (collect (text_of s) us) in
      let? k := constant n in
      let? i := side st i1 i2 i3 in
      let? o := side st o1 o2 o3 in
      if 0 <? len (fst o) then
        if snd o then Some (mk_istate (is_data st) (is_table st) (Some (mk_made name text k (fst i) (snd i) (fst o) None))) else None
      else Some (mk_istate (is_data st) (is_table st) (Some (mk_made name text k (fst i) (snd i) [] None)))
    else None
  | [d; XAddr (XId s)] =>
    if is "apx_nodeData_setHandlerTable" f && node_data d && is "nodeDataHandler" s then
      let? m := is_node st in
      Some (mk_istate (is_data st) (is_table st)
              (Some (mk_made (md_name m) (md_definition m) (md_length m) (md_in m) (md_synced m) (md_out m) (is_table st))))
    else None
  | _ => None
  end.
Fixpoint initialize (l : list cs) (st : istate) : option made :=
  match l with
  | [GReturn e] => if node_data e then is_node st else None
  | GDecl (ty, false, n, None) None :: r =>
    if is "apx_nodeDataHandlerTable_t" ty && is "nodeDataHandler" n then initialize r st else None
  | GExpr (XAssign (XField (XId t) m) (XId h)) :: r =>
    if is "nodeDataHandler" t && is "inPortDataWritten" m then initialize r (mk_istate (is_data st) (Some h) (is_node st)) else None
  | GExpr (XCall (XId f) args) :: r => let? st := init_call st f args in initialize r st
  | _ => None
  end.
(** Calling ApxNode_Init_name: the node data it returns. *)
Definition init_text (name : str) : option made :=
  let? u := function us (lit "ApxNode_Init_" ++ name) in
  match u with
  | UFun f body => if is "apx_nodeData_t" (cp_ret f) && cp_star f && match cp_params f with [] => true | _ => false end
                   then initialize body (mk_istate [] None None) else None
  | _ => None
  end.

(** ** New input *)

(** [data.x] or [data.x[0]] *)
Definition member_of (e : cx) : option (str * bool) :=
  match e with
  | XField (XId d) s => if is "data" d then Some (s, false) else None
  | XIndex (XField (XId d) s) (XNum z) => if is "data" d && (z =? 0) then Some (s, true) else None
  | _ => None
  end.
Definition same_member (a b : str * bool) : bool := str_eqb (fst a) (fst b) && Bool.eqb (snd a) (snd b).
(** The calls of the Read function and of the callback. *)
Definition as_callback (a b : cx) : option cbcall :=
  match a, b with
  | XVoid (XCall (XId rd) [XAddr m]), XCall (XId f) [x] =>
    let? p := member_of m in
    match x with
    | XAddr y => let? q := member_of y in if same_member p q then Some (mk_cbcall (fst p) rd f (snd p) true) else None
    | _ => let? q := member_of x in if same_member p q then Some (mk_cbcall (fst p) rd f (snd p) false) else None
    end
  | _, _ => None
  end.
Definition advances (e : cx) : option str :=
  match e with XAddTo (XId o) (XId n) => if is "offset" o then Some n else None | _ => None end.
Definition leaves (e : cx) : bool :=
  match e with XAssign (XId o) (XId s) => is "offset" o && is "endOffset" s | _ => false end.
Fixpoint as_cases (l : list cs) : option (list cbpart) :=
  match l with
  | [GDefault; GExpr e] => if leaves e then Some [] else None
  | GCase (XId label) :: GExpr e :: GBreak :: r =>
    let? n := advances e in let? ps := as_cases r in Some (PCase label n None :: ps)
  | GCase (XId label) :: GExpr a :: GExpr b :: GExpr e :: GBreak :: r =>
    let? c := as_callback a b in let? n := advances e in let? ps := as_cases r in Some (PCase label n (Some c) :: ps)
  | _ => None
  end.
Definition as_member (d : cdecl) : option (str * option str * option Z) :=
  let '(ty, st, n, a) := d in if st then None else Some (n, Some ty, a).
Fixpoint as_members (l : list cdecl) : option (list (str * option str * option Z)) :=
  match l with [] => Some [] | d :: r => let? x := as_member d in let? xs := as_members r in Some (x :: xs) end.
(** if (offset < X) { offset = X; } *)
Definition as_guard (s : cs) : option str :=
  match s with
  | GIf (XBin OLess (XId o) (XId g)) (GBlock [GExpr (XAssign (XId o') (XId g'))]) =>
    if is "offset" o && is "offset" o' && str_eqb g g' then Some g else None
  | _ => None
  end.
(** while (offset < endOffset) { switch (offset) { ... } } *)
Definition as_loop (s : cs) : option (list cbpart) :=
  match s with
  | GWhile (XBin OLess (XId o) (XId e)) (GBlock [GSwitch (XId o') (GBlock l)]) =>
    if is "offset" o && is "endOffset" e && is "offset" o' then as_cases l else None
  | _ => None
  end.
Definition ignores (name : string) (e : cx) : bool := match e with XVoid (XId s) => is name s | _ => false end.
Definition as_notifier (body : list cs) : option notifier :=
  match body with
  | [GExpr a; GExpr b; GExpr c; GExpr d] =>
    if ignores "arg" a && ignores "nodeData" b && ignores "offset" c && ignores "len" d then Some Ignores else None
  | GUnion _ ms v :: GDecl (ty, false, e, None) (Some (XBin OPlus (XId o) (XId n))) :: GExpr a :: GExpr b :: rest =>
    if is "data" v && is "uint32_t" ty && is "endOffset" e && is "offset" o && is "len" n && ignores "arg" a && ignores "nodeData" b then
      let? vars := as_members ms in
      match rest with
      | [w] => let? ps := as_loop w in Some (Switch None ps vars)
      | [g; w] => let? s := as_guard g in let? ps := as_loop w in Some (Switch (Some s) ps vars)
      | _ => None
      end
    else None
  | _ => None
  end.
Definition notifier_of (name : str) : option notifier :=
  let? u := function us name in
  match u with
  | UFun f body =>
    match cp_params f with
    | [(Some t1, true, a); (Some t2, true, b); (Some t3, false, c); (Some t4, false, d)] =>
      if is "void" (cp_ret f) && is "void" t1 && is "apx_nodeData_t" t2 && is "uint32_t" t3 && is "uint32_t" t4
         && is "arg" a && is "nodeData" b && is "offset" c && is "len" d
      then as_notifier body else None
    | _ => None
    end
  | _ => None
  end.

(** The Read function of that name, called with an object that contains [old]. *)
Definition read_text (data : bytes) (name : str) (old : cval) : option cval :=
  let? m := call_text us (lit "m_inPortdata") name data old in Some (m_val m).

(** The callbacks that the handler [name] calls when it is told about [n] bytes at
    [offset]: as [notify_loop] in GenSpec.v, with the functions of the text. *)
Fixpoint loop_text (turns : nat) (data : bytes) (old : str -> cval) (cs : list (Z * Z * option cbcall)) (offset stop : Z)
    : option (list (str * cval)) :=
  match turns with
  | O => None
  | S k =>
    if offset <? stop then
      match find (fun c => fst (fst c) =? offset) cs with
      | None => Some []
      | Some (_, n, call) =>
        let? now := (match call with
                     | None => Some []
                     | Some c => let? v := read_text data (cl_read c) (old (cl_port c)) in Some [(cl_func c, v)]
                     end) in
        let? later := loop_text k data old cs ((offset + n) mod 2 ^ 32) stop in
        Some (now ++ later)
      end
    else Some []
  end.
Definition notify_text (name : str) (data : bytes) (old : str -> cval) (offset n : Z) : option (list (str * cval)) :=
  let? x := notifier_of name in
  match x with
  | Switch guard parts _ =>
    let stop := (offset + n) mod 2 ^ 32 in
    let? start := (match guard with
                   | None => Some offset
                   | Some g => let? first := constant g in Some (if offset <? first then first else offset)
                   end) in
    let? cs := cases (macros lines) parts in
    loop_text (S (Z.to_nat stop)) data old cs start stop
  | _ => Some []
  end.
End File.

(** ** The state of the node *)

(** A function without parameters that only returns something. *)
Definition returned (us : list unit_) (name : str) (ty : string) (star : bool) : option cx :=
  let? u := function us name in
  match u with
  | UFun f [GReturn e] =>
    if is ty (cp_ret f) && Bool.eqb star (cp_star f) && match cp_params f with [] => true | _ => false end then Some e else None
  | _ => None
  end.
(** ApxNode_GetNodeData_name returns the node data. *)
Definition gets_node (us : list unit_) (name : str) : option bool :=
  let? e := returned us (lit "ApxNode_GetNodeData_" ++ name) "apx_nodeData_t" true in Some (node_data e).
(** A condition, when the input file is open or not, and the output file. *)
Fixpoint truth (inputs outputs : bool) (e : cx) : option bool :=
  match e with
  | XId s => as_truth s
  | XCall (XId f) [d] =>
    if node_data d then
      if is "apx_nodeData_isInPortDataOpen" f then Some inputs
      else if is "apx_nodeData_isOutPortDataOpen" f then Some outputs else None
    else None
  | XBin OAnd a b => let? x := truth inputs outputs a in if x then truth inputs outputs b else Some false
  | _ => None
  end.
(** ApxNode_IsConnected_name *)
Definition connected_text (us : list unit_) (name : str) (inputs outputs : bool) : option bool :=
  let? e := returned us (lit "ApxNode_IsConnected_" ++ name) "bool" false in truth inputs outputs e.
