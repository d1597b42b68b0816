(** The C code generator: model of [NodeGenerator] in /repo/apx/generator.py.

    The generated functions are syntax trees that mirror the statements the
    generator writes; [source_text] prints the source file.  A fresh generator
    object and one call of [generate] are modelled here; the two header files and a
    generator that is used again are in GenFilesModel.v, [ComGenerator] is in
    ComModel.v.  Not modelled: the file system.  The package cfile is not part of
    the repository; how it prints statements and blocks is taken from the files in
    tests/expected_gen. *)
From Verif Require Import Py TypesModel TextModel SigModel AttrModel NodeModel CompilerModel VmModel
  NodeDataModel.

(** ** The C that is generated *)

(** The types of lines 244-250. *)
Inductive basetype := BI8 | BU8 | BI16 | BU16 | BI32 | BU32.

(** Expressions: [val], [*e], [e->name], [e.name], [e[i]]. *)
Inductive cexpr :=
| EVal
| EDeref (e : cexpr)
| EArrow (e : cexpr) (name : str)
| EDot (e : cexpr) (name : str)
| EIdx (e : cexpr).

(** Where in the port data: at the pointer [p], or at a fixed offset. *)
Inductive addr := AP | AOff (offset : Z).

Inductive cstmt :=
| SStore (a : addr) (e : cexpr)                   (* *a = (uint8_t) e *)
| SLoad (e : cexpr) (b : basetype) (a : addr)     (* e = (b) *a *)
| SPack (a : addr) (e : cexpr) (b : basetype)     (* packLE(a, (uint32_t) e, sizeof(b)) *)
| SUnpack (e : cexpr) (b : basetype) (a : addr)   (* e = (b) unpackLE(a, sizeof(b)) *)
| SCopyTo (a : addr) (e : cexpr) (n : Z)          (* memcpy(a, e, n) *)
| SCopyFrom (e : cexpr) (a : addr) (n : Z)        (* memcpy(e, a, n) *)
| SNul (a : addr) (n : Z)                         (* a[n] = '\0' *)
| SInc                                            (* p++ *)
| SAddT (b : basetype)                            (* p += sizeof(b) *)
| SAddN (n : Z)                                   (* p += n *)
| SFor (n : Z) (body : list cstmt).               (* for(i=0;i<n;i++) *)

(** The types of a loop variable. *)
Inductive looptype := L8 | L16 | L32.

(** Statements of a function. *)
Inductive fstmt :=
| FPtr                                            (* uint8_t *p; *)
| FLoop (w : looptype)                            (* uint8_t i; *)
| FLockOut | FLockIn | FUnlockIn
| FStart (offset : Z)                             (* p=&buf[offset] *)
| FCode (s : cstmt)
| FNotify (offset n : Z) (direct : bool).

Record cfun := mk_cfun {
  cf_name : str;
  cf_type : option str;
  cf_pointer : bool;      (* the parameter val is a pointer *)
  cf_body : list fstmt
}.

(** ** Packing and unpacking *)

(** base.py 480-481 [isComplexType] *)
Definition isComplexType (H : theap) (e : delem) : res bool :=
  do d <- resolve_data_element H e;
  Ok (match d with DPrim _ _ _ _ (Some _) => true | DRec _ _ => true | _ => false end).

(** The dictionary [localvar]: whether it has 'bufptr', and 'loopVar'. *)
Record lvars := mk_lvars { lv_ptr : bool; lv_loop : option looptype }.

(** 240-252: the length and the type. *)
Definition base_of (d : delem) : res (Z * basetype) :=
  match d with
  | DPrim _ CS8 _ _ _ => Ok (1, BI8)
  | DPrim _ CU8 _ _ _ => Ok (1, BU8)
  | DPrim _ CS16 _ _ _ => Ok (2, BI16)
  | DPrim _ CU16 _ _ _ => Ok (2, BU16)
  | DPrim _ CS32 _ _ _ => Ok (4, BI32)
  | DPrim _ CU32 _ _ _ => Ok (4, BU32)
  | _ => Err NotImplementedError
  end.

(** 239-279 [genPackUnpackInteger].  [buf] is False when [buf] is None. *)
Definition gen_integer (buf : bool) (H : theap) (op : dir) (e : cexpr) (d : delem) (lv : lvars) (offset : Z)
    : res (list cstmt * Z) :=
  do r <- resolve_data_element H d;
  do '(n, b) <- base_of r;
  if lv_ptr lv then
    Ok (if n =? 1 then
          [match op with Pack => SStore AP e | Unpack => SLoad e b AP end; SInc]
        else
          [match op with Pack => SPack AP e b | Unpack => SUnpack e b AP end; SAddT b], n)
  else if negb buf then Err AttributeError
  else
    Ok (if n =? 1 then
          [match op with Pack => SStore (AOff offset) e | Unpack => SLoad (EDeref e) b (AOff offset) end]
        else
          [match op with Pack => SPack (AOff offset) e b | Unpack => SUnpack (EDeref e) b (AOff offset) end], n).

(** 297-325: a string of [n] characters; [strNullTerminator] is always True. *)
Definition gen_string (buf : bool) (op : dir) (e : cexpr) (n : Z) (lv : lvars) (offset : Z) : res (list cstmt) :=
  let data := n - 1 in
  if lv_ptr lv then
    Ok (match op with
        | Pack => [SCopyTo AP e data; SNul AP data]
        | Unpack => [SCopyFrom e AP data]
        end ++ [SAddN n])
  else if negb buf then Err AttributeError
  else
    Ok (match op with
        | Pack => [SCopyTo (AOff offset) e data; SNul (AOff offset) data]
        | Unpack => [SCopyFrom e (AOff offset) data]
        end).

(** 342-355: the loop variable for [n] turns. *)
Definition loop_type (n : Z) : looptype := if n <? 256 then L8 else if n <? 65536 then L16 else L32.
Definition widen (old : option looptype) (w : looptype) : looptype :=
  match old with
  | None => w
  | Some L8 => match w with L8 => L8 | _ => w end
  | Some L16 => match w with L32 => L32 | _ => L16 end
  | Some L32 => L32
  end.

(** 331-338: the expression for a record member.  [var]: the value is the C
    variable (pointer or not) or a text. *)
Definition member_expr (sfx : str) (var : option bool) (e : cexpr) (name : option str) : cexpr :=
  match var with
  | Some true => EArrow e (opt_text name ++ sfx)
  | Some false => EDot e (opt_text name ++ sfx)
  | None => EDot e (opt_text name)
  end.

(** 281-367 [genPackUnpackItem].  For the signature of a port, [d] is its resolved
    element; record members arrive here unresolved. *)
Fixpoint gen_item (buf : bool) (H : theap) (sfx : str) (op : dir) (var : option bool) (e : cexpr)
    (d : delem) (lv : lvars) (offset : Z) : res (list cstmt * lvars * Z) :=
  do complex <- isComplexType H d;
  if complex then
    match d with
    | DPrim _ CSTR _ _ (Some n) =>
      do code <- gen_string buf op e n lv offset; Ok (code, lv, n)
    | DRec _ es =>
      (fix go l lv offset := match l with
         | [] => Ok ([], lv, 0)
         | x :: r =>
           do '(c1, lv, n1) <- gen_item buf H sfx op None (member_expr sfx var e (de_name x)) x lv offset;
           do '(c2, lv, n2) <- go r lv (offset + n1);
           Ok (c1 ++ c2, lv, n1 + n2)
         end) es (mk_lvars true (lv_loop lv)) offset
    | DPrim _ _ _ _ (Some n) =>
      let lv := mk_lvars true (Some (widen (lv_loop lv) (loop_type n))) in
      do '(code, k) <- gen_integer buf H op (EIdx e) d lv offset;
      Ok ([SFor n code], lv, k * n)
    | _ =>
      do a <- isArray H d;
      if a then Err TypeError else Ok ([], lv, 0)
    end
  else
    do '(code, n) <- gen_integer buf H op e d lv offset;
    Ok (code, lv, n).

(** 369-403 [genPackUnpackFunc]: the body and the length. *)
Definition gen_func (buf : bool) (H : theap) (sfx : str) (op : dir) (pointer : bool) (d : delem) (offset : Z)
    (direct : bool) : res (list fstmt * Z) :=
  do '(code, lv, n) <- gen_item buf H sfx op (Some pointer) EVal d (mk_lvars false None) offset;
  do start <- (if lv_ptr lv then if buf then Ok [FStart offset] else Err AttributeError else Ok []);
  let many := 1 <? n in
  Ok ((if lv_ptr lv then [FPtr] else []) ++
      (match lv_loop lv with Some w => [FLoop w] | None => [] end) ++
      (match op with Pack => [FLockOut] | Unpack => if many then [FLockIn] else [] end) ++
      start ++ map FCode code ++
      (match op with Pack => [FNotify offset n direct] | Unpack => if many then [FUnlockIn] else [] end), n).

(** ** Ports *)

(** base.py 102-115 [_derive_c_typename] and 295-304 [ctypename] *)
Definition c_typename (c : tcode) : res str :=
  match c with
  | CU8 => Ok (lit "uint8") | CU16 => Ok (lit "uint16") | CU32 => Ok (lit "uint32")
  | CS8 => Ok (lit "sint8") | CS16 => Ok (lit "sint16") | CS32 => Ok (lit "sint32")
  | CSTR => Ok (lit "uint8")
  | _ => Err NotImplementedError
  end.
Definition ctypename (H : theap) (e : delem) : res (option str) :=
  match e with
  | DRef _ (RObj o) => Ok (dt_name (H o))
  | DRef _ _ => Err AssertionError
  | DPrim _ c _ _ _ => do s <- c_typename c; Ok (Some s)
  | DRec _ _ => Err NotImplementedError
  end.

(** 29-51 [SignalInfo]; [si_target] is the resolved element. *)
Record siginfo := mk_siginfo {
  si_name : option str;
  si_offset : Z;
  si_len : Z;
  si_func : str;
  si_type : option str;
  si_pointer : bool;
  si_target : delem;
  si_init : bytes
}.

Definition func_name (op : dir) (name : str) (port : option str) : str :=
  lit "ApxNode_" ++ (match op with Pack => lit "Write_" | Unpack => lit "Read_" end)
  ++ name ++ lit "_" ++ opt_text port.

(** One turn of the loops 184-204 and 207-222. *)
Definition gen_signal (fuel : nat) (op : dir) (types : list nat) (name : str) (W : world) (offset : Z) (o : nat)
    : res (world * siginfo) :=
  let p := w_ports W o in
  do pointer <- match op with Unpack => Ok true | Pack => isComplexType (w_types W) (pt_elem p) end;
  do t <- ctypename (w_types W) (pt_elem p);
  do n <- packLen fuel (w_types W) (pt_elem p);
  do '(e, target) <- resolve_sig (w_types W) types (pt_elem p);
  let W := set_port W o (with_pelem p e) in
  do init <- match init_of p with
             | IVNone => Ok (zeros n)
             | v => createInitData fuel (w_types W) e v
             end;
  if negb (len init =? n) then Err AssertionError
  else Ok (W, mk_siginfo (pt_name p) offset n (func_name op name (pt_name p)) t pointer target init).

Fixpoint gen_signals (fuel : nat) (op : dir) (types : list nat) (name : str) (W : world) (offset : Z)
    (ports : list nat) : res (world * list siginfo) :=
  match ports with
  | [] => Ok (W, [])
  | o :: r =>
    do '(W, s) <- gen_signal fuel op types name W offset o;
    do '(W, l) <- gen_signals fuel op types name W (offset + si_len s) r;
    Ok (W, s :: l)
  end.

Fixpoint sum_lens (l : list siginfo) : Z :=
  match l with [] => 0 | s :: r => si_len s + sum_lens r end.

(** [signalInfoMap[…][name]]: the last port of that name. *)
Definition sig_of (l : list siginfo) (name : option str) : res siginfo :=
  match find (fun s => opt_eqb (si_name s) name) (rev l) with
  | Some s => Ok s
  | None => Err KeyError
  end.

(** 499-503 and 529-533: the init data, for a side that has any. *)
Fixpoint gather (l : list siginfo) (sigs : list siginfo) : res bytes :=
  match sigs with
  | [] => Ok []
  | s :: r => do x <- sig_of l (si_name s); do b <- gather l r; Ok (si_init x ++ b)
  end.
Definition init_table (l : list siginfo) : res bytes :=
  if sum_lens l =? 0 then Ok []
  else
    do b <- gather l l;
    if len b =? sum_lens l then Ok b else Err AssertionError.

(** 620-633: the functions of one side. *)
Fixpoint gen_funcs (H : theap) (sfx : str) (op : dir) (direct : list str) (l sigs : list siginfo)
    : res (list cfun) :=
  match sigs with
  | [] => Ok []
  | s :: r =>
    do x <- sig_of l (si_name s);
    do '(body, _) <- gen_func (0 <? sum_lens l) H sfx op (si_pointer x) (si_target x) (si_offset x)
                      (match op, si_name s with
                       | Pack, Some nm => existsb (str_eqb nm) direct
                       | _, _ => false
                       end);
    do fs <- gen_funcs H sfx op direct l r;
    Ok (mk_cfun (si_func x) (si_type x) (si_pointer x) body :: fs)
  end.

(** ** Callbacks *)

(** [str.upper].  Simplification: only the letters a to z have another form. *)
Definition upper (s : str) : str := map (fun c => if (97 <=? c) && (c <=? 122) then c - 32 else c) s.

(** 54-64 [Callback] *)
Record callback := mk_callback {
  cb_sig : siginfo;
  cb_func : option str;
  cb_offset_define : str;
  cb_len_define : str
}.

(** 196-200 and 79-90 [CallbackInfo.create]; [callbacks] maps port names to
    function names, or to None. *)
Fixpoint lookup (name : option str) (m : list (str * option str)) : option str :=
  match m with
  | [] => None
  | (k, f) :: r => if opt_eqb (Some k) name then f else lookup name r
  end.
Fixpoint create_callbacks (callbacks : list (str * option str)) (l : list siginfo) : res (list callback) :=
  match l with
  | [] => Ok []
  | s :: r =>
    match si_name s with
    | None => Err AttributeError
    | Some nm =>
      do cs <- create_callbacks callbacks r;
      Ok (mk_callback s (lookup (Some nm) callbacks) (lit "APX_RX_OFFSET_" ++ upper nm)
            (lit "APX_RX_LEN_" ++ upper nm) :: cs)
    end
  end.

(** The first and the last port with a callback, 473-482.  The list is in the order
    of the offsets, which never decrease: sorting it by offset changes nothing. *)
Definition has_func (c : callback) : bool := match cb_func c with Some _ => true | None => false end.
Definition first_callback (l : list callback) : option callback := find has_func l.
Definition last_offset (l : list callback) : Z :=
  match find has_func (rev l) with Some c => si_offset (cb_sig c) | None => 0 end.

(** A part of the switch, 101-115 and 665-678. *)
Record cbcall := mk_cbcall {
  cl_port : str;      (* the member of the union *)
  cl_read : str;      (* the Read function *)
  cl_func : str;      (* the callback *)
  cl_array : bool;    (* "[0]" *)
  cl_ref : bool       (* "&" *)
}.
Inductive cbpart :=
| PCase (label len : str) (call : option cbcall)
| PComment (label : str).

Definition code_fragment (H : theap) (c : callback) : res cbpart :=
  match cb_func c with
  | None => Ok (PCase (cb_offset_define c) (cb_len_define c) None)
  | Some f =>
    do ref <- isComplexType H (si_target (cb_sig c));
    Ok (PCase (cb_offset_define c) (cb_len_define c)
          (Some (mk_cbcall (opt_text (si_name (cb_sig c))) (si_func (cb_sig c)) f
                   (match arrayLen (si_target (cb_sig c)) with Some _ => true | None => false end) ref)))
  end.

Fixpoint switch_parts (H : theap) (first : option callback) (last : Z) (written : bool) (l : list callback)
    : res (list cbpart) :=
  match l with
  | [] => Ok []
  | c :: r =>
    let off := si_offset (cb_sig c) in
    let comment := if written then [PComment (cb_offset_define c)] else [] in
    if off <=? last then
      match first with
      | None => Err AttributeError
      | Some f =>
        if si_offset (cb_sig f) <=? off then
          do x <- code_fragment H c;
          do xs <- switch_parts H first last (last <=? off) r;
          Ok (comment ++ x :: xs)
        else do xs <- switch_parts H first last written r; Ok (comment ++ xs)
      end
    else do xs <- switch_parts H first last written r; Ok (comment ++ xs)
  end.

(** The function called when input port data arrived, 635-690. *)
Inductive notifier :=
| NoNotifier                                  (* there is no input data *)
| Ignores                                     (* generated without callbacks *)
| Switch (guard : option str) (parts : list cbpart) (vars : list (str * option str * option Z)).

Fixpoint insert_name {A} (key : A -> str) (x : A) (l : list A) : list A :=
  match l with
  | [] => [x]
  | y :: r => if str_ltb (key x) (key y) then x :: l else y :: insert_name key x r
  end.

Definition gen_notifier (H : theap) (inlen : Z) (callbacks : option (list callback)) : res notifier :=
  if inlen =? 0 then Ok NoNotifier
  else
    match callbacks with
    | None => Ok Ignores
    | Some l =>
      let first := first_callback l in
      do parts <- switch_parts H first (last_offset l) false l;
      Ok (Switch (match first with
                  | Some f => if si_offset (cb_sig f) =? 0 then None else Some (cb_offset_define f)
                  | None => None
                  end) parts
            (fold_right (insert_name (fun v => fst (fst v))) []
               (rev (map (fun c => (opt_text (si_name (cb_sig c)), si_type (cb_sig c), arrayLen (si_target (cb_sig c))))
                  (filter has_func l)))))
    end.

(** ** The whole source file *)

(** 557-559: a line of the definition text inside the quotes of a C literal. *)
Definition escape (s : str) : str := flat_map (fun c => if c =? QUOTE then [92; QUOTE] else [c]) s.
Definition literal_line (s : str) : str := escape s ++ [92; 110].

Record cfile := mk_cfile {
  c_name : str;
  c_node : option str;
  c_callbacks : bool;
  c_synced : bool;
  c_deflen : Z;
  c_inlen : Z;
  c_outlen : Z;
  c_lens : list (str * Z);        (* APX_RX_LEN_... *)
  c_offsets : list (str * Z);     (* APX_RX_OFFSET_... *)
  c_ininit : bytes;
  c_outinit : bytes;
  c_literal : list str;
  c_reads : list cfun;
  c_writes : list cfun;
  c_notifier : notifier
}.

Fixpoint insert_len (x : callback) (l : list callback) : list callback :=
  match l with
  | [] => [x]
  | y :: r => if si_len (cb_sig y) <? si_len (cb_sig x) then y :: insert_len x r else x :: l
  end.
Definition by_len (l : list callback) : list callback := fold_right insert_len [] l.

(** 132-237 [generate] and 441-707 [_writeSourceFile].  [sfx] is
    [record_elem_suffix]; [name], [callbacks], [direct] and [synced] are parameters
    of [generate]. *)
Definition generate (fuel : nat) (sfx : str) (W : world) (nd : node) (name : option str)
    (callbacks : option (list (str * option str))) (direct : list str) (synced : bool)
    : res (world * node * cfile) :=
  do nm <- match name, n_name nd with
           | Some s, _ => Ok s
           | None, Some s => Ok s
           | None, None => Err TypeError
           end;
  do '(W, nd) <- finalize true false W nd;
  do '(W, ins) <- gen_signals fuel Unpack (n_types nd) nm W 0 (n_require nd);
  do cbs <- match callbacks with
            | None => Ok None
            | Some m => do l <- create_callbacks m ins; Ok (Some l)
            end;
  do '(W, outs) <- gen_signals fuel Pack (n_types nd) nm W 0 (n_provide nd);
  do text <- context_dumps false W [nd];
  do outinit <- init_table outs;
  do ininit <- init_table ins;
  do reads <- gen_funcs (w_types W) sfx Unpack direct ins ins;
  do writes <- gen_funcs (w_types W) sfx Pack direct outs outs;
  do notifier <- gen_notifier (w_types W) (sum_lens ins) cbs;
  let cbl := match cbs with Some l => l | None => [] end in
  Ok (W, nd,
      mk_cfile nm (n_name nd) (match callbacks with Some _ => true | None => false end) synced
        (len text + 1) (sum_lens ins) (sum_lens outs)
        (map (fun c => (cb_len_define c, si_len (cb_sig c))) (by_len cbl))
        (map (fun c => (cb_offset_define c, si_offset (cb_sig c))) cbl)
        ininit outinit (map literal_line (split_on NEWLINE text)) reads writes notifier).

(** ** Printing *)

Definition base_text (b : basetype) : str :=
  lit match b with
      | BI8 => "int8_t" | BU8 => "uint8_t" | BI16 => "int16_t" | BU16 => "uint16_t"
      | BI32 => "int32_t" | BU32 => "uint32_t"
      end.
Fixpoint expr_text (e : cexpr) : str :=
  match e with
  | EVal => lit "val"
  | EDeref e => lit "*" ++ expr_text e
  | EArrow e s => expr_text e ++ lit "->" ++ s
  | EDot e s => expr_text e ++ lit "." ++ s
  | EIdx e => expr_text e ++ lit "[i]"
  end.
Definition bracket (n : Z) : str := lit "[" ++ dec_str n ++ lit "]".
(** The address, the byte at the address, the byte [n] further on. *)
Definition addr_text (buf : str) (a : addr) : str :=
  match a with AP => lit "p" | AOff o => lit "&" ++ buf ++ bracket o end.
Definition byte_text (buf : str) (a : addr) : str :=
  match a with AP => lit "*p" | AOff o => buf ++ bracket o end.
Definition later_text (buf : str) (a : addr) (n : Z) : str :=
  match a with AP => lit "p" ++ bracket n | AOff o => buf ++ bracket (o + n) end.

Definition line (indent : nat) (s : str) : str := repeat 32 indent ++ s.
Definition stmt (indent : nat) (s : str) : str := line indent (s ++ lit ";").
Definition size_text (b : basetype) : str := lit "(uint8_t) sizeof(" ++ base_text b ++ lit ")".

Fixpoint stmt_lines (buf : str) (indent : nat) (s : cstmt) : list str :=
  match s with
  | SStore a e => [stmt indent (byte_text buf a ++ lit "=(uint8_t) " ++ expr_text e)]
  | SLoad e b a => [stmt indent (expr_text e ++ lit " = (" ++ base_text b ++ lit ") " ++ byte_text buf a)]
  | SPack a e b =>
    [stmt indent (lit "packLE(" ++ addr_text buf a ++ lit ",(uint32_t) " ++ expr_text e ++ lit "," ++ size_text b ++ lit ")")]
  | SUnpack e b a =>
    [stmt indent (expr_text e ++ lit " = (" ++ base_text b ++ lit ") unpackLE(" ++ addr_text buf a ++ lit "," ++ size_text b ++ lit ")")]
  | SCopyTo a e n => [stmt indent (lit "memcpy(" ++ addr_text buf a ++ lit "," ++ expr_text e ++ lit "," ++ dec_str n ++ lit ")")]
  | SCopyFrom e a n => [stmt indent (lit "memcpy(" ++ expr_text e ++ lit "," ++ addr_text buf a ++ lit "," ++ dec_str n ++ lit ")")]
  | SNul a n => [stmt indent (later_text buf a n ++ lit "='\0'")]
  | SInc => [stmt indent (lit "p++")]
  | SAddT b => [stmt indent (lit "p+=sizeof(" ++ base_text b ++ lit ")")]
  | SAddN n => [stmt indent (lit "p+=" ++ dec_str n)]
  | SFor n body =>
    [line indent (lit "for(i=0;i<" ++ dec_str n ++ lit ";i++)"); line indent (lit "{")]
    ++ flat_map (stmt_lines buf (indent + 3)) body ++ [line indent (lit "}")]
  end.

Definition bool_text (b : bool) : str := lit (if b then "true" else "false").
Definition fstmt_lines (buf : str) (s : fstmt) : list str :=
  match s with
  | FPtr => [stmt 3 (lit "uint8_t *p")]
  | FLoop w => [stmt 3 (lit match w with L8 => "uint8_t i" | L16 => "uint16_t i" | L32 => "uint32_t i" end)]
  | FLockOut => [stmt 3 (lit "apx_nodeData_lockOutPortData(&m_nodeData)")]
  | FLockIn => [stmt 3 (lit "apx_nodeData_lockInPortData(&m_nodeData)")]
  | FUnlockIn => [stmt 3 (lit "apx_nodeData_unlockInPortData(&m_nodeData)")]
  | FStart o => [stmt 3 (lit "p=&" ++ buf ++ bracket o)]
  | FCode s => stmt_lines buf 3 s
  | FNotify o n d =>
    [stmt 3 (lit "apx_nodeData_outPortDataWriteNotify(&m_nodeData, " ++ dec_str o ++ lit ", " ++ dec_str n
             ++ lit ", " ++ bool_text d ++ lit ")")]
  end.

Definition fun_lines (buf : str) (f : cfun) : list str :=
  [lit "Std_ReturnType " ++ cf_name f ++ lit "(" ++ opt_text (cf_type f) ++ lit " "
   ++ (if cf_pointer f then lit "*" else []) ++ lit "val)"; lit "{"]
  ++ flat_map (fstmt_lines buf) (cf_body f) ++ [stmt 3 (lit "return E_OK"); lit "}"; []].

Definition part_lines (x : cbpart) : list str :=
  match x with
  | PComment l => [line 6 (lit "//case " ++ l ++ lit ":")]
  | PCase l n call =>
    [line 6 (lit "case " ++ l ++ lit ":")]
    ++ match call with
       | None => []
       | Some c =>
         let idx := if cl_array c then lit "[0]" else [] in
         [stmt 9 (lit "(void) " ++ cl_read c ++ lit "(&data." ++ cl_port c ++ idx ++ lit ")");
          stmt 9 (cl_func c ++ lit "(" ++ (if cl_ref c then lit "&" else []) ++ lit "data." ++ cl_port c ++ idx ++ lit ")")]
       end
    ++ [stmt 9 (lit "offset += " ++ n); stmt 9 (lit "break")]
  end.

Definition notifier_lines (name : str) (x : notifier) : list str :=
  let head := [lit "void " ++ name ++ lit "_inPortDataWritten(void *arg, apx_nodeData_t *nodeData, uint32_t offset, uint32_t len)"; lit "{"] in
  match x with
  | NoNotifier => []
  | Ignores => head ++ map (stmt 3) [lit "(void)arg"; lit "(void)nodeData"; lit "(void)offset"; lit "(void)len"] ++ [lit "}"]
  | Switch guard parts vars =>
    head ++
    [line 3 (lit "union data_tag"); line 3 (lit "{")]
    ++ map (fun v => stmt 6 (opt_text (snd (fst v)) ++ lit " " ++ fst (fst v)
                             ++ match snd v with Some n => bracket n | None => [] end)) vars
    ++ [stmt 3 (lit "} data"); stmt 3 (lit "uint32_t endOffset = offset + len"); [];
        stmt 3 (lit "(void)arg"); stmt 3 (lit "(void)nodeData"); []]
    ++ match guard with
       | Some g => [line 3 (lit "if (offset < " ++ g ++ lit ")"); line 3 (lit "{"); stmt 6 (lit "offset = " ++ g); line 3 (lit "}")]
       | None => []
       end
    ++ [line 3 (lit "while (offset < endOffset)"); line 3 (lit "{"); line 6 (lit "switch(offset)"); line 6 (lit "{")]
    ++ flat_map part_lines parts
    ++ [line 6 (lit "default:"); stmt 9 (lit "offset = endOffset"); line 6 (lit "}"); line 3 (lit "}"); lit "}"]
  end.

(** 504-516: at most 32 numbers on a line. *)
Fixpoint data_lines (fuel : nat) (l : list Z) : list str :=
  match fuel with
  | O => []
  | S k =>
    if Nat.ltb 32 (length l)
    then line 3 (join (lit ", ") (map dec_str (firstn 32 l)) ++ lit ",") :: data_lines k (skipn 32 l)
    else match l with [] => [] | _ => [line 3 (join (lit ", ") (map dec_str l))] end
  end.

Definition ruler : str := lit "//////////////////////////////////////////////////////////////////////////////".
Definition heading (s : string) : list str := [ruler; lit "// " ++ lit s; ruler].
Definition define (m : str * Z) : str := lit "#define " ++ fst m ++ lit " " ++ dec_str (snd m) ++ lit "u".

Fixpoint end_last (l : list str) : list str :=
  match l with [] => [] | [x] => [x ++ lit ";"] | x :: r => x :: end_last r end.

(** Everything before the notification function. *)
Definition source_front (version : str) (c : cfile) : list str :=
  [lit "/* " ++ opt_text (c_node c) ++ lit " has been autogenerated by py-apx generator " ++ version ++ lit " */"; []]
  ++ heading "INCLUDES"
  ++ [lit "#include <string.h>"; lit "#include <stdio.h>"; lit "#include ""ApxNode_" ++ c_name c ++ lit ".h"""]
  ++ (if c_callbacks c then [lit "#include ""ApxNode_" ++ c_name c ++ lit "_Cbk.h"""] else [])
  ++ [lit "#include ""pack.h"""; []]
  ++ heading "CONSTANTS AND DATA TYPES"
  ++ map define [(lit "APX_DEFINITON_LEN", c_deflen c); (lit "APX_IN_PORT_DATA_LEN", c_inlen c); (lit "APX_OUT_PORT_DATA_LEN", c_outlen c)]
  ++ (if c_callbacks c then [[]] ++ map define (c_lens c) ++ [[]] ++ map define (c_offsets c) else [])
  ++ [[]] ++ heading "LOCAL FUNCTIONS" ++ [[]] ++ heading "LOCAL VARIABLES"
  ++ (if 0 <? c_outlen c then
        [lit "static const uint8_t m_outPortInitData[APX_OUT_PORT_DATA_LEN]= {"]
        ++ data_lines (length (c_outinit c)) (c_outinit c)
        ++ [lit "};"; []; lit "static uint8_t m_outPortdata[APX_OUT_PORT_DATA_LEN];";
            lit "static uint8_t m_outPortDirtyFlags[APX_OUT_PORT_DATA_LEN];"]
      else [])
  ++ (if 0 <? c_inlen c then
        [lit "static const uint8_t m_inPortInitData[APX_IN_PORT_DATA_LEN]= {"]
        ++ data_lines (length (c_ininit c)) (c_ininit c)
        ++ [lit "};"; []; lit "static uint8_t m_inPortdata[APX_IN_PORT_DATA_LEN];"]
        ++ (if c_synced c then [lit "static uint8_t m_inPortSyncedFlags[APX_IN_PORT_DATA_LEN];"] else [])
      else [])
  ++ [lit "static apx_nodeData_t m_nodeData;"; lit "static const char *m_apxDefinitionData="]
  ++ end_last (map (fun s => [QUOTE] ++ s ++ [QUOTE]) (c_literal c))
  ++ [[]] ++ heading "GLOBAL FUNCTIONS"
  ++ [lit "apx_nodeData_t * ApxNode_Init_" ++ c_name c ++ lit "(void)"; lit "{"]
  ++ (if c_callbacks c then [stmt 3 (lit "apx_nodeDataHandlerTable_t nodeDataHandler")] else [])
  ++ (if 0 <? c_inlen c then
        [stmt 3 (lit "memcpy(&m_inPortdata[0], &m_inPortInitData[0], APX_IN_PORT_DATA_LEN)")]
        ++ (if c_synced c then [stmt 3 (lit "memset(&m_inPortSyncedFlags[0], 0, sizeof(m_inPortSyncedFlags))")] else [])
      else [])
  ++ (if 0 <? c_outlen c then
        [stmt 3 (lit "memcpy(&m_outPortdata[0], &m_outPortInitData[0], APX_OUT_PORT_DATA_LEN)");
         stmt 3 (lit "memset(&m_outPortDirtyFlags[0], 0, sizeof(m_outPortDirtyFlags))")]
      else [])
  ++ [stmt 3 (lit "apx_nodeData_create(&m_nodeData, """ ++ opt_text (c_node c)
              ++ lit """, (uint8_t*) &m_apxDefinitionData[0], APX_DEFINITON_LEN, "
              ++ (if 0 <? c_inlen c then
                    lit "&m_inPortdata[0], " ++ lit (if c_synced c then "&m_inPortSyncedFlags[0]" else "NULL") ++ lit ", APX_IN_PORT_DATA_LEN, "
                  else lit "0, 0, 0, ")
              ++ (if 0 <? c_outlen c then lit "&m_outPortdata[0], &m_outPortDirtyFlags[0], APX_OUT_PORT_DATA_LEN" else lit "0, 0, 0")
              ++ lit ")")]
  ++ (if c_callbacks c then
        [stmt 3 (lit "memset(&nodeDataHandler, 0, sizeof(nodeDataHandler))");
         stmt 3 (lit "nodeDataHandler.inPortDataWritten = " ++ opt_text (c_node c) ++ lit "_inPortDataWritten");
         stmt 3 (lit "apx_nodeData_setHandlerTable(&m_nodeData, &nodeDataHandler)")]
      else [])
  ++ [stmt 3 (lit "return &m_nodeData"); lit "}"; [];
      lit "apx_nodeData_t * ApxNode_GetNodeData_" ++ c_name c ++ lit "(void)"; lit "{"; stmt 3 (lit "return &m_nodeData"); lit "}"; [];
      lit "bool ApxNode_IsConnected_" ++ c_name c ++ lit "(void)"; lit "{";
      stmt 3 (lit (match (0 <? c_inlen c)%Z, (0 <? c_outlen c)%Z with
                   | true, true => "return ( apx_nodeData_isInPortDataOpen(&m_nodeData) && apx_nodeData_isOutPortDataOpen(&m_nodeData) )"
                   | true, false => "return apx_nodeData_isInPortDataOpen(&m_nodeData)"
                   | false, true => "return apx_nodeData_isOutPortDataOpen(&m_nodeData)"
                   | false, false => "return false"
                   end)); lit "}"; []]
  ++ flat_map (fun_lines (lit "m_inPortdata")) (c_reads c)
  ++ flat_map (fun_lines (lit "m_outPortdata")) (c_writes c).

Definition source_lines (version : str) (c : cfile) : list str :=
  source_front version c ++ notifier_lines (c_name c) (c_notifier c) ++ heading "LOCAL FUNCTIONS".

Definition source_text (version : str) (c : cfile) : str :=
  flat_map (fun l => l ++ [NEWLINE]) (source_lines version c).
