(** C as a compiler reads it: words, expressions and statements of the part of C that
    the generated files use, and what the generated statements stand for.

    [lex] cuts a line into words (longest match first), the parser follows the grammar
    of C for the operators listed here.  Lines that start with # belong to the
    preprocessor.  The names of the integer types are known to the parser, other names
    of types are recognised by their place. *)
From Verif Require Import Py TypesModel TextModel AttrModel NodeModel VmModel TypesSpec CompilerModel
  NodeDataModel NodeDataSpec GenModel GenSpec GenFilesModel ComModel.

(** ** Words *)

Inductive punct :=
| OLpar | ORpar | OLbrk | ORbrk | OLbrc | ORbrc | OSemi | OComma | OColon | ODot | OArrow
| OStar | OAmp | OEq | OAddEq | OInc | OPlus | OLess | ONeq | OAnd
| OOther (s : str).
Inductive kw := KFor | KWhile | KIf | KSwitch | KCase | KDefault | KBreak | KReturn | KSizeof | KUnion | KVoid | KStatic | KConst | KChar
| KOther.
Inductive tok := TId (s : str) | TNum (z : Z) | TStr (s : str) | TChr (z : Z) | TOp (o : punct) | TKw (k : kw) | TType (b : basetype).

Definition keywords : list (string * tok) :=
  [("for", TKw KFor); ("while", TKw KWhile); ("if", TKw KIf); ("switch", TKw KSwitch); ("case", TKw KCase); ("default", TKw KDefault);
   ("break", TKw KBreak); ("return", TKw KReturn); ("sizeof", TKw KSizeof); ("union", TKw KUnion); ("void", TKw KVoid);
   ("static", TKw KStatic); ("const", TKw KConst); ("char", TKw KChar);
   ("auto", TKw KOther); ("continue", TKw KOther); ("do", TKw KOther); ("double", TKw KOther); ("else", TKw KOther);
   ("enum", TKw KOther); ("extern", TKw KOther); ("float", TKw KOther); ("goto", TKw KOther); ("inline", TKw KOther); ("int", TKw KOther);
   ("long", TKw KOther); ("register", TKw KOther); ("restrict", TKw KOther); ("short", TKw KOther); ("signed", TKw KOther);
   ("struct", TKw KOther); ("typedef", TKw KOther); ("unsigned", TKw KOther); ("volatile", TKw KOther);
   ("_Bool", TKw KOther); ("_Complex", TKw KOther); ("_Imaginary", TKw KOther);
   ("int8_t", TType BI8); ("uint8_t", TType BU8); ("int16_t", TType BI16); ("uint16_t", TType BU16); ("int32_t", TType BI32);
   ("uint32_t", TType BU32)]%string.
Definition word (s : str) : tok :=
  match find (fun p => str_eqb (lit (fst p)) s) keywords with Some p => snd p | None => TId s end.

Definition letter (c : Z) : bool := (65 <=? c) && (c <=? 90) || (97 <=? c) && (c <=? 122) || (c =? 95).
Definition digit (c : Z) : bool := (48 <=? c) && (c <=? 57).
Definition name_char (c : Z) : bool := letter c || digit c.

(** A name that a C program may use: an identifier that has no other meaning. *)
Definition c_ident (s : str) : Prop :=
  match s with [] => False | c :: _ => letter c = true end /\ forallb name_char s = true /\
  ~ In s (map (fun p => lit (fst p)) keywords).

(** A decimal number, perhaps unsigned; a leading zero would make it octal. *)
Fixpoint decimal (acc : Z) (s : str) : option Z :=
  match s with
  | [] => Some acc
  | c :: r => if digit c then decimal (10 * acc + (c - 48)) r else match r with [] => if c =? 117 then Some acc else None | _ => None end
  end.
Definition c_number (s : str) : option tok :=
  match s with
  | c :: d :: _ => if (c =? 48) && digit d then None else option_map TNum (decimal 0 s)
  | _ => option_map TNum (decimal 0 s)
  end.

Definition one_char (c : Z) : option punct :=
  if c =? 40 then Some OLpar else if c =? 41 then Some ORpar else if c =? 91 then Some OLbrk else if c =? 93 then Some ORbrk
  else if c =? 123 then Some OLbrc else if c =? 125 then Some ORbrc else if c =? 59 then Some OSemi else if c =? 44 then Some OComma
  else if c =? 58 then Some OColon else if c =? 46 then Some ODot else if c =? 42 then Some OStar else if c =? 38 then Some OAmp
  else if c =? 61 then Some OEq else if c =? 43 then Some OPlus else if c =? 60 then Some OLess
  else if existsb (Z.eqb c) (lit "-/%!>|^~?") then Some (OOther [c]) else None.
Definition two_chars (a b : Z) : option punct :=
  let is (s : string) := str_eqb [a; b] (lit s) in
  if is "->"%string then Some OArrow else if is "+="%string then Some OAddEq else if is "++"%string then Some OInc
  else if is "!="%string then Some ONeq else if is "&&"%string then Some OAnd
  else if existsb is ["--"; "-="; "*="; "/="; "%="; "=="; "<="; ">="; "<<"; ">>"; "||"; "&="; "|="; "^="]%string then Some (OOther [a; b])
  else None.

Inductive lex_state :=
| Between
| InWord (s : str) | InNumber (s : str) | InPunct (c : Z)
| InString (s : str) (escape : bool)
| InChar (s : str) (escape : bool)
| InLineComment
| InComment (star : bool).

(** The word that ends here. *)
Definition finish (st : lex_state) : option (list tok) :=
  match st with
  | Between | InLineComment => Some []
  | InWord s => Some [word s]
  | InNumber s => let? t := c_number s in Some [t]
  | InPunct c => let? o := one_char c in Some [TOp o]
  | InString _ _ | InChar _ _ | InComment _ => None
  end.
(** The word that starts here. *)
Definition start (c : Z) : option lex_state :=
  if c =? 32 then Some Between
  else if letter c then Some (InWord [c])
  else if digit c then Some (InNumber [c])
  else if c =? 34 then Some (InString [] false)
  else if c =? 39 then Some (InChar [] false)
  else let? _ := one_char c in Some (InPunct c).
(** The word goes on. *)
Definition goes_on (st : lex_state) (c : Z) : option (option (list tok * lex_state)) :=
  match st with
  | InWord s => if name_char c then Some (Some ([], InWord (s ++ [c]))) else None
  | InNumber s => if name_char c then Some (Some ([], InNumber (s ++ [c]))) else None
  | InPunct a =>
    if (a =? 47) && (c =? 47) then Some (Some ([], InLineComment))
    else if (a =? 47) && (c =? 42) then Some (Some ([], InComment false))
    else match two_chars a c with Some o => Some (Some ([TOp o], Between)) | None => None end
  | InString s e =>
    Some (if e then Some ([], InString (s ++ [c]) false)
          else if c =? 34 then let? t := unescape s in Some ([TStr t], Between)
          else Some ([], InString (s ++ [c]) (c =? 92)))
  | InChar s e =>
    Some (if e then Some ([], InChar (s ++ [c]) false)
          else if c =? 39 then
            if str_eqb s (lit "\0") then Some ([TChr 0], Between) else match s with [x] => Some ([TChr x], Between) | _ => None end
          else Some ([], InChar (s ++ [c]) (c =? 92)))
  | InLineComment => Some (Some ([], InLineComment))
  | InComment star => Some (Some ([], if star && (c =? 47) then Between else InComment (c =? 42)))
  | Between => None
  end.
Fixpoint lex (st : lex_state) (s : str) : option (list tok) :=
  match s with
  | [] => finish st
  | c :: r =>
    match goes_on st c with
    | Some x => let? p := x in let? u := lex (snd p) r in Some (fst p ++ u)
    | None => let? t := finish st in let? st' := start c in let? u := lex st' r in Some (t ++ u)
    end
  end.

Definition directive (l : str) : bool := match l with c :: _ => c =? 35 | [] => false end.
Fixpoint words (l : list str) : option (list tok) :=
  match l with
  | [] => Some []
  | x :: r => if directive x then words r else let? a := lex Between x in let? b := words r in Some (a ++ b)
  end.

(** ** Expressions *)

Inductive cx :=
| XId (s : str) | XNum (z : Z) | XStr (s : str) | XChr (z : Z)
| XField (e : cx) (s : str) | XArrow (e : cx) (s : str) | XIndex (e i : cx) | XCall (f : cx) (args : list cx) | XInc (e : cx)
| XDeref (e : cx) | XAddr (e : cx) | XCast (b : basetype) (e : cx) | XCastPtr (b : basetype) (e : cx) | XVoid (e : cx)
| XSizeT (b : basetype) | XSize (e : cx)
| XBin (o : punct) (a b : cx)
| XAssign (a b : cx) | XAddTo (a b : cx).

(** How tight an operator binds. *)
Definition level_of (o : punct) : nat := match o with OPlus => 1 | OLess => 2 | ONeq => 3 | OAnd => 4 | _ => 0 end.

Notation "'let!' ( x , t ) := e 'in' f" := (obind e (fun p => let '(x, t) := p in f))
  (at level 200, x name, t name, e at level 100, f at level 200, right associativity).

Definition expect (o : punct) (t : list tok) : option (list tok) :=
  match t with
  | TOp p :: r =>
    match o, p with
    | ORpar, ORpar | ORbrk, ORbrk | OSemi, OSemi | OColon, OColon | OLpar, OLpar | ORbrc, ORbrc => Some r
    | _, _ => None
    end
  | _ => None
  end.

Fixpoint p_expr (k : nat) (t : list tok) : option (cx * list tok) :=
  match k with
  | O => None
  | S k =>
    let! (a, t) := p_level k 4 t in
    match t with
    | TOp OEq :: t => let! (b, t) := p_expr k t in Some (XAssign a b, t)
    | TOp OAddEq :: t => let! (b, t) := p_expr k t in Some (XAddTo a b, t)
    | _ => Some (a, t)
    end
  end
with p_level (k : nat) (l : nat) (t : list tok) : option (cx * list tok) :=
  match k with
  | O => None
  | S k =>
    match l with
    | O => p_unary k t
    | S m => let! (a, t) := p_level k m t in p_more k l a t
    end
  end
with p_more (k : nat) (l : nat) (a : cx) (t : list tok) : option (cx * list tok) :=
  match k with
  | O => None
  | S k =>
    match t with
    | TOp o :: r =>
      if Nat.eqb (level_of o) l then let! (b, r) := p_level k (pred l) r in p_more k l (XBin o a b) r
      else Some (a, t)
    | _ => Some (a, t)
    end
  end
with p_unary (k : nat) (t : list tok) : option (cx * list tok) :=
  match k with
  | O => None
  | S k =>
    match t with
    | TOp OStar :: t => let! (e, t) := p_unary k t in Some (XDeref e, t)
    | TOp OAmp :: t => let! (e, t) := p_unary k t in Some (XAddr e, t)
    | TKw KSizeof :: TOp OLpar :: TType b :: TOp ORpar :: t => Some (XSizeT b, t)
    | TKw KSizeof :: TOp OLpar :: t => let! (e, t) := p_expr k t in let? t := expect ORpar t in Some (XSize e, t)
    | TOp OLpar :: TType b :: TOp ORpar :: t => let! (e, t) := p_unary k t in Some (XCast b e, t)
    | TOp OLpar :: TType b :: TOp OStar :: TOp ORpar :: t => let! (e, t) := p_unary k t in Some (XCastPtr b e, t)
    | TOp OLpar :: TKw KVoid :: TOp ORpar :: t => let! (e, t) := p_unary k t in Some (XVoid e, t)
    | TOp OLpar :: t => let! (e, t) := p_expr k t in let? t := expect ORpar t in p_post k e t
    | TId s :: t => p_post k (XId s) t
    | TNum z :: t => p_post k (XNum z) t
    | TStr s :: t => p_post k (XStr s) t
    | TChr z :: t => p_post k (XChr z) t
    | _ => None
    end
  end
with p_post (k : nat) (a : cx) (t : list tok) : option (cx * list tok) :=
  match k with
  | O => None
  | S k =>
    match t with
    | TOp ODot :: TId s :: t => p_post k (XField a s) t
    | TOp OArrow :: TId s :: t => p_post k (XArrow a s) t
    | TOp OLbrk :: t => let! (i, t) := p_expr k t in let? t := expect ORbrk t in p_post k (XIndex a i) t
    | TOp OLpar :: TOp ORpar :: t => p_post k (XCall a []) t
    | TOp OLpar :: t => let! (args, t) := p_args k t in p_post k (XCall a args) t
    | TOp OInc :: t => p_post k (XInc a) t
    | _ => Some (a, t)
    end
  end
with p_args (k : nat) (t : list tok) : option (list cx * list tok) :=
  match k with
  | O => None
  | S k =>
    let! (e, t) := p_expr k t in
    match t with
    | TOp OComma :: t => let! (l, t) := p_args k t in Some (e :: l, t)
    | TOp ORpar :: t => Some ([e], t)
    | _ => None
    end
  end.

(** ** Statements *)

(** A type, a star, a name, an array length. *)
Definition cdecl : Type := str * bool * str * option Z.

Inductive cs :=
| GExpr (e : cx)
| GBlock (l : list cs)
| GFor (a b c : cx) (body : cs) | GWhile (c : cx) (body : cs) | GIf (c : cx) (body : cs) | GSwitch (e : cx) (body : cs)
| GCase (e : cx) | GDefault | GBreak | GReturn (e : cx)
| GDecl (d : cdecl) (init : option cx)
| GUnion (tag : str) (members : list cdecl) (name : str).

Definition type_name (t : tok) : option str :=
  match t with TId s => Some s | TType b => Some (base_text b) | TKw KVoid => Some (lit "void") | _ => None end.

(** The name of a type followed by a declarator: a declaration. *)
Definition p_decl (t : list tok) : option (cdecl * list tok) :=
  match t with
  | ty :: TOp OStar :: TId n :: t => let? s := type_name ty in Some ((s, true, n, None), t)
  | ty :: TId n :: TOp OLbrk :: TNum z :: TOp ORbrk :: t => let? s := type_name ty in Some ((s, false, n, Some z), t)
  | ty :: TId n :: t => let? s := type_name ty in Some ((s, false, n, None), t)
  | _ => None
  end.
(** Whether a statement is a declaration; a name followed by a star is an expression
    unless it is known to be a type. *)
Definition declares (t : list tok) : bool :=
  match t with TType _ :: _ => true | TId _ :: TId _ :: _ => true | _ => false end.

Fixpoint p_members (k : nat) (t : list tok) : option (list cdecl * list tok) :=
  match k with
  | O => None
  | S k =>
    match t with
    | TOp ORbrc :: t => Some ([], t)
    | _ => let! (d, t) := p_decl t in let? t := expect OSemi t in let! (l, t) := p_members k t in Some (d :: l, t)
    end
  end.

Fixpoint p_stmt (k : nat) (t : list tok) : option (cs * list tok) :=
  match k with
  | O => None
  | S k =>
    match t with
    | TOp OLbrc :: t => let! (l, t) := p_stmts k t in Some (GBlock l, t)
    | TKw KFor :: t =>
      let? t := expect OLpar t in
      let! (a, t) := p_expr k t in let? t := expect OSemi t in
      let! (b, t) := p_expr k t in let? t := expect OSemi t in
      let! (c, t) := p_expr k t in let? t := expect ORpar t in
      let! (s, t) := p_stmt k t in Some (GFor a b c s, t)
    | TKw KWhile :: t =>
      let? t := expect OLpar t in let! (c, t) := p_expr k t in let? t := expect ORpar t in let! (s, t) := p_stmt k t in Some (GWhile c s, t)
    | TKw KIf :: t =>
      let? t := expect OLpar t in let! (c, t) := p_expr k t in let? t := expect ORpar t in let! (s, t) := p_stmt k t in
      match t with TKw KOther :: _ => None | _ => Some (GIf c s, t) end   (* no else *)
    | TKw KSwitch :: t =>
      let? t := expect OLpar t in let! (c, t) := p_expr k t in let? t := expect ORpar t in let! (s, t) := p_stmt k t in Some (GSwitch c s, t)
    | TKw KCase :: t => let! (e, t) := p_level k 4 t in let? t := expect OColon t in Some (GCase e, t)
    | TKw KDefault :: t => let? t := expect OColon t in Some (GDefault, t)
    | TKw KBreak :: t => let? t := expect OSemi t in Some (GBreak, t)
    | TKw KReturn :: t => let! (e, t) := p_expr k t in let? t := expect OSemi t in Some (GReturn e, t)
    | TKw KUnion :: TId tag :: TOp OLbrc :: t =>
      let! (ms, t) := p_members k t in
      match t with TId n :: t => let? t := expect OSemi t in Some (GUnion tag ms n, t) | _ => None end
    | _ =>
      if declares t then
        let! (d, t) := p_decl t in
        match t with
        | TOp OEq :: t => let! (e, t) := p_expr k t in let? t := expect OSemi t in Some (GDecl d (Some e), t)
        | _ => let? t := expect OSemi t in Some (GDecl d None, t)
        end
      else let! (e, t) := p_expr k t in let? t := expect OSemi t in Some (GExpr e, t)
    end
  end
with p_stmts (k : nat) (t : list tok) : option (list cs * list tok) :=
  match k with
  | O => None
  | S k =>
    match t with
    | TOp ORbrc :: t => Some ([], t)
    | _ => let! (s, t) := p_stmt k t in let! (l, t) := p_stmts k t in Some (s :: l, t)
    end
  end.

(** ** Files *)

(** Parameters up to the closing parenthesis. *)
Fixpoint p_params (k : nat) (t : list tok) : option (list (option str * bool * str) * list tok) :=
  match k with
  | O => None
  | S k =>
    let! (d, t) := p_decl t in
    let '(ty, star, n, a) := d in
    match a with
    | Some _ => None
    | None =>
      match t with
      | TOp OComma :: t => let! (l, t) := p_params k t in Some ((Some ty, star, n) :: l, t)
      | TOp ORpar :: t => Some ([(Some ty, star, n)], t)
      | _ => None
      end
    end
  end.
(** The head of a function. *)
Definition p_head (k : nat) (t : list tok) : option (cproto * list tok) :=
  let! (d, t) := p_decl t in
  let '(ty, star, n, a) := d in
  match a with
  | Some _ => None
  | None =>
    let? t := expect OLpar t in
    match t with
    | TKw KVoid :: TOp ORpar :: t => Some (mk_cproto ty star n [], t)
    | _ => let! (ps, t) := p_params k t in Some (mk_cproto ty star n ps, t)
    end
  end.

(** What a file consists of: functions, prototypes, and everything else up to a
    semicolon. *)
Inductive unit_ := UFun (f : cproto) (body : list cs) | UProto (f : cproto) | UOther (t : list tok).

Fixpoint upto_semi (t : list tok) : option (list tok * list tok) :=
  match t with
  | [] => None
  | TOp OSemi :: r => Some ([], r)
  | x :: r => let! (a, r) := upto_semi r in Some (x :: a, r)
  end.

Fixpoint p_file (k : nat) (t : list tok) : option (list unit_) :=
  match k with
  | O => None
  | S k =>
    match t with
    | [] => Some []
    | _ =>
      match p_head k t with
      | Some (f, TOp OLbrc :: t) => let! (b, t) := p_stmts k t in let? l := p_file k t in Some (UFun f b :: l)
      | Some (f, TOp OSemi :: t) => let? l := p_file k t in Some (UProto f :: l)
      | Some _ => None
      | None => let! (u, t) := upto_semi t in let? l := p_file k t in Some (UOther u :: l)
      end
    end
  end.

(** The lines are a C file that consists of these units.  [k] only bounds the number of
    steps of the parser: when it is large enough, the result does not depend on it. *)
Definition is_c (l : list str) (us : list unit_) : Prop :=
  exists t n, words l = Some t /\ forall k, (n <= k)%nat -> p_file k t = Some us.

(** ** What statements stand for *)

Definition is (s : string) (x : str) : bool := str_eqb x (lit s).
Definition same_base (a b : basetype) : bool := str_eqb (base_text a) (base_text b).

Fixpoint as_expr (e : cx) : option cexpr :=
  match e with
  | XId s => if is "val" s then Some EVal else None
  | XDeref e => let? x := as_expr e in Some (EDeref x)
  | XArrow e s => let? x := as_expr e in Some (EArrow x s)
  | XField e s => let? x := as_expr e in Some (EDot x s)
  | XIndex e (XId s) => if is "i" s then let? x := as_expr e in Some (EIdx x) else None
  | _ => None
  end.

Section Buffer.
(** The port data. *)
Variable buf : str.

Definition as_byte (e : cx) : option addr :=
  match e with
  | XDeref (XId s) => if is "p" s then Some AP else None
  | XIndex (XId s) (XNum z) => if str_eqb s buf then Some (AOff z) else None
  | _ => None
  end.
Definition as_addr (e : cx) : option addr :=
  match e with
  | XId s => if is "p" s then Some AP else None
  | XAddr (XIndex (XId s) (XNum z)) => if str_eqb s buf then Some (AOff z) else None
  | _ => None
  end.

Definition as_call (f : str) (args : list cx) : option cstmt :=
  match args with
  | [a; XCast b e; XCast c (XSizeT d)] =>
    if is "packLE" f && same_base b BU32 && same_base c BU8 then let? a := as_addr a in let? e := as_expr e in Some (SPack a e d) else None
  | [x; y; XNum n] =>
    if is "memcpy" f then
      match as_addr x, as_expr y with
      | Some a, Some e => Some (SCopyTo a e n)
      | _, _ => let? e := as_expr x in let? a := as_addr y in Some (SCopyFrom e a n)
      end
    else None
  | _ => None
  end.
Definition as_assign (l : cx) (b : basetype) (r : cx) : option cstmt :=
  match as_byte l with
  | Some a => if same_base b BU8 then let? e := as_expr r in Some (SStore a e) else None
  | None =>
    let? e := as_expr l in
    match r with
    | XCall (XId f) [a; XCast c (XSizeT d)] =>
      if is "unpackLE" f && same_base c BU8 && same_base d b then let? a := as_addr a in Some (SUnpack e b a) else None
    | _ => let? a := as_byte r in Some (SLoad e b a)
    end
  end.
Fixpoint as_stmt (s : cs) : option cstmt :=
  match s with
  | GExpr (XAssign l (XCast b r)) => as_assign l b r
  | GExpr (XAssign (XIndex (XId s) (XNum z)) (XChr c)) =>
    if negb (c =? 0) then None else if is "p" s then Some (SNul AP z) else if str_eqb s buf then Some (SNul (AOff z) 0) else None
  | GExpr (XCall (XId f) args) => as_call f args
  | GExpr (XInc (XId s)) => if is "p" s then Some SInc else None
  | GExpr (XAddTo (XId s) (XSizeT b)) => if is "p" s then Some (SAddT b) else None
  | GExpr (XAddTo (XId s) (XNum n)) => if is "p" s then Some (SAddN n) else None
  | GFor (XAssign (XId i) (XNum z)) (XBin OLess (XId j) (XNum n)) (XInc (XId k)) (GBlock body) =>
    if (z =? 0) && is "i" i && is "i" j && is "i" k then
      let? l := (fix go l := match l with
                             | [] => Some []
                             | x :: r => let? a := as_stmt x in let? b := go r in Some (a :: b)
                             end) body in
      Some (SFor n l)
    else None
  | _ => None
  end.

(** The node data that the functions of the library get. *)
Definition node_data (e : cx) : bool := match e with XAddr (XId s) => is "m_nodeData" s | _ => false end.
Definition as_truth (s : str) : option bool := if is "true" s then Some true else if is "false" s then Some false else None.
Definition as_fstmt (s : cs) : option fstmt :=
  match s with
  | GDecl (ty, true, n, None) None => if is "uint8_t" ty && is "p" n then Some FPtr else None
  | GDecl (ty, false, n, None) None =>
    if is "i" n then
      if is "uint8_t" ty then Some (FLoop L8) else if is "uint16_t" ty then Some (FLoop L16)
      else if is "uint32_t" ty then Some (FLoop L32) else None
    else None
  | GExpr (XAssign (XId s) (XAddr (XIndex (XId b) (XNum o)))) => if is "p" s && str_eqb b buf then Some (FStart o) else None
  | GExpr (XCall (XId f) [d]) =>
    if node_data d then
      if is "apx_nodeData_lockOutPortData" f then Some FLockOut
      else if is "apx_nodeData_lockInPortData" f then Some FLockIn
      else if is "apx_nodeData_unlockInPortData" f then Some FUnlockIn else None
    else None
  | GExpr (XCall (XId f) [d; XNum o; XNum n; XId b]) =>
    if node_data d && is "apx_nodeData_outPortDataWriteNotify" f then let? b := as_truth b in Some (FNotify o n b) else None
  | _ => let? x := as_stmt s in Some (FCode x)
  end.
(** Statements, and [return E_OK] in the end. *)
Fixpoint as_body (l : list cs) : option (list fstmt) :=
  match l with
  | [GReturn (XId s)] => if is "E_OK" s then Some [] else None
  | x :: r => let? a := as_fstmt x in let? b := as_body r in Some (a :: b)
  | [] => None
  end.
(** A function with one parameter [val]. *)
Definition as_fun (u : unit_) : option cfun :=
  match u with
  | UFun f body =>
    match cp_star f, cp_params f with
    | false, [(t, p, v)] =>
      if is "Std_ReturnType" (cp_ret f) && is "val" v then let? b := as_body body in Some (mk_cfun (cp_name f) t p b) else None
    | _, _ => None
    end
  | _ => None
  end.
End Buffer.

(** The function of that name in a file: there is only one. *)
Definition function (us : list unit_) (name : str) : option unit_ :=
  match filter (fun u => match u with UFun f _ => str_eqb (cp_name f) name | _ => false end) us with [u] => Some u | _ => None end.

(** Calling the function of that name, which works on the port data [buf]. *)
Definition call_text (us : list unit_) (buf name : str) (data : bytes) (arg : cval) : option mem :=
  let? u := function us name in let? f := as_fun buf u in call f data arg.
