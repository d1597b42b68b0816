(** Generated C files that are used together: headers as the preprocessor includes them,
    and the functions of the Com layer as a compiler reads them (see CTextSpec.v). *)
From Verif Require Import Py TypesModel TextModel AttrModel NodeModel VmModel TypesSpec CompilerModel
  NodeDataModel NodeDataSpec GenModel GenSpec GenFilesModel ComModel ComSpec CTextSpec CFileSpec CFitSpec.

(** ** Including a header *)

(** [#ifndef], [#define], [#endif]; other directives do not matter here. *)
Inductive pp_line := PIfndef (s : str) | PDefine (s : str) | PEndif | PPlain (l : str) | PIgnored.
Definition pp_of (l : str) : pp_line :=
  match l with
  | c :: r =>
    if c =? 35 then
      match lex Between r with
      | Some (TId d :: TId x :: _) => if is "ifndef" d then PIfndef x else if is "define" d then PDefine x else PIgnored
      | Some [TId d] => if is "endif" d then PEndif else PIgnored
      | _ => PIgnored
      end
    else PPlain l
  | [] => PPlain l
  end.
Definition defined_in (defs : list str) (x : str) : bool := existsb (str_eqb x) defs.
(** What is left of the lines, and what is defined in the end, when [defs] is defined in
    the beginning.  [depth] conditions are open; if [skip] is not 0, that many conditions
    were opened since one that does not hold. *)
Fixpoint included (defs : list str) (depth skip : nat) (l : list str) : option (list str * list str) :=
  match l with
  | [] => match depth, skip with O, O => Some (defs, []) | _, _ => None end
  | x :: r =>
    match pp_of x with
    | PIfndef g =>
      match skip with
      | O => if defined_in defs g then included defs depth 1 r else included defs (S depth) 0 r
      | S _ => included defs depth (S skip) r
      end
    | PEndif =>
      match skip, depth with
      | S k, _ => included defs depth k r
      | O, S d => included defs d 0 r
      | O, O => None
      end
    | PDefine g => match skip with O => included (g :: defs) depth skip r | S _ => included defs depth skip r end
    | PPlain x => let? p := included defs depth skip r in Some (fst p, match skip with O => x :: snd p | S _ => snd p end)
    | PIgnored => included defs depth skip r
    end
  end.

(** The heads of the functions of a file. *)
Definition heads (us : list unit_) : list cproto := flat_map (fun u => match u with UFun f _ => [f] | _ => [] end) us.

(** The functions of a node whose names begin like this; they work on these data. *)
Definition begins (p : string) (s : str) : bool := str_eqb (firstn (length (lit p)) s) (lit p).
Definition functions_on (prefix buf : string) (us : list unit_) : list cfun :=
  collect (fun u => match u with UFun f _ => if begins prefix (cp_name f) then as_fun (lit buf) u else None | _ => None end) us.
Definition write_functions (us : list unit_) : list cfun := functions_on "ApxNode_Write_" "m_outPortdata" us.
Definition read_functions (us : list unit_) : list cfun := functions_on "ApxNode_Read_" "m_inPortdata" us.

(** ** The Com layer *)

Definition as_cond (e : cx) : option comcond :=
  match e with
  | XBin ONeq (XId a) (XId b) => Some (CDiffer a b)
  | XBin ONeq (XCall (XId f) [XId a; XAddr (XId b); XSize (XId c)]) (XNum z) =>
    if is "memcmp" f && str_eqb b c && (z =? 0) then Some (CDifferMem a b) else None
  | _ => None
  end.
Fixpoint as_com (s : cs) : option comstmt :=
  match s with
  | GIf c (GBlock body) =>
    let? c := as_cond c in
    let? l := (fix go l := match l with
                           | [] => Some []
                           | x :: r => let? a := as_com x in let? b := go r in Some (a :: b)
                           end) body in
    Some (CIf c l)
  | GExpr (XAssign (XId a) (XId b)) => Some (CAssign a b)
  | GExpr (XCall (XId f) [XAddr (XId a); XId b; XSize (XId c)]) => if is "memcpy" f && str_eqb a c then Some (CCopy a b) else None
  | GExpr (XCall (XId f) [XId x]) => Some (CCall f false x)
  | GExpr (XCall (XId f) [XAddr (XId x)]) => Some (CCall f true x)
  | GReturn (XId s) => if is "E_OK" s then Some CReturn else None
  | _ => None
  end.
Fixpoint as_coms (l : list cs) : option (list comstmt) :=
  match l with [] => Some [] | x :: r => let? a := as_com x in let? b := as_coms r in Some (a :: b) end.
(** The functions of a file of the Com layer. *)
Fixpoint com_functions (us : list unit_) : option (list (cproto * list comstmt)) :=
  match us with
  | [] => Some []
  | UFun f body :: r => let? b := as_coms body in let? l := com_functions r in Some ((f, b) :: l)
  | _ :: r => com_functions r
  end.
(** static TYPE NAME = INIT; *)
Definition static_of (u : unit_) : option (str * str * list tok) :=
  match u with
  | UOther (TKw KStatic :: t :: TId n :: TOp OEq :: init) => let? s := type_name t in Some (s, n, init)
  | _ => None
  end.

(** Names that can be used: the name of a type, which may be one of C. *)
Definition type_word (s : str) : Prop := c_ident s \/ s = lit "void" \/ exists b, s = base_text b.
Definition proto_fits (f : cproto) : Prop :=
  type_word (cp_ret f) /\ c_ident (cp_name f) /\
  Forall (fun p => type_word (opt_text (fst (fst p))) /\ c_ident (snd p)) (cp_params f).
(** The type of a parameter is a text. *)
Definition as_read (f : cproto) : cproto :=
  mk_cproto (cp_ret f) (cp_star f) (cp_name f) (map (fun p => (Some (opt_text (fst (fst p))), snd (fst p), snd p)) (cp_params f)).
(** A function of the Com layer. *)
Definition com_fits (f : comfunc) : Prop :=
  proto_fits (cm_proto f) /\ forallb name_char (cm_port f) = true /\ forallb name_char (cm_elem f) = true /\
  c_ident (cm_type f) /\ forall t, cm_init f = Ok t -> exists init, lex Between (t ++ lit ";") = Some (init ++ [TOp OSemi]) /\ ~ In (TOp OSemi) init.
