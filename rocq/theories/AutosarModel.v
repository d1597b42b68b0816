(** Import of AUTOSAR types and constants: model of the text making functions in
    /repo/apx/base.py and /repo/apx/node.py.

    The objects of the autosar package are given as trees; looking up references
    in the workspace (ws.find) is not modelled: a reference is the thing it names,
    or [AMissing]. *)
From Verif Require Import Py TypesModel TextModel SigModel AttrModel NodeModel.

(** ** Constants *)

Inductive aconst :=
| KInt (z : Z) | KStr (s : str) | KRec (l : list aconst) | KArr (l : list aconst)
| KOther. (* any other class *)

(** ['%02X' % n] for n >= 0: upper case digits, at least two. *)
Definition hex_char (d : Z) : Z := if d <? 10 then 48 + d else 55 + d.
Fixpoint hex_loop (fuel : nat) (n : Z) (acc : str) : str :=
  match fuel with
  | O => acc
  | S k => if n <? 16 then hex_char n :: acc else hex_loop k (n / 16) (hex_char (n mod 16) :: acc)
  end.
Definition hex_str (n : Z) : str :=
  match hex_loop (S (Z.to_nat (Z.log2 n))) n [] with
  | [c] => [48; c]
  | s => s
  end.

(** node.py 81-97 [_deriveInitValueFromAutosarConstant] *)
Fixpoint derive_init (c : aconst) : res str :=
  match c with
  | KInt z => Ok (if 255 <? z then lit "0x" ++ hex_str z else dec_str z)
  | KStr s => Ok ([QUOTE] ++ s ++ [QUOTE])
  | KRec l | KArr l =>
    do ts <- (fix go l := match l with
                          | [] => Ok []
                          | x :: r => do t <- derive_init x; do ts <- go r; Ok (t :: ts)
                          end) l;
    Ok ([123] ++ join [COMMA] ts ++ [125])
  | KOther => Err NotImplementedError
  end.

(** ** Types *)

(** base.py 85-100 [_calcUIntTypeLen], [_calcIntTypeLen].  Simplification: the
    logarithm is exact.  The code divides floating point logarithms; compared with
    8, 16, 32 and 64 the result is the same for arguments up to 2^48, except that
    2^31 needs 32 instead of 31 bits there (and one more with the sign). *)
Definition calcUIntTypeLen (maxVal : Z) : res Z :=
  if maxVal <=? 0 then Err ValueError else Ok (Z.log2_up maxVal).
Definition calcIntTypeLen (maxVal : Z) : res Z :=
  if maxVal =? 0 then Err ValueError else Ok (Z.log2_up (Z.abs maxVal) + 1).

(** base.py 50-82 [_getIntegerTypeCode]; the short signed branch uses an attribute
    that integer types do not have. *)
Definition getIntegerTypeCode (minVal maxVal : Z) : res (option str) :=
  if 0 <=? minVal then
    do bits <- calcUIntTypeLen maxVal;
    if bits <=? 8 then
      if (0 <? minVal) || (maxVal <? 255)
      then Ok (Some (lit "C(" ++ dec_str minVal ++ lit "," ++ dec_str maxVal ++ lit ")"))
      else Ok (Some (lit "C"))
    else if bits <=? 16 then Ok (Some (lit "S"))
    else if bits <=? 32 then Ok (Some (lit "L"))
    else if bits <=? 64 then Ok (Some (lit "U"))
    else Ok None
  else
    do bits <- calcIntTypeLen maxVal;
    if bits <=? 8 then Err AttributeError
    else if bits <=? 16 then Ok (Some (lit "s"))
    else if bits <=? 32 then Ok (Some (lit "l"))
    else if bits <=? 64 then Ok (Some (lit "u"))
    else Ok None.

Inductive adtype :=
| ABool | AInt (minVal maxVal : Z) | AArray | AString (length : Z)
| ARec (elements : list (str * adtype))
| AMissing    (* a reference to nothing *)
| AUnknown.   (* any other class *)

(** 899-900: the name without _RE at its end. *)
Definition strip_RE (s : str) : str :=
  if ends_with (lit "_RE") s then slice s 0 (-3) else s.

(** base.py 879-911 [_calcDataSignature]; arrays use a name that is not defined. *)
Fixpoint calcDataSignature (t : adtype) : res (option str) :=
  match t with
  | ABool => Ok (Some (lit "C(0,1)"))
  | AInt lo hi => getIntegerTypeCode lo hi
  | AArray => Err NameError
  | AString n => Ok (Some (lit "a[" ++ dec_str (n + 1) ++ lit "]"))
  | ARec es =>
    do body <- (fix go l :=
      match l with
      | [] => Ok []
      | (name, child) :: r =>
        do sig <- match child with AMissing => Err ValueError | _ => calcDataSignature child end;
        do b <- go r;
        Ok ([QUOTE] ++ strip_RE name ++ [QUOTE] ++ opt_text sig ++ b)
      end) es;
    Ok (Some ([123] ++ body ++ [125]))
  | AMissing | AUnknown => Err PlainException
  end.

(** base.py 865-877 [_calcAttribute]: elements are (lowerLimit, upperLimit, text). *)
Definition table_values (elements : list (Z * Z * str)) : list str :=
  flat_map (fun '(lo, hi, text) =>
    if lo =? hi then [text]
    else map (fun i => text ++ dec_str i) (map Z.of_nat (seq 1 (Z.to_nat (hi + 1 - lo))))) elements.
Definition value_table_attr (elements : list (Z * Z * str)) : str :=
  lit "VT(" ++ join [COMMA] (map (fun x => [QUOTE] ++ x ++ [QUOTE]) (table_values elements)) ++ lit ")".

(** ** Nodes *)

(** base.py 849-857 [AutosarDataType]: no short name, id set by the caller. *)
Definition autosar_type (name : str) (t : adtype) (semantics : option (list (Z * Z * str)))
    (id : Z) : res dtype :=
  do sig <- calcDataSignature t;
  match sig with
  | None => Err NotImplementedError
  | Some sig =>
    do e <- parse_signature sig;
    Ok (mk_dtype (Some name) e (option_map value_table_attr semantics) (Some id) None)
  end.

(** One port of a component: name, direction, its type and its init constant. *)
Record aport := mk_aport {
  ap_provide : bool;
  ap_name : str;
  ap_tname : str;
  ap_type : adtype;
  ap_semantics : option (list (Z * Z * str));
  ap_init : option aconst
}.

(** node.py 47-66 [_updateDataType] and 115-132 [add_autosar_port], for a port with
    a sender-receiver interface of one element. *)
Definition add_autosar_port (W : world) (nd : node) (p : aport) : res (world * node) :=
  do '(W, nd, o) <-
    match map_find (Some (ap_tname p)) (n_map nd) with
    | Some o => Ok (W, nd, o)
    | None =>
      do d <- autosar_type (ap_tname p) (ap_type p) (ap_semantics p) (len (n_types nd));
      let '(W, o) := new_type W d in
      Ok (W, mk_node (n_name nd) (n_final nd) (n_types nd ++ [o]) (n_require nd) (n_provide nd)
               (n_map nd ++ [(Some (ap_tname p), o)]), o)
    end;
  do attr <- match ap_init p with
             | None => Ok None
             | Some c => do t <- derive_init c; Ok (Some ([61] ++ t))
             end;
  do sig <- match dt_id (w_types W o) with
            | Some i => Ok (lit "T[" ++ dec_str i ++ lit "]")
            | None => Ok (lit "T[None]")
            end;
  do q <- make_port (ap_provide p) (Some (ap_name p)) sig attr;
  let '(W, po) := new_port W q in
  add_port W nd po.

(** node.py 100-113 [import_autosar_swc]: provide ports first. *)
Fixpoint add_autosar_ports (W : world) (nd : node) (l : list aport) : res (world * node) :=
  match l with
  | [] => Ok (W, nd)
  | p :: r => do '(W, nd) <- add_autosar_port W nd p; add_autosar_ports W nd r
  end.
Definition import_swc (W : world) (name : str) (provide require : list aport) : res (world * node) :=
  do '(W, nd) <- add_autosar_ports W (new_node (Some name)) (provide ++ require);
  do W <- resolve_types W nd;
  Ok (W, nd).
