(** The old definition writer: model of /repo/apx/apx_writer.py.  No other module imports
    it, and it uses two names of its module that are never set, [math] and [typeData]:
    they are parameters here. *)
From Verif Require Import Py TypesModel TextModel.

(** A data type as the writer takes it, a dictionary: 'type' with the entries that belong
    to it, 'name' and, for semantics, 'valueTable'.  Simplification: entries have the
    Python types the code expects, and only integers have 'min' and 'max'. *)
Inductive wkind :=
| WBool | WInt (lo hi : Z) | WArray (typeRef : str) (length : Z) | WString (length : Z)
| WRecord (elements : list (str * str))   (* name and typeRef *)
| WOther.
Record wdict := mk_wdict {
  wt_name : str;
  wt_kind : option wkind;                 (* None: no 'type' *)
  wt_table : option (list str)            (* 'valueTable' *)
}.

(** The globals: is [math] there, and [typeData.find] if [typeData] is there. *)
Record wenv := mk_wenv { we_math : bool; we_types : option (str -> option wdict) }.
Definition shipped : wenv := mk_wenv false None.
Definition find (E : wenv) (ref : str) : res (option wdict) :=
  match we_types E with Some f => Ok (f ref) | None => Err NameError end.

(** apx_writer.py 1-11 [ApxSignature.__str__] *)
Definition signature_str (mainType : str) (name : str) (dsg : option str) (attr : option str) : str :=
  mainType ++ [QUOTE] ++ name ++ [QUOTE] ++ match dsg with Some s => s | None => lit "None" end
  ++ match attr with Some (c :: r) => [58] ++ c :: r | _ => [] end.

(** apx_writer.py 14-19 [_calcUIntTypeLen].  Simplification: the logarithm is exact. *)
Definition uint_len (E : wenv) (lo hi : Z) : res (option Z) :=
  if lo =? 0 then
    if negb (we_math E) then Err NameError
    else if hi <=? 0 then Err ValueError else Ok (Some (Z.log2_up hi))
  else Ok None.
(** apx_writer.py 21-26 [_calcIntTypeLen], for [lo < 0]. *)
Definition int_len (E : wenv) (hi : Z) : res Z :=
  if negb (we_math E) then Err NameError
  else if hi =? 0 then Err ValueError else Ok (Z.log2_up (Z.abs hi) + 1).

(** apx_writer.py 62-92 [_getIntegerTypeCode]; None: no branch returns.  [None <= 8] is a
    TypeError, as is [None\['min'\]]. *)
Definition range_code (E : wenv) (lo hi : Z) : res (option str) :=
  let limits := lit "(" ++ dec_str lo ++ lit "," ++ dec_str hi ++ lit ")" in
  if 0 <=? lo then
    do bits <- uint_len E lo hi;
    match bits with
    | None => Err TypeError
    | Some bits =>
      if bits <=? 8 then
        if (0 <? lo) || (hi <? 255) then Ok (Some (lit "C" ++ limits)) else Ok (Some (lit "C"))
      else if bits <=? 16 then Ok (Some (lit "S"))
      else if bits <=? 32 then Ok (Some (lit "L"))
      else if bits <=? 64 then Ok (Some (lit "U"))
      else Ok None
    end
  else
    do bits <- int_len E hi;
    if bits <=? 8 then
      if (-128 <? lo) || (hi <? 127) then Ok (Some (lit "c" ++ limits)) else Ok (Some (lit "c"))
    else if bits <=? 16 then Ok (Some (lit "s"))
    else if bits <=? 32 then Ok (Some (lit "l"))
    else if bits <=? 64 then Ok (Some (lit "u"))
    else Ok None.
Definition integer_code (E : wenv) (d : option wdict) : res (option str) :=
  match d with
  | None => Err TypeError
  | Some d =>
    match wt_kind d with
    | Some (WInt lo hi) => range_code E lo hi
    | _ => Err KeyError
    end
  end.

(** apx_writer.py 28-60 [_calcDataSignature]; [fuel] is the recursion limit. *)
Fixpoint data_signature (fuel : nat) (E : wenv) (d : wdict) : res (option str) :=
  match fuel with
  | O => Err RecursionError
  | S k =>
    match wt_kind d with
    | None => Err KeyError
    | Some WBool => Ok (Some (lit "C(0,1)"))
    | Some (WInt lo hi) => range_code E lo hi
    | Some (WArray ref n) =>
      do t <- find E ref;
      do c <- integer_code E t;
      match c with
      | Some c => Ok (Some (c ++ lit "[" ++ dec_str n ++ lit "]"))
      | None => Err PlainException
      end
    | Some (WString n) => Ok (Some (lit "a[" ++ dec_str (n + 1) ++ lit "]"))
    | Some (WRecord elements) =>
      do body <- (fix go l :=
        match l with
        | [] => Ok []
        | (name, ref) :: r =>
          do t <- find E ref;
          match t with
          | None => Err TypeError
          | Some t =>
            do sig <- data_signature k E t;
            do b <- go r;
            Ok ([QUOTE] ++ name ++ [QUOTE] ++ match sig with Some s => s | None => lit "None" end ++ b)
          end
        end) elements;
      Ok (Some (lit "{" ++ body ++ lit "}"))
    | Some WOther => Err PlainException
    end
  end.

(** apx_writer.py 94-101 [_calcAttribute] *)
Definition type_attribute (E : wenv) (d : wdict) : res (option str) :=
  match wt_kind d with
  | None => Err KeyError
  | Some (WInt _ _) =>
    do s <- find E (lit "/DataType/Semantics/" ++ wt_name d);
    match s with
    | Some s =>
      match wt_table s with
      | Some vt => Ok (Some (lit "VT(" ++ join [COMMA] (map (fun x => [QUOTE] ++ x ++ [QUOTE]) vt) ++ lit ")"))
      | None => Ok None
      end
    | None => Ok None
    end
  | Some _ => Ok None
  end.

(** apx_writer.py 103-105 [ApxType.__init__]: str(signature). *)
Definition type_line_str (fuel : nat) (E : wenv) (d : wdict) : res str :=
  do sig <- data_signature fuel E d;
  do attr <- type_attribute E d;
  Ok (signature_str (lit "T") (wt_name d) sig attr).

(** apx_writer.py 108-124 [ApxPort.getAttrStr]: 'initValue' as its text. *)
Definition attr_str (initValue : option str) (isQueued : bool) (queueLen : option Z) (isParameter : bool) : str :=
  match initValue with Some t => lit "=" ++ t | None => [] end
  ++ (if isQueued then match queueLen with Some n => lit "Q[" ++ dec_str n ++ lit "]" | None => lit "Q" end else [])
  ++ (if isParameter then lit "P" else []).
