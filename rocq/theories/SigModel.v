(** Data signatures as text: model of the parser and printer in /repo/apx/base.py.

    Types are parsed without a type list (all callers in the package do), so
    references stay indices or names. *)
From Verif Require Import Py TypesModel TextModel.

(** base.py 117-122 [_typeCodeToStr] and 368-371 [typeCodesChar]. *)
Definition code_char (c : tcode) : Z :=
  match c with
  | CU8 => 67 | CU16 => 83 | CU32 => 76 | CU64 => 85
  | CS8 => 99 | CS16 => 115 | CS32 => 108 | CS64 => 117
  | CSTR => 97
  end.
Definition char_code (c : Z) : option tcode :=
  if c =? 67 then Some CU8 else if c =? 83 then Some CU16 else if c =? 76 then Some CU32
  else if c =? 85 then Some CU64 else if c =? 99 then Some CS8 else if c =? 115 then Some CS16
  else if c =? 108 then Some CS32 else if c =? 117 then Some CS64 else if c =? 97 then Some CSTR
  else None.

(** base.py 337-344 [_parseExtendedTypeCode] *)
Definition parseExtendedTypeCode (text : str) : res (Z * Z) :=
  match re_split_comma text with
  | a :: b :: _ => do lo <- py_int a; do hi <- py_int b; Ok (lo, hi)
  | _ => Err PlainException
  end.

(** base.py 463-470: the [arrayLen] setter refuses negative lengths. *)
Definition check_arrayLen (a : option Z) : res (option Z) :=
  match a with
  | Some n => if n <? 0 then Err ValueError else Ok a
  | None => Ok None
  end.

(** base.py 367-393, the branch for plain type codes. *)
Definition parse_prim (c : tcode) (remain : str) : res (delem * str) :=
  do '(lo, hi, remain) <-
    match remain with
    | 40 :: _ =>
      match match_pair remain 40 41 with
      | (None, _) => Err ParseError
      | (Some data, rest) => do '(lo, hi) <- parseExtendedTypeCode data; Ok (Some lo, Some hi, rest)
      end
    | _ => Ok (None, None, remain)
    end;
  do '(alen, remain) <-
    match remain with
    | 91 :: _ =>
      match match_pair remain 91 93 with
      | (None, _) => Err ParseError
      | (Some value, rest) => do n <- py_int value; Ok (Some n, rest)
      end
    | _ => Ok (None, remain)
    end;
  do alen <- check_arrayLen alen;
  Ok (DPrim None c lo hi alen, remain).

(** base.py 354-366, the branch for references. *)
Definition parse_ref (remain : str) : res (delem * str) :=
  match match_pair remain 91 93 with
  | (None, _) => Err ParseError
  | (Some data, rest) =>
    match parse_str data with
    | (Some name, []) => Ok (DRef None (RName name), rest)
    | (Some _, _ :: _) => Err AssertionError
    | (None, _) => do i <- py_int data; Ok (DRef None (RInt i), rest)
    end
  end.

(** [childElement.name = name] *)
Definition set_name (n : option str) (e : delem) : delem :=
  match e with
  | DPrim _ c lo hi a => DPrim n c lo hi a
  | DRec _ es => DRec n es
  | DRef _ r => DRef n r
  end.

(** base.py 347-393 [parseDataSignature] and 319-335 [_parseRecordSignature].  A
    result without element is [(None, remain)] with the text unchanged.  Each
    turn of the record loop and each call consumes a character, so [fuel] = the
    length of the text + 1 is always enough; Python's recursion limit for deeply
    nested records is not modelled. *)
Fixpoint parse_sig (fuel : nat) (s : str) : res (option delem * str) :=
  match fuel with
  | O => Err RecursionError
  | S k =>
    match s with
    | [] => Err IndexError
    | c :: remain =>
      if c =? 123 then
        do '(es, rest) <- parse_members k remain; Ok (Some (DRec None es), rest)
      else if c =? 84 then
        do '(e, rest) <- parse_ref remain; Ok (Some e, rest)
      else match char_code c with
           | None => Ok (None, s)
           | Some code => do '(e, rest) <- parse_prim code remain; Ok (Some e, rest)
           end
    end
  end
with parse_members (fuel : nat) (remain : str) : res (list delem * str) :=
  match fuel with
  | O => Err RecursionError
  | S k =>
    match remain with
    | [] => Err ParseError
    | _ :: _ =>
      let '(name, remain) := parse_str remain in
      match remain with
      | [] => Err ParseError
      | _ :: _ =>
        do '(child, remain) <- parse_sig k remain;
        match child with
        | None =>
          match remain with
          | 125 :: rest => Ok ([], rest)
          | _ :: _ => Err ParseError
          | [] => Err IndexError
          end
        | Some e =>
          do '(es, rest) <- parse_members k remain; Ok (set_name name e :: es, rest)
        end
      end
    end
  end.

(** base.py 228-239 [DataSignature.__init__] for a text. *)
Definition parse_signature (s : str) : res delem :=
  do '(e, remain) <- parse_sig (2 * length s + 2) s;
  match remain with
  | _ :: _ => Err ParseError
  | [] => match e with Some e => Ok e | None => Err AssertionError end
  end.

(** base.py 499-524 [DataElement.to_string]. *)
Fixpoint elem_string (normalized : bool) (H : theap) (e : delem) : res str :=
  match e with
  | DPrim _ c lo hi a =>
    Ok ([code_char c]
        ++ match lo, hi with
           | Some l, Some h => [40] ++ dec_str l ++ [COMMA] ++ dec_str h ++ [41]
           | _, _ => []
           end
        ++ match a with Some n => [91] ++ dec_str n ++ [93] | None => [] end)
  | DRec _ es =>
    do body <- (fix go l := match l with
                            | [] => Ok []
                            | x :: r => do t <- elem_string normalized H x; do b <- go r;
                                        Ok ([QUOTE] ++ opt_text (de_name x) ++ [QUOTE] ++ t ++ b)
                            end) es;
    Ok ([123] ++ body ++ [125])
  | DRef _ (RObj o) =>
    match (if normalized then None else dt_id (H o)) with
    | Some i => Ok (lit "T[" ++ dec_str i ++ lit "]")
    | None => Ok (lit "T[""" ++ opt_text (dt_name (H o)) ++ lit """]")
    end
  | DRef _ (RName s) => Ok (lit "T[""" ++ s ++ lit """]")
  | DRef _ (RInt _) => Err RuntimeError
  end.
