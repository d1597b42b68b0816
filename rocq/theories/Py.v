(** Python basics shared by all models: exceptions as values, bytes and text as
    lists of integers, slices, indexing, [struct] number formats.
    No property theorem lives here. *)
From Coq Require Export ZArith Bool String Ascii.
From Coq Require Export List.
Export ListNotations.
Open Scope Z_scope.

#[global] Arguments Z.add : simpl never.
#[global] Arguments Z.sub : simpl never.
#[global] Arguments Z.mul : simpl never.
#[global] Arguments Z.div : simpl never.
#[global] Arguments Z.modulo : simpl never.
#[global] Arguments Z.pow : simpl never.
#[global] Arguments Z.shiftl : simpl never.
#[global] Arguments Z.shiftr : simpl never.
#[global] Arguments Z.land : simpl never.
#[global] Arguments Z.lor : simpl never.
#[global] Arguments Z.max : simpl never.
#[global] Arguments Z.min : simpl never.
#[global] Arguments Z.of_nat : simpl never.
#[global] Arguments Z.to_nat : simpl never.
#[global] Arguments Z.ltb : simpl never.
#[global] Arguments Z.leb : simpl never.

(** Python exception classes that the modelled code can raise. *)
Inductive exn :=
| ValueError | TypeError | IndexError | KeyError | AttributeError | NameError
| AssertionError | UnboundLocalError | NotImplementedError | RuntimeError
| StructError | UnicodeError | ParseError | UnknownOpCodeError | StopError
| RecursionError | OSError | InvalidInstructionError | ApxTypeError
| ZeroDivisionError | OverflowError
| PlainException.  (* [raise Exception(...)] *)

Inductive res (A : Type) := Ok (a : A) | Err (e : exn).
Arguments Ok {A} a.
Arguments Err {A} e.

Definition bind {A B} (x : res A) (f : A -> res B) : res B :=
  match x with Ok a => f a | Err e => Err e end.

Notation "'do' x <- e ; f" := (bind e (fun x => f))
  (at level 200, x name, e at level 100, f at level 200, right associativity).
Notation "'do' ' p <- e ; f" := (bind e (fun p => f))
  (at level 200, p pattern, e at level 100, f at level 200, right associativity).

Definition is_ok {A} (r : res A) : bool := match r with Ok _ => true | Err _ => false end.

(** [bytes] objects: lists of integers 0..255.  Text: lists of code points. *)
Definition bytes := list Z.
Definition str := list Z.

Definition len {A} (l : list A) : Z := Z.of_nat (length l).

Definition byte_ok (b : Z) : Prop := 0 <= b < 256.
Definition bytes_ok (l : bytes) : Prop := Forall byte_ok l.
Definition byte_okb (b : Z) : bool := (0 <=? b) && (b <? 256).

(** Text literals. *)
Definition ch (a : ascii) : Z := Z.of_N (N_of_ascii a).
Definition lit (s : string) : str := map ch (list_ascii_of_string s).

(** [bytes([a, b, ...])]: ValueError unless every item is in range(0, 256). *)
Definition mk_bytes (l : list Z) : res bytes :=
  if forallb byte_okb l then Ok l else Err ValueError.

(** Python slice bounds: negative indices count from the end, then clamp. *)
Definition slice_bound (n i : Z) : Z :=
  if i <? 0 then Z.max 0 (i + n) else Z.min i n.

(** [l[i:j]] *)
Definition slice {A} (l : list A) (i j : Z) : list A :=
  let n := len l in
  let a := slice_bound n i in
  let b := slice_bound n j in
  firstn (Z.to_nat (b - a)) (skipn (Z.to_nat a) l).

(** [l[i:]] *)
Definition slice_from {A} (l : list A) (i : Z) : list A :=
  skipn (Z.to_nat (slice_bound (len l) i)) l.

(** [l[i:j] = d] on a bytearray (may change the length, as in Python). *)
Definition splice {A} (l : list A) (i j : Z) (d : list A) : list A :=
  let n := len l in
  let a := slice_bound n i in
  let b := Z.max a (slice_bound n j) in
  firstn (Z.to_nat a) l ++ d ++ skipn (Z.to_nat b) l.

(** [l[i]]: negative indices count from the end, IndexError out of range. *)
Definition index {A} (l : list A) (i : Z) : res A :=
  let i' := if i <? 0 then i + len l else i in
  if i' <? 0 then Err IndexError
  else match nth_error l (Z.to_nat i') with
       | Some a => Ok a
       | None => Err IndexError
       end.

(** [bytes(n)] / [bytearray(n)]: n zero bytes, ValueError if n is negative. *)
Definition zeros (n : Z) : bytes := repeat 0 (Z.to_nat n).
Definition mk_zeros (n : Z) : res bytes :=
  if n <? 0 then Err ValueError else Ok (zeros n).

Fixpoint str_eqb (a b : list Z) : bool :=
  match a, b with
  | [], [] => true
  | x :: a', y :: b' => (x =? y) && str_eqb a' b'
  | _, _ => false
  end.

Fixpoint starts_with (p s : list Z) : bool :=
  match p, s with
  | [], _ => true
  | x :: p', y :: s' => (x =? y) && starts_with p' s'
  | _ :: _, [] => false
  end.

(** [s.endswith(p)] *)
Definition ends_with (p s : list Z) : bool := starts_with (rev p) (rev s).

(** Unsigned numbers as bytes, least significant byte first ([n] bytes). *)
Fixpoint le_bytes (n : nat) (v : Z) : bytes :=
  match n with
  | O => []
  | S k => Z.land v 255 :: le_bytes k (Z.shiftr v 8)
  end.

Fixpoint le_value (l : bytes) : Z :=
  match l with
  | [] => 0
  | b :: r => Z.lor b (Z.shiftl (le_value r) 8)
  end.

(** Byte order argument of the protocol functions. *)
Inductive endian := Little | Big.

(** [struct.pack] of one unsigned field of [n] bytes (codes B, H, I):
    struct.error if the value is out of range. *)
Definition pack_uint (e : endian) (n : nat) (v : Z) : res bytes :=
  if (0 <=? v) && (v <? Z.shiftl 1 (8 * Z.of_nat n)) then
    Ok (match e with Little => le_bytes n v | Big => rev (le_bytes n v) end)
  else Err StructError.

Definition unpack_uint (e : endian) (l : bytes) : Z :=
  match e with Little => le_value l | Big => le_value (rev l) end.

(** [struct.pack] of one signed field of [n] bytes (codes b, h, i). *)
Definition pack_sint (e : endian) (n : nat) (v : Z) : res bytes :=
  let h := Z.shiftl 1 (8 * Z.of_nat n - 1) in
  if (- h <=? v) && (v <? h) then
    let u := Z.land v (Z.ones (8 * Z.of_nat n)) in
    Ok (match e with Little => le_bytes n u | Big => rev (le_bytes n u) end)
  else Err StructError.

Definition unpack_sint (e : endian) (l : bytes) : Z :=
  let u := unpack_uint e l in
  let w := 8 * len l in
  if u <? Z.shiftl 1 (w - 1) then u else u - Z.shiftl 1 w.

(** [struct.pack('%ds' % n, b)]: truncated or padded with NUL to [n] bytes. *)
Definition pack_s (n : Z) (b : bytes) : bytes :=
  let k := Z.to_nat n in
  firstn k b ++ repeat 0 (k - length b).

(** [bytes(s, encoding='ascii')] *)
Definition encode_ascii (s : str) : res bytes :=
  if forallb (fun c => (0 <=? c) && (c <? 128)) s then Ok s else Err UnicodeError.

(** [bytes.decode('ascii')] *)
Definition decode_ascii (b : bytes) : res str :=
  if forallb (fun c => c <? 128) b then Ok b else Err UnicodeError.

(** UTF-8 as CPython does it: shortest form only, no surrogates, at most
    U+10FFFF. *)
Definition utf8_enc1 (c : Z) : res bytes :=
  if c <? 0 then Err UnicodeError
  else if c <? 128 then Ok [c]
  else if c <? 2048 then Ok [192 + c / 64; 128 + c mod 64]
  else if c <? 65536 then
    if (55296 <=? c) && (c <? 57344) then Err UnicodeError
    else Ok [224 + c / 4096; 128 + (c / 64) mod 64; 128 + c mod 64]
  else if c <? 1114112 then
    Ok [240 + c / 262144; 128 + (c / 4096) mod 64; 128 + (c / 64) mod 64; 128 + c mod 64]
  else Err UnicodeError.

Fixpoint utf8_encode (s : str) : res bytes :=
  match s with
  | [] => Ok []
  | c :: r => do a <- utf8_enc1 c; do b <- utf8_encode r; Ok (a ++ b)
  end.

Definition is_cont (b : Z) : bool := (128 <=? b) && (b <? 192).

(** [str(b, encoding='utf-8')] / [b.decode('utf-8')] (strict). *)
Fixpoint utf8_decode (b : bytes) : res str :=
  match b with
  | [] => Ok []
  | b1 :: r1 =>
    if b1 <? 128 then do s <- utf8_decode r1; Ok (b1 :: s)
    else if b1 <? 194 then Err UnicodeError
    else if b1 <? 224 then
      match r1 with
      | b2 :: r2 =>
        if is_cont b2 then
          do s <- utf8_decode r2; Ok ((b1 - 192) * 64 + (b2 - 128) :: s)
        else Err UnicodeError
      | _ => Err UnicodeError
      end
    else if b1 <? 240 then
      match r1 with
      | b2 :: b3 :: r3 =>
        let c := (b1 - 224) * 4096 + (b2 - 128) * 64 + (b3 - 128) in
        if is_cont b2 && is_cont b3 && (2048 <=? c)
           && negb ((55296 <=? c) && (c <? 57344)) then
          do s <- utf8_decode r3; Ok (c :: s)
        else Err UnicodeError
      | _ => Err UnicodeError
      end
    else if b1 <? 245 then
      match r1 with
      | b2 :: b3 :: b4 :: r4 =>
        let c := (b1 - 240) * 262144 + (b2 - 128) * 4096 + (b3 - 128) * 64 + (b4 - 128) in
        if is_cont b2 && is_cont b3 && is_cont b4 && (65536 <=? c) && (c <? 1114112) then
          do s <- utf8_decode r4; Ok (c :: s)
        else Err UnicodeError
      | _ => Err UnicodeError
      end
    else Err UnicodeError
  end.
