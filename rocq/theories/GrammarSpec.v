(** The language of data signatures as a grammar. *)
From Verif Require Import Py TypesModel SigSpec.

Definition spaces (s : str) : Prop := Forall (fun c => 9 <= c <= 13 \/ c = 32) s.
(** white space for regular expressions (\s) *)
Definition whites (s : str) : Prop :=
  Forall (fun c => 9 <= c <= 13 \/ 28 <= c <= 32 \/ c = 0x85 \/ c = 0xA0 \/ c = 0x1680 \/ 0x2000 <= c <= 0x200A \/
                   c = 0x2028 \/ c = 0x2029 \/ c = 0x202F \/ c = 0x205F \/ c = 0x3000) s.

(** Numbers: digits, in groups separated by underscores, a sign, blanks around. *)
Definition digits (s : str) : Prop := s <> [] /\ Forall (fun c => 48 <= c <= 57) s.
Fixpoint decimal (s : str) : Z := match s with [] => 0 | c :: r => (c - 48) * 10 ^ len r + decimal r end.
Inductive grouped : str -> str -> Prop :=
| gr_last d : digits d -> grouped d d
| gr_more d s ds : digits d -> grouped s ds -> grouped (d ++ lit "_" ++ s) (d ++ ds).
Definition numeral (s : str) (z : Z) : Prop :=
  exists w1 sg body w2 ds, s = w1 ++ sg ++ body ++ w2 /\ spaces w1 /\ spaces w2 /\ grouped body ds /\
    ((sg = lit "-" /\ z = - decimal ds) \/ ((sg = [] \/ sg = lit "+") /\ z = decimal ds)).

Inductive balanced (l r : Z) : str -> Prop :=
| bl_nil : balanced l r []
| bl_char c s : c <> l -> c <> r -> balanced l r s -> balanced l r (c :: s)
| bl_pair a b : balanced l r a -> balanced l r b -> balanced l r (l :: a ++ r :: b).

(** [low, high]; whatever follows a second comma is ignored. *)
Definition limits (s : str) (lo hi : Z) : Prop :=
  exists x s1 s2 y s3 tail, s = x ++ s1 ++ lit "," ++ s2 ++ y ++ s3 ++ tail /\
    whites s1 /\ whites s2 /\ whites s3 /\ numeral x lo /\ numeral y hi /\
    ((tail = [] /\ s3 = []) \/ exists t, tail = lit "," ++ t).

Definition limits_part (s : str) (lo hi : option Z) : Prop :=
  (s = [] /\ lo = None /\ hi = None) \/
  exists data a b, s = lit "(" ++ data ++ lit ")" /\ balanced 40 41 data /\ limits data a b /\ lo = Some a /\ hi = Some b.
Definition length_part (s : str) (n : option Z) : Prop :=
  (s = [] /\ n = None) \/ exists data k, s = lit "[" ++ data ++ lit "]" /\ numeral data k /\ 0 <= k /\ n = Some k.

Definition letters : list (tcode * Z) :=
  combine [CU8; CU16; CU32; CU64; CS8; CS16; CS32; CS64; CSTR] (lit "CSLUcslua").

Definition name_part (s : str) (n : option str) : Prop :=
  (s = [] /\ n = None) \/ exists x, s = lit """" ++ x ++ lit """" /\ quoteless x /\ n = Some x.

Definition renamed (n : option str) (e : delem) : delem :=
  match e with
  | DPrim _ c lo hi a => DPrim n c lo hi a
  | DRec _ es => DRec n es
  | DRef _ r => DRef n r
  end.

Inductive signature : str -> delem -> Prop :=
| sg_prim code c l a lo hi n : In (code, c) letters -> limits_part l lo hi -> length_part a n ->
    signature ([c] ++ l ++ a) (DPrim None code lo hi n)
| sg_name x : quoteless x -> balanced 91 93 x ->
    signature (lit "T[""" ++ x ++ lit """]") (DRef None (RName x))
| sg_index x i : numeral x i -> signature (lit "T[" ++ x ++ lit "]") (DRef None (RInt i))
| sg_record ms es : members ms es -> signature (lit "{" ++ ms) (DRec None es)
(** a name before the closing brace is ignored *)
with members : str -> list delem -> Prop :=
| mb_end q n : name_part q n -> members (q ++ lit "}") []
| mb_cons q n s e ms es : name_part q n -> signature s e -> members ms es ->
    members (q ++ s ++ ms) (renamed n e :: es).
