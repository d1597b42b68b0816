(** What APX data types mean, stated without the compiler and the machine:
    types as trees, the bytes of a value, the value of some bytes. *)
From Verif Require Import Py TypesModel VmModel.

Inductive kind := U8 | U16 | U32 | U64 | S8 | S16 | S32 | S64.

Inductive ty :=
| TInt (k : kind)
| TArr (k : kind) (n : Z)
| TChr                          (* a single character without array length *)
| TStr (n : Z)
| TRec (members : list (str * ty)).

Definition width (k : kind) : nat :=
  match k with U8 | S8 => 1 | U16 | S16 => 2 | U32 | S32 => 4 | U64 | S64 => 8 end%nat.
Definition signed (k : kind) : bool :=
  match k with U8 | U16 | U32 | U64 => false | _ => true end.

(** Size of a type in bytes: no gaps. *)
Fixpoint tlen (t : ty) : Z :=
  match t with
  | TInt k => Z.of_nat (width k)
  | TArr k n => Z.of_nat (width k) * n
  | TChr => 1
  | TStr n => n
  | TRec ms => (fix go l := match l with [] => 0 | (_, t) :: r => tlen t + go r end) ms
  end.

(** The range of the integers of a kind. *)
Definition kmin (k : kind) : Z := if signed k then - 2 ^ (8 * Z.of_nat (width k) - 1) else 0.
Definition kmax (k : kind) : Z :=
  if signed k then 2 ^ (8 * Z.of_nat (width k) - 1) - 1 else 2 ^ (8 * Z.of_nat (width k)) - 1.
Definition in_range (k : kind) (z : Z) : bool := (kmin k <=? z) && (z <=? kmax k).

(** Little endian, two's complement. *)
Fixpoint num_le (n : nat) (z : Z) : bytes :=
  match n with O => [] | S m => z mod 256 :: num_le m (z / 256) end.
Fixpoint num_val (b : bytes) : Z :=
  match b with [] => 0 | x :: r => x + 256 * num_val r end.
Definition int_val (k : kind) (b : bytes) : Z :=
  let u := num_val b in
  if signed k && (2 ^ (8 * Z.of_nat (width k) - 1) <=? u)
  then u - 2 ^ (8 * Z.of_nat (width k)) else u.

Definition enc_int (k : kind) (v : pyval) : option bytes :=
  match v with
  | VInt z => if in_range k z then Some (num_le (width k) z) else None
  | _ => None
  end.

Fixpoint enc_ints (k : kind) (n : nat) (l : list pyval) : option bytes :=
  match n, l with
  | O, _ => Some []
  | S m, v :: r =>
    match enc_int k v, enc_ints k m r with Some a, Some b => Some (a ++ b) | _, _ => None end
  | S _, [] => None
  end.

(** Exactly [n] bytes: cut off or filled up with zeros. *)
Definition fit (n : Z) (b : bytes) : bytes :=
  firstn (Z.to_nat n) (b ++ repeat 0 (Z.to_nat n)).

(** The bytes of value [v] as type [t]; None if [v] is no value of the type.
    Lists may be longer than the array, dictionaries may have further keys. *)
Fixpoint enc (t : ty) (v : pyval) : option bytes :=
  match t with
  | TInt k => enc_int k v
  | TArr k n => match v with VList l => enc_ints k (Z.to_nat n) l | _ => None end
  | TChr => None
  | TStr n =>
    match v with
    | VStr s => match utf8_encode s with Ok b => Some (fit n b) | Err _ => None end
    | _ => None
    end
  | TRec ms =>
    match v with
    | VDict d =>
      (fix go l := match l with
                   | [] => Some []
                   | (nm, t) :: r =>
                     match dget nm d with
                     | None => None
                     | Some x => match enc t x, go r with
                                 | Some a, Some b => Some (a ++ b)
                                 | _, _ => None
                                 end
                     end
                   end) ms
    | _ => None
    end
  end.

(** The value of [tlen t] bytes; None if a string is not UTF-8. *)
Fixpoint dec_ints (k : kind) (n : nat) (b : bytes) : list pyval :=
  match n with
  | O => []
  | S m => VInt (int_val k (firstn (width k) b)) :: dec_ints k m (skipn (width k) b)
  end.

Fixpoint before_nul (b : bytes) : bytes :=
  match b with [] => [] | x :: r => if x =? 0 then [] else x :: before_nul r end.

Fixpoint dec (t : ty) (b : bytes) : option pyval :=
  match t with
  | TInt k => Some (VInt (int_val k b))
  | TArr k n => Some (VList (dec_ints k (Z.to_nat n) b))
  | TChr => None
  | TStr _ => match utf8_decode (before_nul b) with Ok s => Some (VStr s) | Err _ => None end
  | TRec ms =>
    match (fix go l b := match l with
                 | [] => Some []
                 | (nm, t) :: r =>
                   match dec t (firstn (Z.to_nat (tlen t)) b),
                         go r (skipn (Z.to_nat (tlen t)) b) with
                   | Some x, Some d => Some ((nm, x) :: d)
                   | _, _ => None
                   end
                 end) ms b with
    | Some d => Some (VDict d)
    | None => None
    end
  end.

(** [v] is the value that unpacking a packed [v] should give: lists of exactly
    the declared length, dictionaries with exactly the declared members in
    declaration order, strings that fit and have no NUL. *)
Fixpoint exact (t : ty) (v : pyval) : Prop :=
  match t, v with
  | TInt k, VInt z => kmin k <= z <= kmax k
  | TArr k n, VList l => len l = n /\ Forall (fun v => exists z, v = VInt z /\ kmin k <= z <= kmax k) l
  | TStr n, VStr s => ~ In 0 s /\ exists b, utf8_encode s = Ok b /\ len b <= n
  | TRec ms, VDict d =>
    (fix go l d := match l, d with
                   | [], [] => True
                   | (nm, t) :: r, (nm', x) :: d' => nm = nm' /\ exact t x /\ go r d'
                   | _, _ => False
                   end) ms d
  | _, _ => False
  end.

(** Member names that fit the byte code: ASCII, no NUL. *)
Definition name_ok (s : str) : Prop := Forall (fun c => 0 < c < 128) s.

(** Types whose byte code is faithful: array lengths 1..65535, string lengths
    0..65535, plain member names, no empty record, no 64 bit integers. *)
Definition small (k : kind) : Prop := match k with U64 | S64 => False | _ => True end.

Fixpoint wf_ty (t : ty) : Prop :=
  match t with
  | TInt k => small k
  | TArr k n => small k /\ 1 <= n < 65536
  | TChr => False
  | TStr n => 0 <= n < 65536
  | TRec ms =>
    ms <> [] /\
    (fix go l := match l with [] => True | (nm, t) :: r => name_ok nm /\ wf_ty t /\ go r end) ms
  end.

Definition is_rec (t : ty) : bool := match t with TRec _ => true | _ => false end.

(** Records inside records. *)
Definition flat (t : ty) : Prop :=
  match t with
  | TRec ms => Forall (fun m => is_rec (snd m) = false) ms /\ NoDup (map fst ms)
  | _ => True
  end.
Definition nested (t : ty) : Prop :=
  match t with TRec ms => Exists (fun m => is_rec (snd m) = true) ms | _ => False end.

(** Every array member is at most as long as its record value has entries (the
    machine refuses it otherwise). *)
Fixpoint roomy (t : ty) (v : pyval) : Prop :=
  match t, v with
  | TRec ms, VDict d =>
    (fix go l := match l with
                 | [] => True
                 | (nm, t) :: r =>
                   match t with
                   | TArr _ n => n <= len d
                   | _ => match dget nm d with Some x => roomy t x | None => True end
                   end /\ go r
                 end) ms
  | _, _ => True
  end.

(** [denotes H n e t]: the element [e] means the type [t]; [n] bounds the depth
    of nested records and references (the relation has no derivation for
    circular references). *)
Definition kind_of (c : tcode) : option kind :=
  match c with
  | CU8 => Some U8 | CU16 => Some U16 | CU32 => Some U32 | CU64 => Some U64
  | CS8 => Some S8 | CS16 => Some S16 | CS32 => Some S32 | CS64 => Some S64
  | CSTR => None
  end.

Inductive denotes (H : theap) : nat -> delem -> ty -> Prop :=
| den_int n nm c lo hi k : kind_of c = Some k ->
    denotes H (S n) (DPrim nm c lo hi None) (TInt k)
| den_arr n nm c lo hi k a : kind_of c = Some k ->
    denotes H (S n) (DPrim nm c lo hi (Some a)) (TArr k a)
| den_chr n nm lo hi : denotes H (S n) (DPrim nm CSTR lo hi None) TChr
| den_str n nm lo hi a : denotes H (S n) (DPrim nm CSTR lo hi (Some a)) (TStr a)
| den_rec n nm es ms : members H n es ms -> denotes H (S n) (DRec nm es) (TRec ms)
| den_ref n nm o t : denotes H n (dt_elem (H o)) t -> denotes H (S n) (DRef nm (RObj o)) t
with members (H : theap) : nat -> list delem -> list (str * ty) -> Prop :=
| mem_nil n : members H n [] []
| mem_cons n e es nm t ms : de_name e = Some nm -> denotes H n e t -> members H n es ms ->
    members H n (e :: es) ((nm, t) :: ms).

(** [accepts H n e t]: as [denotes], but only what the compiler supports: no 64
    bit integers, no single characters, member names of characters up to 255,
    and references only to plain numbers and records. *)
Definition target (e : delem) : Prop :=
  match e with DPrim _ _ _ _ None => True | DRec _ _ => True | _ => False end.

Inductive accepts (H : theap) : nat -> delem -> ty -> Prop :=
| acc_int n nm c lo hi k : kind_of c = Some k -> small k ->
    accepts H (S n) (DPrim nm c lo hi None) (TInt k)
| acc_arr n nm c lo hi k a : kind_of c = Some k -> small k ->
    accepts H (S n) (DPrim nm c lo hi (Some a)) (TArr k a)
| acc_str n nm lo hi a : accepts H (S n) (DPrim nm CSTR lo hi (Some a)) (TStr a)
| acc_rec n nm es ms : acc_members H n es ms -> accepts H (S n) (DRec nm es) (TRec ms)
| acc_ref n nm o t : target (dt_elem (H o)) -> accepts H n (dt_elem (H o)) t ->
    accepts H n (DRef nm (RObj o)) t
with acc_members (H : theap) : nat -> list delem -> list (str * ty) -> Prop :=
| accm_nil n : acc_members H n [] []
| accm_cons n e es nm t ms : de_name e = Some nm -> bytes_ok nm -> accepts H n e t ->
    acc_members H n es ms -> acc_members H n (e :: es) ((nm, t) :: ms).
