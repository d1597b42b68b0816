(** What the generated C code should do: a semantics for the C statements that the
    generator uses, and the values and bytes they should produce.

    The semantics is that of C as far as the generated statements need it: every
    access outside the port data or outside the argument is [None] (undefined), a
    loop that never ends is [None], conversions to narrower signed types wrap
    around (as all usual compilers do).  [packLE] and [unpackLE] come with the C
    library: [packLE(p, v, n)] stores the [n] low bytes of [v] at [p], low byte
    first; [unpackLE(p, n)] reads such a number.  [outPortDataWriteNotify] releases
    the lock of the output data.  Objects that [val] refers to are taken to have the
    type that the signature of the port says (named types are declared in headers
    that the generator does not write). *)
From Verif Require Import Py TypesModel TextModel AttrModel NodeModel VmModel TypesSpec CompilerModel
  NodeDataModel NodeDataSpec GenModel.

(** ** C values *)

Inductive cval := CInt (z : Z) | CArr (l : list Z) | CStruct (fields : list (str * cval)).

(** A part of the argument: a member, or the element number [i]. *)
Inductive sel := SelF (name : str) | SelI.

Fixpoint field (s : str) (fs : list (str * cval)) : option cval :=
  match fs with [] => None | (k, x) :: r => if str_eqb k s then Some x else field s r end.
Fixpoint set_field (s : str) (x : cval) (fs : list (str * cval)) : list (str * cval) :=
  match fs with
  | [] => []
  | (k, y) :: r => if str_eqb k s then (k, x) :: r else (k, y) :: set_field s x r
  end.

Fixpoint get (v : cval) (path : list sel) (i : Z) : option cval :=
  match path with
  | [] => Some v
  | SelF s :: r =>
    match v with
    | CStruct fs => match field s fs with Some x => get x r i | None => None end
    | _ => None
    end
  | SelI :: r =>
    match v with
    | CArr l =>
      if 0 <=? i then match nth_error l (Z.to_nat i) with Some z => get (CInt z) r i | None => None end
      else None
    | _ => None
    end
  end.

Fixpoint put (v : cval) (path : list sel) (i : Z) (x : cval) : option cval :=
  match path with
  | [] => Some x
  | SelF s :: r =>
    match v with
    | CStruct fs =>
      match field s fs with
      | Some y => match put y r i x with Some y' => Some (CStruct (set_field s y' fs)) | None => None end
      | None => None
      end
    | _ => None
    end
  | SelI :: r =>
    match v with
    | CArr l =>
      if (0 <=? i) && (i <? len l) then
        match r, x with
        | [], CInt z => Some (CArr (firstn (Z.to_nat i) l ++ z :: skipn (Z.to_nat (i + 1)) l))
        | _, _ => None
        end
      else None
    | _ => None
    end
  end.

(** The object an expression names, and the object a pointer expression points to;
    [ptr]: the parameter val is a pointer. *)
Fixpoint obj (ptr : bool) (e : cexpr) : option (list sel) :=
  match e with
  | EVal => if ptr then None else Some []
  | EDeref EVal => if ptr then Some [] else None
  | EDeref _ => None
  | EArrow EVal s => if ptr then Some [SelF s] else None
  | EArrow _ _ => None
  | EDot e s => match obj ptr e with Some p => Some (p ++ [SelF s]) | None => None end
  | EIdx EVal => if ptr then Some [SelI] else None
  | EIdx e => match obj ptr e with Some p => Some (p ++ [SelI]) | None => None end
  end.
Definition pointee (ptr : bool) (e : cexpr) : option (list sel) :=
  match e with EVal => if ptr then Some [] else None | _ => obj ptr e end.

(** ** Running statements *)

Record mem := mk_mem {
  m_buf : bytes;                  (* the port data *)
  m_p : option Z;                 (* the pointer p, as an offset *)
  m_i : Z;
  m_val : cval;                   (* the argument *)
  m_lock : bool;
  m_bare : Z;                     (* bytes of port data touched without the lock *)
  m_out : list (Z * Z * bool)     (* notifications *)
}.
Definition with_buf (m : mem) (b : bytes) : mem :=
  mk_mem b (m_p m) (m_i m) (m_val m) (m_lock m) (m_bare m) (m_out m).
Definition with_p (m : mem) (p : option Z) : mem :=
  mk_mem (m_buf m) p (m_i m) (m_val m) (m_lock m) (m_bare m) (m_out m).
Definition with_i (m : mem) (i : Z) : mem :=
  mk_mem (m_buf m) (m_p m) i (m_val m) (m_lock m) (m_bare m) (m_out m).
Definition with_val (m : mem) (v : cval) : mem :=
  mk_mem (m_buf m) (m_p m) (m_i m) v (m_lock m) (m_bare m) (m_out m).
Definition with_locked (m : mem) (b : bool) : mem :=
  mk_mem (m_buf m) (m_p m) (m_i m) (m_val m) b (m_bare m) (m_out m).
Definition touch (m : mem) (n : Z) : mem :=
  mk_mem (m_buf m) (m_p m) (m_i m) (m_val m) (m_lock m) (if m_lock m then m_bare m else m_bare m + n) (m_out m).
Definition notified (m : mem) (x : Z * Z * bool) : mem :=
  mk_mem (m_buf m) (m_p m) (m_i m) (m_val m) false (m_bare m) (m_out m ++ [x]).

Definition obind {A B} (x : option A) (f : A -> option B) : option B :=
  match x with Some a => f a | None => None end.
Notation "'let?' x := e 'in' f" := (obind e (fun x => f))
  (at level 200, x name, e at level 100, f at level 200, right associativity).

Definition rd (m : mem) (a n : Z) : option bytes :=
  if (0 <=? a) && (0 <=? n) && (a + n <=? len (m_buf m))
  then Some (firstn (Z.to_nat n) (skipn (Z.to_nat a) (m_buf m))) else None.
Definition wr (m : mem) (a : Z) (d : bytes) : option mem :=
  if (0 <=? a) && (a + len d <=? len (m_buf m))
  then Some (touch (with_buf m (firstn (Z.to_nat a) (m_buf m) ++ d ++ skipn (Z.to_nat (a + len d)) (m_buf m))) (len d))
  else None.
(** Moving p: it may point just behind the port data, no further. *)
Definition move (m : mem) (n : Z) : option mem :=
  let? p := m_p m in
  if (0 <=? p + n) && (p + n <=? len (m_buf m)) then Some (with_p m (Some (p + n))) else None.

Definition address (m : mem) (a : addr) : option Z := match a with AP => m_p m | AOff o => Some o end.
Definition number (ptr : bool) (m : mem) (e : cexpr) : option Z :=
  let? p := obj ptr e in
  match get (m_val m) p (m_i m) with Some (CInt z) => Some z | _ => None end.
Definition assign (ptr : bool) (m : mem) (e : cexpr) (z : Z) : option mem :=
  let? p := obj ptr e in
  match get (m_val m) p (m_i m) with
  | Some (CInt _) => let? v := put (m_val m) p (m_i m) (CInt z) in Some (with_val m v)
  | _ => None
  end.

Definition base_size (b : basetype) : nat :=
  match b with BI8 | BU8 => 1 | BI16 | BU16 => 2 | BI32 | BU32 => 4 end%nat.
Definition base_signed (b : basetype) : bool := match b with BI8 | BI16 | BI32 => true | _ => false end.
(** Conversion to a type. *)
Definition cast (b : basetype) (z : Z) : Z :=
  let w := 8 * Z.of_nat (base_size b) in
  let u := z mod 2 ^ w in
  if base_signed b && (2 ^ (w - 1) <=? u) then u - 2 ^ w else u.

Definition loop_limit (w : looptype) : Z := match w with L8 => 2 ^ 8 | L16 => 2 ^ 16 | L32 => 2 ^ 32 end.

Fixpoint exec (ptr : bool) (lw : option looptype) (s : cstmt) (m : mem) : option mem :=
  match s with
  | SStore a e =>
    let? x := address m a in let? z := number ptr m e in wr m x [z mod 256]
  | SLoad e b a =>
    let? x := address m a in let? d := rd m x 1 in assign ptr (touch m 1) e (cast b (num_val d))
  | SPack a e b =>
    let? x := address m a in let? z := number ptr m e in wr m x (num_le (base_size b) (z mod 2 ^ 32))
  | SUnpack e b a =>
    let? x := address m a in
    let? d := rd m x (Z.of_nat (base_size b)) in
    assign ptr (touch m (Z.of_nat (base_size b))) e (cast b (num_val d))
  | SCopyTo a e n =>
    let? x := address m a in
    let? p := pointee ptr e in
    match get (m_val m) p (m_i m) with
    | Some (CArr l) => if (0 <=? n) && (n <=? len l) then wr m x (firstn (Z.to_nat n) l) else None
    | _ => None
    end
  | SCopyFrom e a n =>
    let? x := address m a in
    let? d := rd m x n in
    let? p := pointee ptr e in
    match get (m_val m) p (m_i m) with
    | Some (CArr l) =>
      if n <=? len l then
        let? v := put (m_val m) p (m_i m) (CArr (d ++ skipn (Z.to_nat n) l)) in Some (touch (with_val m v) n)
      else None
    | _ => None
    end
  | SNul a n => let? x := address m a in wr m (x + n) [0]
  | SInc => move m 1
  | SAddT b => move m (Z.of_nat (base_size b))
  | SAddN n => move m n
  | SFor n body =>
    let? w := lw in
    (fix loop (turns : nat) (m : mem) : option mem :=
       match turns with
       | O => None
       | S k =>
         if m_i m <? n then
           let? m := (fix run l m := match l with
                        | [] => Some m
                        | x :: r => let? m := exec ptr lw x m in run r m
                        end) body m in
           loop k (with_i m ((m_i m + 1) mod loop_limit w))
         else Some m
       end) (S (Z.to_nat n)) (with_i m 0)
  end.

(** A function body: [dp] p is declared, [lw] the type of the loop variable.  Taking
    the lock twice waits for ever. *)
Fixpoint run (ptr : bool) (dp : bool) (lw : option looptype) (l : list fstmt) (m : mem) : option mem :=
  match l with
  | [] => Some m
  | s :: r =>
    match s with
    | FPtr => run ptr true lw r m
    | FLoop w => run ptr dp (Some w) r m
    | FLockOut | FLockIn => if m_lock m then None else run ptr dp lw r (with_locked m true)
    | FUnlockIn => if m_lock m then run ptr dp lw r (with_locked m false) else None
    | FStart o =>
      if dp && (0 <=? o) && (o <=? len (m_buf m)) then run ptr dp lw r (with_p m (Some o)) else None
    | FCode s => let? m := exec ptr lw s m in run ptr dp lw r m
    | FNotify o n d => if m_lock m then run ptr dp lw r (notified m (o, n, d)) else None
    end
  end.

(** Calling a generated function with port data [buf]; [val] is [arg] or points to
    it. *)
Definition call (f : cfun) (buf : bytes) (arg : cval) : option mem :=
  run (cf_pointer f) false None (cf_body f) (mk_mem buf None 0 arg false 0 []).

(** ** What the functions are for *)

(** [c] is an object for the type [t]; the members of the outer record carry the
    suffix [sfx]. *)
Fixpoint shape (sfx : str) (t : ty) (c : cval) : Prop :=
  match t, c with
  | TInt k, CInt z => kmin k <= z <= kmax k
  | TArr k n, CArr l => len l = n /\ Forall (fun z => kmin k <= z <= kmax k) l
  | TStr n, CArr l => len l = n /\ bytes_ok l
  | TRec ms, CStruct fs =>
    (fix go ms fs := match ms, fs with
                     | [], [] => True
                     | (nm, t) :: ms', (k, x) :: fs' => k = nm ++ sfx /\ shape [] t x /\ go ms' fs'
                     | _, _ => False
                     end) ms fs
  | _, _ => False
  end.

(** The bytes of an object: numbers low byte first, the last character of a text is
    always NUL. *)
Fixpoint image (t : ty) (c : cval) : bytes :=
  match t, c with
  | TInt k, CInt z => num_le (width k) z
  | TArr k _, CArr l => flat_map (num_le (width k)) l
  | TStr n, CArr l => firstn (Z.to_nat (n - 1)) l ++ [0]
  | TRec ms, CStruct fs =>
    (fix go ms fs := match ms, fs with
                     | (_, t) :: ms', (_, x) :: fs' => image t x ++ go ms' fs'
                     | _, _ => []
                     end) ms fs
  | _, _ => []
  end.

(** The numbers in some bytes. *)
Fixpoint ints_of (k : kind) (n : nat) (b : bytes) : list Z :=
  match n with
  | O => []
  | S m => int_val k (firstn (width k) b) :: ints_of k m (skipn (width k) b)
  end.

(** The object [old] after reading the bytes [b] into it: the last character of a
    text stays. *)
Fixpoint loaded (t : ty) (old : cval) (b : bytes) : cval :=
  match t, old with
  | TInt k, _ => CInt (int_val k b)
  | TArr k n, _ => CArr (ints_of k (Z.to_nat n) b)
  | TStr n, CArr l => CArr (firstn (Z.to_nat (n - 1)) b ++ skipn (Z.to_nat (n - 1)) l)
  | TRec ms, CStruct fs =>
    CStruct ((fix go ms fs b := match ms, fs with
                     | (_, t) :: ms', (k, x) :: fs' =>
                       (k, loaded t x (firstn (Z.to_nat (tlen t)) b)) :: go ms' fs' (skipn (Z.to_nat (tlen t)) b)
                     | _, _ => []
                     end) ms fs b)
  | _, _ => old
  end.

(** The Python value that an object stands for: texts end at the first NUL, which
    has to be there. *)
Fixpoint meaning (t : ty) (c : cval) : option pyval :=
  match t, c with
  | TInt _, CInt z => Some (VInt z)
  | TArr _ _, CArr l => Some (VList (map VInt l))
  | TStr _, CArr l =>
    if existsb (Z.eqb 0) l then
      match utf8_decode (before_nul l) with Ok s => Some (VStr s) | Err _ => None end
    else None
  | TRec ms, CStruct fs =>
    match (fix go ms fs := match ms, fs with
                     | [], [] => Some []
                     | (nm, t) :: ms', (_, x) :: fs' =>
                       match meaning t x, go ms' fs' with
                       | Some v, Some d => Some ((nm, v) :: d)
                       | _, _ => None
                       end
                     | _, _ => None
                     end) ms fs with
    | Some d => Some (VDict d)
    | None => None
    end
  | _, _ => None
  end.

(** Every text in the bytes [b] ends before its last byte. *)
Fixpoint terminated (t : ty) (b : bytes) : Prop :=
  match t with
  | TStr n => In 0 (firstn (Z.to_nat (n - 1)) b)
  | TRec ms =>
    (fix go ms b := match ms with
                    | [] => True
                    | (_, t) :: ms' =>
                      terminated t (firstn (Z.to_nat (tlen t)) b) /\ go ms' (skipn (Z.to_nat (tlen t)) b)
                    end) ms b
  | _ => True
  end.

(** The types that the generator supports: no 64 bit numbers, no single characters,
    no empty texts; record members may refer to numbers only. *)
Inductive cable (H : theap) : delem -> ty -> Prop :=
| cab_int nm c lo hi k : kind_of c = Some k -> small k -> cable H (DPrim nm c lo hi None) (TInt k)
| cab_arr nm c lo hi k n : kind_of c = Some k -> small k -> 0 <= n < 2 ^ 32 ->
    cable H (DPrim nm c lo hi (Some n)) (TArr k n)
| cab_str nm lo hi n : 1 <= n -> cable H (DPrim nm CSTR lo hi (Some n)) (TStr n)
| cab_rec nm es ms : NoDup (map fst ms) -> cables H es ms -> cable H (DRec nm es) (TRec ms)
| cab_ref nm r nm' c lo hi k : resolve_data_element H (DRef nm r) = Ok (DPrim nm' c lo hi None) ->
    kind_of c = Some k -> small k -> cable H (DRef nm r) (TInt k)
with cables (H : theap) : list delem -> list (str * ty) -> Prop :=
| cabs_nil : cables H [] []
| cabs_cons e es nm t ms : de_name e = Some nm -> cable H e t -> cables H es ms ->
    cables H (e :: es) ((nm, t) :: ms).

(** A port whose type the generator supports. *)
Definition port_cable (W : world) (o : nat) (t : ty) : Prop :=
  exists d, resolve_data_element (w_types W) (pt_elem (w_ports W o)) = Ok d /\ cable (w_types W) d t.

(** ** Text in a C source *)

(** What a string literal (without its quotes) denotes; octal and hexadecimal
    escapes are left out. *)
Fixpoint unescape (s : str) : option str :=
  match s with
  | [] => Some []
  | c :: r =>
    if c =? 92 then
      match r with
      | [] => None
      | e :: r' =>
        let? x := (if e =? 110 then Some 10 else if e =? 116 then Some 9 else if e =? 114 then Some 13
                   else if e =? 97 then Some 7 else if e =? 98 then Some 8 else if e =? 102 then Some 12
                   else if e =? 118 then Some 11
                   else if (e =? 34) || (e =? 39) || (e =? 63) || (e =? 92) then Some e else None) in
        let? t := unescape r' in Some (x :: t)
      end
    else if (c =? 34) || (c =? 10) then None
    else let? t := unescape r in Some (c :: t)
  end.
(** Literals next to each other are one literal. *)
Fixpoint denoted (l : list str) : option str :=
  match l with
  | [] => Some []
  | s :: r => let? a := unescape s in let? b := denoted r in Some (a ++ b)
  end.

(** ** The callbacks *)

(** The value of a macro; None if it is not defined, or twice in different ways. *)
Definition macro (table : list (str * Z)) (name : str) : option Z :=
  match filter (fun m => str_eqb (fst m) name) table with
  | [] => None
  | (_, v) :: r => if forallb (fun m => snd m =? v) r then Some v else None
  end.

(** The cases of the switch: label, length, call.  Two equal labels do not compile. *)
Fixpoint cases (table : list (str * Z)) (l : list cbpart) : option (list (Z * Z * option cbcall)) :=
  match l with
  | [] => Some []
  | PComment _ :: r => cases table r
  | PCase label n call :: r =>
    let? a := macro table label in
    let? b := macro table n in
    let? rest := cases table r in
    if existsb (fun c => fst (fst c) =? a) rest then None else Some ((a, b, call) :: rest)
  end.

(** Calling the Read function named [s] for an object that contains [old]. *)
Definition read_call (reads : list cfun) (s : str) (buf : bytes) (old : cval) : option cval :=
  match filter (fun f => str_eqb (cf_name f) s) reads with
  | [f] => let? m := call f buf old in Some (m_val m)
  | _ => None
  end.

(** The while loop.  [old]: what the union contains before the member is read. *)
Fixpoint notify_loop (turns : nat) (reads : list cfun) (buf : bytes) (old : str -> cval)
    (cs : list (Z * Z * option cbcall)) (offset stop : Z) : option (list (str * cval)) :=
  match turns with
  | O => None
  | S k =>
    if offset <? stop then
      match find (fun c => fst (fst c) =? offset) cs with
      | None => Some []
      | Some (_, n, call) =>
        let? now := (match call with
                     | None => Some []
                     | Some c => let? v := read_call reads (cl_read c) buf (old (cl_port c)) in Some [(cl_func c, v)]
                     end) in
        let? later := notify_loop k reads buf old cs ((offset + n) mod 2 ^ 32) stop in
        Some (now ++ later)
      end
    else Some []
  end.

(** The calls that the notification about [n] bytes at [offset] leads to. *)
Definition callbacks_called (c : cfile) (buf : bytes) (old : str -> cval) (offset n : Z)
    : option (list (str * cval)) :=
  match c_notifier c with
  | Switch guard parts _ =>
    let table := c_lens c ++ c_offsets c in
    let stop := (offset + n) mod 2 ^ 32 in
    let? start := (match guard with
                   | None => Some offset
                   | Some g => let? first := macro table g in Some (if offset <? first then first else offset)
                   end) in
    let? cs := cases table parts in
    notify_loop (S (Z.to_nat stop)) (c_reads c) buf old cs start stop
  | _ => Some []
  end.
