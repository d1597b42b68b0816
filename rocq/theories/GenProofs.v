(** Lemmas about the C generator: what the generated statements do. *)
From Coq Require Import ZifyBool ZifyNat Lia FinFun.
From Verif Require Import Py PyLemmas TypesModel CompilerModel VmModel TypesSpec TypesProofs
  VmProofs VmPackProofs TextModel SigModel AttrModel NodeModel NodeDataModel NodeDataSpec NodeDataProofs
  GenModel GenSpec.
Ltac Zify.zify_post_hook ::= Z.div_mod_to_equations.

(** ** Lists of statements *)

Definition steps (ptr : bool) (lw : option looptype) : list cstmt -> mem -> option mem :=
  fix run l m := match l with
                 | [] => Some m
                 | x :: r => let? m := exec ptr lw x m in run r m
                 end.
Definition turns (ptr : bool) (lw : option looptype) (w : looptype) (n : Z) (body : list cstmt)
    : nat -> mem -> option mem :=
  fix loop k m := match k with
                  | O => None
                  | S k =>
                    if m_i m <? n then
                      let? m := steps ptr lw body m in loop k (with_i m ((m_i m + 1) mod loop_limit w))
                    else Some m
                  end.
Lemma turns_S ptr lw w n body k m : turns ptr lw w n body (S k) m =
  if m_i m <? n then let? m := steps ptr lw body m in turns ptr lw w n body k (with_i m ((m_i m + 1) mod loop_limit w))
  else Some m.
Proof. reflexivity. Qed.
Lemma exec_for ptr w n body m :
  exec ptr (Some w) (SFor n body) m = turns ptr (Some w) w n body (S (Z.to_nat n)) (with_i m 0).
Proof. reflexivity. Qed.

Lemma steps_app ptr lw a b m : steps ptr lw (a ++ b) m = let? m := steps ptr lw a m in steps ptr lw b m.
Proof.
  revert m. induction a as [|x a IH]; intros m; [reflexivity|]. cbn [app steps]. destruct (exec ptr lw x m); [apply IH|reflexivity].
Qed.

Lemma run_code ptr dp lw code rest m :
  run ptr dp lw (map FCode code ++ rest) m = let? m := steps ptr lw code m in run ptr dp lw rest m.
Proof.
  revert m. induction code as [|x code IH]; intros m; [reflexivity|]. cbn [map app run steps].
  destruct (exec ptr lw x m); [apply IH|reflexivity].
Qed.

(** ** Port data *)

Definition over (b : bytes) (a : Z) (d : bytes) : bytes :=
  firstn (Z.to_nat a) b ++ d ++ skipn (Z.to_nat (a + len d)) b.
Definition cut (b : bytes) (a n : Z) : bytes := firstn (Z.to_nat n) (skipn (Z.to_nat a) b).

Lemma over_len b a d : 0 <= a -> a + len d <= len b -> len (over b a d) = len b.
Proof.
  intros A L. unfold over. rewrite !len_app, len_firstn, len_skipn. pose proof (len_nonneg d). lia.
Qed.
Lemma over_nil b a : 0 <= a <= len b -> over b a [] = b.
Proof.
  intros A. unfold over. rewrite len_nil, Z.add_0_r. cbn [app]. apply firstn_skipn.
Qed.
Lemma over_app b a d1 d2 : 0 <= a -> a + len d1 + len d2 <= len b ->
  over (over b a d1) (a + len d1) d2 = over b a (d1 ++ d2).
Proof.
  intros A L. pose proof (len_nonneg d1). pose proof (len_nonneg d2). unfold over at 1 3.
  assert (F : length (firstn (Z.to_nat a) b) = Z.to_nat a) by (rewrite firstn_length; unfold len in *; lia).
  assert (X : firstn (Z.to_nat (a + len d1)) (over b a d1) = firstn (Z.to_nat a) b ++ d1).
  { unfold over. rewrite app_assoc, firstn_app.
    rewrite firstn_all2 by (rewrite app_length, F; unfold len in *; lia).
    replace (Z.to_nat (a + len d1) - length (firstn (Z.to_nat a) b ++ d1))%nat with 0%nat
      by (rewrite app_length, F; unfold len in *; lia).
    cbn [firstn]. apply app_nil_r. }
  rewrite X. rewrite len_app, <- !app_assoc. f_equal. f_equal. f_equal.
  unfold over. rewrite app_assoc, skipn_app.
  rewrite skipn_all2 by (rewrite app_length, F; unfold len in *; lia). cbn [app].
  rewrite app_length, F, skipn_skipn. f_equal. unfold len in *. lia.
Qed.
Lemma cut_len b a n : 0 <= a -> 0 <= n -> a + n <= len b -> len (cut b a n) = n.
Proof. intros. unfold cut. rewrite len_firstn, len_skipn. lia. Qed.
Lemma cut_app b a n1 n2 : 0 <= a -> 0 <= n1 -> 0 <= n2 ->
  cut b a (n1 + n2) = cut b a n1 ++ cut b (a + n1) n2.
Proof.
  intros A N1 N2. unfold cut. rewrite <- (firstn_skipn (Z.to_nat n1) (firstn (Z.to_nat (n1 + n2)) _)).
  rewrite firstn_firstn. replace (Nat.min _ _) with (Z.to_nat n1) by lia. f_equal.
  rewrite skipn_firstn_comm, skipn_skipn. f_equal; [lia|]. f_equal. lia.
Qed.
Lemma cut_first b a n1 n2 : 0 <= a -> 0 <= n1 -> 0 <= n2 -> a + n1 + n2 <= len b ->
  firstn (Z.to_nat n1) (cut b a (n1 + n2)) = cut b a n1.
Proof. intros. unfold cut. rewrite firstn_firstn. f_equal. lia. Qed.
Lemma cut_rest b a n1 n2 : 0 <= a -> 0 <= n1 -> 0 <= n2 -> a + n1 + n2 <= len b ->
  skipn (Z.to_nat n1) (cut b a (n1 + n2)) = cut b (a + n1) n2.
Proof.
  intros. unfold cut. rewrite skipn_firstn_comm, skipn_skipn. f_equal; [lia|]. f_equal. lia.
Qed.
Lemma cut_ok b a n : bytes_ok b -> bytes_ok (cut b a n).
Proof. intros. apply bytes_ok_firstn, bytes_ok_skipn. assumption. Qed.

(** The state after [k] more bytes of port data were touched. *)
Definition after (m : mem) (b : bytes) (p : option Z) (i : Z) (v : cval) (k : Z) : mem :=
  mk_mem b p i v (m_lock m) (if m_lock m then m_bare m else m_bare m + k) (m_out m).

Lemma after_after m b p i v k b' p' i' v' k' :
  after (after m b p i v k) b' p' i' v' k' = after m b' p' i' v' (k + k').
Proof. unfold after. cbn [m_lock m_bare m_out]. destruct (m_lock m); [reflexivity|]. rewrite Z.add_assoc. reflexivity. Qed.
Lemma after_none m : after m (m_buf m) (m_p m) (m_i m) (m_val m) 0 = m.
Proof. destruct m. unfold after. cbn. destruct m_lock; [reflexivity|]. rewrite Z.add_0_r. reflexivity. Qed.
Lemma with_i_after m i : with_i m i = after m (m_buf m) (m_p m) i (m_val m) 0.
Proof. unfold with_i, after. destruct (m_lock m) eqn:L; [reflexivity|]. rewrite Z.add_0_r. reflexivity. Qed.

Lemma wr_ok m a d : 0 <= a -> a + len d <= len (m_buf m) ->
  wr m a d = Some (after m (over (m_buf m) a d) (m_p m) (m_i m) (m_val m) (len d)).
Proof.
  intros A L. unfold wr. replace (_ && _) with true by lia. reflexivity.
Qed.
Lemma rd_ok m a n : 0 <= a -> 0 <= n -> a + n <= len (m_buf m) -> rd m a n = Some (cut (m_buf m) a n).
Proof. intros. unfold rd. replace (_ && _) with true by lia. reflexivity. Qed.
Lemma move_ok m p n : m_p m = Some p -> 0 <= p + n -> p + n <= len (m_buf m) ->
  move m n = Some (after m (m_buf m) (Some (p + n)) (m_i m) (m_val m) 0).
Proof.
  intros P A B. unfold move. rewrite P. cbn [obind]. replace (_ && _) with true by lia.
  unfold with_p, after. destruct (m_lock m) eqn:L; [reflexivity|]. rewrite Z.add_0_r. reflexivity.
Qed.

(** ** Numbers *)

Lemma num_le_mod : forall n m z, (n <= m)%nat -> num_le n (z mod 2 ^ (8 * Z.of_nat m)) = num_le n z.
Proof.
  induction n as [|n IH]; intros [|m] z L; try lia; [reflexivity|reflexivity|]. cbn [num_le].
  replace (2 ^ (8 * Z.of_nat (S m))) with (256 * 2 ^ (8 * Z.of_nat m))
    by (replace (8 * Z.of_nat (S m)) with (8 + 8 * Z.of_nat m) by lia; rewrite Z.pow_add_r by lia; reflexivity).
  assert (0 < 2 ^ (8 * Z.of_nat m)) by (apply Z.pow_pos_nonneg; lia).
  rewrite Z.rem_mul_r by lia.
  f_equal.
  - rewrite Z.mul_comm, Z.mod_add by lia. apply Z.mod_mod. lia.
  - rewrite <- (IH m (z / 256)) by lia. f_equal.
    rewrite Z.mul_comm, Z.div_add by lia. rewrite Z.mod_div by lia. lia.
Qed.

Definition kind_base (k : kind) : basetype :=
  match k with U8 => BU8 | S8 => BI8 | U16 => BU16 | S16 => BI16 | U32 => BU32 | _ => BI32 end.

Lemma base_of_kind nm c lo hi al k : kind_of c = Some k -> small k ->
  base_of (DPrim nm c lo hi al) = Ok (Z.of_nat (width k), kind_base k).
Proof. intros K S. destruct c; cbn in K; try discriminate; injection K as <-; cbn in S; try contradiction; reflexivity. Qed.
Lemma base_size_kind k : small k -> base_size (kind_base k) = width k.
Proof. destruct k; intros S; try reflexivity; contradiction. Qed.

Lemma num_val_range b : bytes_ok b -> 0 <= num_val b < 2 ^ (8 * len b).
Proof. intros B. rewrite <- num_val_le by exact B. apply le_value_range, B. Qed.

Lemma cast_int k b : small k -> bytes_ok b -> len b = Z.of_nat (width k) ->
  cast (kind_base k) (num_val b) = int_val k b.
Proof.
  intros S B L. pose proof (num_val_range b B) as R. rewrite L in R.
  unfold cast, int_val. rewrite (base_size_kind k S).
  rewrite Z.mod_small by lia.
  replace (base_signed (kind_base k)) with (signed k) by (destruct k; try reflexivity; contradiction). reflexivity.
Qed.

Lemma width_pos k : 1 <= Z.of_nat (width k) <= 8.
Proof. destruct k; cbn; lia. Qed.
Lemma width_small k : small k -> (width k <= 4)%nat.
Proof. destruct k; cbn; intros; try contradiction; lia. Qed.

(** ** Members of the argument *)

Lemma get_app : forall p q v i, get v (p ++ q) i = let? x := get v p i in get x q i.
Proof.
  induction p as [|[s|] p IH]; intros q v i; [reflexivity| |]; cbn [app get].
  - destruct v; try reflexivity. destruct (field s fields); [apply IH|reflexivity].
  - destruct v; try reflexivity. destruct (0 <=? i); [|reflexivity]. destruct (nth_error l (Z.to_nat i)); [apply IH|reflexivity].
Qed.

Definition names (ns : list str) : list sel := map SelF ns.

Lemma names_app a b : names (a ++ b) = names a ++ names b.
Proof. apply map_app. Qed.

Lemma get_names : forall ns v i j, get v (names ns) i = get v (names ns) j.
Proof.
  induction ns as [|s ns IH]; intros v i j; [reflexivity|]. cbn [names map get]. destruct v; try reflexivity.
  destruct (field s fields); [apply IH|reflexivity].
Qed.

Lemma field_set s x fs y : field s fs = Some y -> field s (set_field s x fs) = Some x.
Proof.
  induction fs as [|[k z] fs IH]; intros E; [discriminate|]. cbn [field set_field] in *.
  destruct (str_eqb k s) eqn:K; cbn [field]; rewrite K; auto.
Qed.
Lemma set_set s x y fs : set_field s y (set_field s x fs) = set_field s y fs.
Proof.
  induction fs as [|[k z] fs IH]; [reflexivity|]. cbn [set_field]. destruct (str_eqb k s) eqn:K; cbn [set_field]; rewrite K; congruence.
Qed.

Lemma put_get : forall ns v i x v', put v (names ns) i x = Some v' -> get v' (names ns) i = Some x.
Proof.
  induction ns as [|s ns IH]; intros v i x v' E; cbn [names map put get] in *; [congruence|].
  destruct v as [|l|fs]; try discriminate. destruct (field s fs) as [y|] eqn:F; [|discriminate].
  destruct (put y _ i x) as [y'|] eqn:P; [|discriminate]. injection E as <-.
  rewrite (field_set _ _ _ _ F). exact (IH _ _ _ _ P).
Qed.
Lemma put_put : forall ns v i x v' j y, put v (names ns) i x = Some v' -> put v' (names ns) j y = put v (names ns) j y.
Proof.
  induction ns as [|s ns IH]; intros v i x v' j y E; cbn [names map put] in *; [reflexivity|].
  destruct v as [|l|fs]; try discriminate. destruct (field s fs) as [z|] eqn:F; [|discriminate].
  destruct (put z _ i x) as [z'|] eqn:P; [|discriminate]. injection E as <-.
  rewrite (field_set _ _ _ _ F). unfold names in IH. rewrite (IH _ _ _ _ j y P).
  destruct (put z (map SelF ns) j y); [|reflexivity]. rewrite set_set. reflexivity.
Qed.
Lemma put_some : forall ns v i x y, get v (names ns) i = Some y -> exists v', put v (names ns) i x = Some v'.
Proof.
  induction ns as [|s ns IH]; intros v i x y E; cbn [names map put get] in *; [eauto|].
  destruct v as [|l|fs]; try discriminate. destruct (field s fs) as [z|] eqn:F; [|discriminate].
  destruct (IH _ _ x _ E) as [z' P]. unfold names in P. rewrite P. eauto.
Qed.
Lemma put_index : forall ns v i j x, put v (names ns) i x = put v (names ns) j x.
Proof.
  induction ns as [|s ns IH]; intros v i j x; cbn [names map put]; [reflexivity|].
  destruct v as [|l|fs]; try reflexivity. destruct (field s fs) as [z|]; [|reflexivity].
  unfold names in IH. rewrite (IH z i j x). reflexivity.
Qed.
Lemma put_app : forall ns q v i x, put v (names ns ++ q) i x =
  let? y := get v (names ns) i in let? y' := put y q i x in put v (names ns) i y'.
Proof.
  induction ns as [|s ns IH]; intros q v i x; cbn [names map app put get obind].
  - destruct (put v q i x); reflexivity.
  - destruct v as [|l|fs]; try reflexivity. destruct (field s fs) as [z|]; [|reflexivity].
    unfold names in IH. rewrite IH. destruct (get z (map SelF ns) i) as [y|]; [|reflexivity]. cbn [obind].
    destruct (put y q i x); reflexivity.
Qed.
Lemma put_same : forall ns v i x, get v (names ns) i = Some x -> put v (names ns) i x = Some v.
Proof.
  induction ns as [|s ns IH]; intros v i x E; cbn [names map put get] in *; [congruence|].
  destruct v as [|l|fs]; try discriminate. destruct (field s fs) as [z|] eqn:F; [|discriminate].
  unfold names in IH. rewrite (IH _ _ _ E). f_equal. f_equal. clear -F.
  induction fs as [|[k y] fs IH]; [reflexivity|]. cbn [field set_field] in *. destruct (str_eqb k s); [congruence|].
  f_equal. auto.
Qed.

(** ** One number *)

Definition int_code (op : dir) (e : cexpr) (k : kind) : list cstmt :=
  if Z.of_nat (width k) =? 1 then
    [match op with Pack => SStore AP e | Unpack => SLoad e (kind_base k) AP end; SInc]
  else
    [match op with Pack => SPack AP e (kind_base k) | Unpack => SUnpack e (kind_base k) AP end; SAddT (kind_base k)].

Lemma gen_integer_ptr buf H op e d lv off nm c lo hi al k :
  resolve_data_element H d = Ok (DPrim nm c lo hi al) -> kind_of c = Some k -> small k -> lv_ptr lv = true ->
  gen_integer buf H op e d lv off = Ok (int_code op e k, Z.of_nat (width k)).
Proof.
  intros R K S P. unfold gen_integer. rewrite R. cbn [bind]. rewrite (base_of_kind _ _ _ _ _ _ K S). cbn [bind].
  rewrite P. reflexivity.
Qed.

Lemma pack_int ptr lw e k m a z : small k -> number ptr m e = Some z -> m_p m = Some a -> 0 <= a ->
  a + Z.of_nat (width k) <= len (m_buf m) ->
  steps ptr lw (int_code Pack e k) m =
  Some (after m (over (m_buf m) a (num_le (width k) z)) (Some (a + Z.of_nat (width k))) (m_i m) (m_val m) (Z.of_nat (width k))).
Proof.
  intros S N P A L. unfold int_code. destruct (Z.of_nat (width k) =? 1) eqn:W.
  - cbn [steps exec address]. rewrite P. cbn [obind]. rewrite N. cbn [obind].
    assert (WW : width k = 1%nat) by lia. rewrite WW in *.
    rewrite wr_ok by (rewrite ?len_cons, ?len_nil; lia). cbn [obind].
    rewrite (move_ok _ a) by (cbn [after m_p m_buf]; rewrite ?over_len by (rewrite ?len_cons, ?len_nil; lia); auto; lia).
    cbn [obind]. rewrite after_after. cbn [after m_buf m_i m_val num_le]. reflexivity.
  - cbn [steps exec address]. rewrite P. cbn [obind]. rewrite N. cbn [obind].
    rewrite base_size_kind by exact S. pose proof (width_small k S).
    replace (2 ^ 32) with (2 ^ (8 * Z.of_nat 4)) by reflexivity. rewrite num_le_mod by lia.
    rewrite wr_ok by (rewrite ?num_le_len; lia). cbn [obind].
    rewrite (move_ok _ a) by (cbn [after m_p m_buf]; rewrite ?over_len by (rewrite ?num_le_len; lia); auto; lia).
    cbn [obind]. rewrite after_after. cbn [after m_buf m_i m_val]. rewrite num_le_len. f_equal. f_equal. lia.
Qed.

Lemma number_field ptr m e ns z : obj ptr e = Some (names ns) -> get (m_val m) (names ns) 0 = Some (CInt z) ->
  number ptr m e = Some z.
Proof. intros O G. unfold number. rewrite O. cbn [obind]. rewrite (get_names _ _ _ 0), G. reflexivity. Qed.

Lemma unpack_int ptr lw e k m a path old v' : small k -> obj ptr e = Some path ->
  get (m_val m) path (m_i m) = Some (CInt old) ->
  put (m_val m) path (m_i m) (CInt (int_val k (cut (m_buf m) a (Z.of_nat (width k))))) = Some v' ->
  m_p m = Some a -> 0 <= a -> a + Z.of_nat (width k) <= len (m_buf m) -> bytes_ok (m_buf m) ->
  steps ptr lw (int_code Unpack e k) m =
  Some (after m (m_buf m) (Some (a + Z.of_nat (width k))) (m_i m) v' (Z.of_nat (width k))).
Proof.
  intros S O G V P A L B. pose proof (width_pos k) as WP.
  assert (AS : forall w, w = Z.of_nat (width k) ->
    assign ptr (touch m w) e (cast (kind_base k) (num_val (cut (m_buf m) a w))) =
    Some (after m (m_buf m) (m_p m) (m_i m) v' w)).
  { intros w ->. rewrite cast_int; [|exact S|apply cut_ok, B|apply cut_len; lia].
    unfold assign. rewrite O. cbn [obind touch m_val m_i]. rewrite G, V. reflexivity. }
  unfold int_code. destruct (Z.of_nat (width k) =? 1) eqn:W.
  - cbn [steps exec address]. rewrite P. cbn [obind]. rewrite rd_ok by lia. cbn [obind].
    rewrite AS by lia. cbn [obind].
    rewrite (move_ok _ a) by (cbn [after m_p m_buf]; auto; lia).
    cbn [obind]. rewrite after_after. cbn [after m_buf m_i m_val]. f_equal. f_equal; [f_equal; lia|lia].
  - cbn [steps exec address]. rewrite P. cbn [obind]. rewrite base_size_kind by exact S. rewrite rd_ok by lia. cbn [obind].
    rewrite AS by lia. cbn [obind].
    rewrite (move_ok _ a) by (cbn [after m_p m_buf]; auto; lia).
    cbn [obind]. rewrite after_after. cbn [after m_buf m_i m_val]. f_equal. f_equal. lia.
Qed.

(** ** Arrays *)

Lemma obj_idx ptr e p : pointee ptr e = Some p -> obj ptr (EIdx e) = Some (p ++ [SelI]).
Proof.
  intros P. destruct e; cbn [pointee] in P; cbn [obj].
  - destruct ptr; [|discriminate]. injection P as <-. reflexivity.
  - cbn [obj] in P. rewrite P. reflexivity.
  - cbn [obj] in P. rewrite P. reflexivity.
  - cbn [obj] in P. rewrite P. reflexivity.
  - cbn [obj] in P. rewrite P. reflexivity.
Qed.

Lemma get_elem ns v l i z : get v (names ns) 0 = Some (CArr l) -> 0 <= i -> nth_error l (Z.to_nat i) = Some z ->
  get v (names ns ++ [SelI]) i = Some (CInt z).
Proof.
  intros G P N. rewrite get_app, (get_names _ _ _ 0), G. cbn [obind get]. replace (0 <=? i) with true by lia. rewrite N. reflexivity.
Qed.
Lemma put_elem ns v dn y rest z : get v (names ns) 0 = Some (CArr (dn ++ y :: rest)) ->
  put v (names ns ++ [SelI]) (len dn) (CInt z) = put v (names ns) 0 (CArr (dn ++ z :: rest)).
Proof.
  intros G. rewrite put_app, (get_names _ _ _ 0), G. cbn [obind put]. pose proof (len_nonneg dn).
  rewrite len_app, len_cons. pose proof (len_nonneg rest). replace (_ && _) with true by lia. cbn [obind].
  rewrite (put_index _ _ _ 0). f_equal. f_equal.
  rewrite to_nat_len. rewrite firstn_app, firstn_all, Nat.sub_diag. cbn [firstn]. rewrite app_nil_r. f_equal. f_equal.
  replace (Z.to_nat (len dn + 1)) with (length (dn ++ [y])) by (rewrite app_length; unfold len; cbn [length]; lia).
  replace (dn ++ y :: rest) with ((dn ++ [y]) ++ rest) by (rewrite <- app_assoc; reflexivity).
  rewrite skipn_app, skipn_all, Nat.sub_diag. reflexivity.
Qed.

Lemma flat_num_len k l : len (flat_map (num_le (width k)) l) = Z.of_nat (width k) * len l.
Proof.
  induction l as [|y l IHl]; [cbn [flat_map]; unfold len; cbn [length]; lia|].
  cbn [flat_map]. rewrite len_app, IHl, num_le_len, len_cons. lia.
Qed.

Lemma pack_turns ptr lw w e k ns n : small k -> pointee ptr e = Some (names ns) -> n < loop_limit w ->
  forall rest dn m a, n = len dn + len rest -> get (m_val m) (names ns) 0 = Some (CArr (dn ++ rest)) ->
  m_i m = len dn -> m_p m = Some a -> 0 <= a -> a + Z.of_nat (width k) * len rest <= len (m_buf m) ->
  turns ptr lw w n (int_code Pack (EIdx e) k) (S (length rest)) m =
  Some (after m (over (m_buf m) a (flat_map (num_le (width k)) rest)) (Some (a + Z.of_nat (width k) * len rest)) n
          (m_val m) (Z.of_nat (width k) * len rest)).
Proof.
  intros S O NL. pose proof (width_pos k) as WP.
  induction rest as [|z rest IH]; intros dn m a N G I P A L; rewrite turns_S.
  - rewrite len_nil in *. replace (m_i m <? n) with false by lia. cbn [flat_map]. rewrite over_nil by lia.
    rewrite Z.mul_0_r, Z.add_0_r, <- P. replace n with (m_i m) by lia. rewrite after_none. reflexivity.
  - rewrite len_cons in *. pose proof (len_nonneg rest). pose proof (len_nonneg dn).
    replace (m_i m <? n) with true by lia.
    assert (E : number ptr m (EIdx e) = Some z).
    { unfold number. rewrite (obj_idx _ _ _ O). cbn [obind]. rewrite I. rewrite (get_elem _ _ _ _ z G); [reflexivity|lia|].
      rewrite to_nat_len, nth_error_app2, Nat.sub_diag by lia. reflexivity. }
    rewrite (pack_int ptr lw (EIdx e) k m a z S E P A) by nia. cbn [obind].
    pose proof (num_le_len (width k) z) as NLen.
    rewrite with_i_after, after_after. cbn [after m_buf m_p m_i m_val].
    rewrite (Z.mod_small (m_i m + 1)) by lia.
    specialize (IH (dn ++ [z]) (after m (over (m_buf m) a (num_le (width k) z)) (Some (a + Z.of_nat (width k))) (m_i m + 1) (m_val m) (Z.of_nat (width k) + 0)) (a + Z.of_nat (width k))).
    cbn [length]. rewrite IH.
    + rewrite after_after. cbn [after m_buf m_val]. f_equal. f_equal; try lia.
      * rewrite <- NLen at 1. rewrite over_app; [reflexivity|exact A|].
        rewrite NLen, flat_num_len. lia.
      * f_equal. lia.
    + rewrite len_app, len_cons, len_nil. lia.
    + cbn [after m_val]. rewrite <- app_assoc. exact G.
    + cbn [after m_i]. rewrite len_app, len_cons, len_nil. lia.
    + reflexivity.
    + lia.
    + cbn [after m_buf]. rewrite over_len by (rewrite ?NLen; nia). lia.
Qed.

Lemma unpack_turns ptr lw w e k ns n : small k -> pointee ptr e = Some (names ns) -> n < loop_limit w ->
  forall rest dn m a, n = len dn + len rest -> get (m_val m) (names ns) 0 = Some (CArr (dn ++ rest)) ->
  m_i m = len dn -> m_p m = Some a -> 0 <= a -> a + Z.of_nat (width k) * len rest <= len (m_buf m) ->
  bytes_ok (m_buf m) ->
  exists v', put (m_val m) (names ns) 0
               (CArr (dn ++ ints_of k (length rest) (cut (m_buf m) a (Z.of_nat (width k) * len rest)))) = Some v' /\
  turns ptr lw w n (int_code Unpack (EIdx e) k) (S (length rest)) m =
  Some (after m (m_buf m) (Some (a + Z.of_nat (width k) * len rest)) n v' (Z.of_nat (width k) * len rest)).
Proof.
  intros S O NL. pose proof (width_pos k) as WP.
  induction rest as [|z rest IH]; intros dn m a N G I P A L B; rewrite turns_S; cbn [length].
  - rewrite len_nil in *. replace (m_i m <? n) with false by lia. cbn [ints_of]. exists (m_val m).
    split; [apply put_same, G|].
    rewrite Z.mul_0_r, Z.add_0_r, <- P. replace n with (m_i m) by lia. rewrite after_none. reflexivity.
  - rewrite len_cons in *. pose proof (len_nonneg rest). pose proof (len_nonneg dn).
    replace (m_i m <? n) with true by lia.
    set (x := int_val k (cut (m_buf m) a (Z.of_nat (width k)))).
    destruct (put_some ns (m_val m) 0 (CArr (dn ++ x :: rest)) _ G) as [v1 V1].
    assert (E : get (m_val m) (names ns ++ [SelI]) (m_i m) = Some (CInt z)).
    { rewrite I. apply (get_elem _ _ _ _ z G); [lia|].
      rewrite to_nat_len, nth_error_app2, Nat.sub_diag by lia. reflexivity. }
    assert (V : put (m_val m) (names ns ++ [SelI]) (m_i m) (CInt x) = Some v1).
    { rewrite I, (put_elem _ _ _ _ _ _ G). exact V1. }
    rewrite (unpack_int ptr lw (EIdx e) k m a _ z v1 S (obj_idx _ _ _ O) E V P A) by (auto; nia). cbn [obind].
    rewrite with_i_after, after_after. cbn [after m_buf m_p m_i m_val].
    rewrite (Z.mod_small (m_i m + 1)) by lia.
    destruct (IH (dn ++ [x]) (after m (m_buf m) (Some (a + Z.of_nat (width k))) (m_i m + 1) v1 (Z.of_nat (width k) + 0)) (a + Z.of_nat (width k))) as (v' & V' & T').
    + rewrite len_app, len_cons, len_nil. lia.
    + cbn [after m_val]. rewrite <- app_assoc. exact (put_get _ _ _ _ _ V1).
    + cbn [after m_i]. rewrite len_app, len_cons, len_nil. lia.
    + reflexivity.
    + lia.
    + cbn [after m_buf]. lia.
    + exact B.
    + cbn [after m_val m_buf] in V'. exists v'. split.
      * rewrite (put_put _ _ _ _ _ _ _ V1), <- app_assoc in V'. cbn [app] in V'. rewrite <- V'. f_equal. f_equal. f_equal.
        cbn [ints_of]. replace (width k) with (Z.to_nat (Z.of_nat (width k))) at 1 3 by lia.
        replace (Z.of_nat (width k) * (1 + len rest)) with (Z.of_nat (width k) + Z.of_nat (width k) * len rest) by lia.
        rewrite cut_first, cut_rest by nia. reflexivity.
      * rewrite T'. rewrite after_after. cbn [after m_buf m_val]. f_equal. f_equal; try lia. f_equal. lia.
Qed.

(** ** Texts *)

Lemma pack_text ptr lw e ns n l m a : 1 <= n -> pointee ptr e = Some (names ns) ->
  get (m_val m) (names ns) 0 = Some (CArr l) -> len l = n -> 0 <= a -> a + n <= len (m_buf m) ->
  forall ad, address m ad = Some a -> (forall b i v k, address (after m b (m_p m) i v k) ad = Some a) ->
  steps ptr lw [SCopyTo ad e (n - 1); SNul ad (n - 1)] m =
  Some (after m (over (m_buf m) a (firstn (Z.to_nat (n - 1)) l ++ [0])) (m_p m) (m_i m) (m_val m) n).
Proof.
  intros N O G L A B ad AD AD'. cbn [steps exec]. rewrite AD. cbn [obind]. rewrite O. cbn [obind].
  rewrite (get_names _ _ _ 0), G. replace (_ && _) with true by lia.
  assert (F : len (firstn (Z.to_nat (n - 1)) l) = n - 1) by (rewrite len_firstn; lia).
  rewrite wr_ok by (rewrite ?F; lia). cbn [obind]. rewrite AD'. cbn [obind].
  rewrite wr_ok by (cbn [after m_buf]; rewrite ?over_len, ?len_cons, ?len_nil by (rewrite ?F; lia); lia).
  cbn [obind]. rewrite after_after. cbn [after m_buf m_p m_i m_val].
  rewrite <- F at 2. rewrite over_app by (rewrite ?F, ?len_cons, ?len_nil; lia).
  f_equal. f_equal. unfold len in *. cbn [length]. lia.
Qed.

Lemma unpack_text ptr lw e ns n l m a ad : 1 <= n -> pointee ptr e = Some (names ns) ->
  get (m_val m) (names ns) 0 = Some (CArr l) -> len l = n -> 0 <= a -> a + n <= len (m_buf m) ->
  address m ad = Some a ->
  exists v', put (m_val m) (names ns) 0 (CArr (firstn (Z.to_nat (n - 1)) (cut (m_buf m) a n) ++ skipn (Z.to_nat (n - 1)) l)) = Some v' /\
  steps ptr lw [SCopyFrom e ad (n - 1)] m = Some (after m (m_buf m) (m_p m) (m_i m) v' (n - 1)).
Proof.
  intros N O G L A B AD.
  destruct (put_some ns (m_val m) 0 (CArr (firstn (Z.to_nat (n - 1)) (cut (m_buf m) a n) ++ skipn (Z.to_nat (n - 1)) l)) _ G) as [v' V].
  exists v'. split; [exact V|]. cbn [steps exec]. rewrite AD. cbn [obind]. rewrite rd_ok by lia. cbn [obind]. rewrite O. cbn [obind].
  rewrite (get_names _ _ _ 0), G. replace (n - 1 <=? len l) with true by lia.
  rewrite (put_index _ _ _ 0). replace (cut (m_buf m) a (n - 1)) with (firstn (Z.to_nat (n - 1)) (cut (m_buf m) a n)).
  - rewrite V. reflexivity.
  - replace n with ((n - 1) + 1) at 2 by lia. apply cut_first; lia.
Qed.

(** ** All types *)

Definition shapes (s : str) : list (str * ty) -> list (str * cval) -> Prop :=
  fix go ms fs := match ms, fs with
                  | [], [] => True
                  | (nm, t) :: ms', (k, x) :: fs' => k = nm ++ s /\ shape [] t x /\ go ms' fs'
                  | _, _ => False
                  end.
Definition images : list (str * ty) -> list (str * cval) -> bytes :=
  fix go ms fs := match ms, fs with
                  | (_, t) :: ms', (_, x) :: fs' => image t x ++ go ms' fs'
                  | _, _ => []
                  end.
Definition loadeds : list (str * ty) -> list (str * cval) -> bytes -> list (str * cval) :=
  fix go ms fs b := match ms, fs with
                    | (_, t) :: ms', (k, x) :: fs' =>
                      (k, loaded t x (firstn (Z.to_nat (tlen t)) b)) :: go ms' fs' (skipn (Z.to_nat (tlen t)) b)
                    | _, _ => []
                    end.
Lemma shape_rec s ms fs : shape s (TRec ms) (CStruct fs) = shapes s ms fs. Proof. reflexivity. Qed.
Lemma image_rec ms fs : image (TRec ms) (CStruct fs) = images ms fs. Proof. reflexivity. Qed.
Lemma loaded_rec ms fs b : loaded (TRec ms) (CStruct fs) b = CStruct (loadeds ms fs b). Proof. reflexivity. Qed.

Scheme cable_mut := Induction for cable Sort Prop with cables_mut := Induction for cables Sort Prop.
Combined Scheme cable_cables_ind from cable_mut, cables_mut.

Lemma image_lens H :
  (forall d t, cable H d t -> 0 <= tlen t /\ forall s c, shape s t c -> len (image t c) = tlen t) /\
  (forall es ms, cables H es ms -> 0 <= mlen ms /\ forall s fs, shapes s ms fs -> len (images ms fs) = mlen ms).
Proof.
  apply cable_cables_ind.
  - intros nm c lo hi k K S. split; [cbn [tlen]; pose proof (width_pos k); lia|].
    intros s [z| |] C; cbn in C; try contradiction. cbn [image tlen]. apply num_le_len.
  - intros nm c lo hi k n K S N. split; [cbn [tlen]; pose proof (width_pos k); nia|].
    intros s [|l|] C; cbn in C; try contradiction. destruct C as [<- _]. cbn [image tlen]. rewrite flat_num_len. lia.
  - intros nm lo hi n N. split; [cbn [tlen]; lia|].
    intros s [|l|] C; cbn in C; try contradiction. destruct C as [L _]. cbn [image tlen].
    rewrite len_app, len_firstn. unfold len in *. cbn [length]. lia.
  - intros nm es ms ND CS [P IH]. split; [exact P|].
    intros s [| |fs] C; try contradiction. rewrite image_rec. exact (IH s fs C).
  - intros nm r nm' c lo hi k R K S. split; [cbn [tlen]; pose proof (width_pos k); lia|].
    intros s [z| |] C; cbn in C; try contradiction. cbn [image tlen]. apply num_le_len.
  - split; [unfold mlen; cbn; lia|]. intros s fs C. destruct fs; reflexivity.
  - intros e es nm t ms E C [P IH] CS [P' IH']. split; [rewrite mlen_cons; lia|].
    intros s [|[k x] fs] SH; cbn [shapes] in SH; [contradiction|]. destruct SH as (-> & S1 & S2).
    cbn [images]. rewrite len_app, (IH _ _ S1), (IH' _ _ S2), mlen_cons. reflexivity.
Qed.

Definition le_loop (a b : option looptype) : Prop :=
  match a with
  | None => True
  | Some x => exists y, b = Some y /\ loop_limit x <= loop_limit y
  end.
Lemma le_loop_refl a : le_loop a a.
Proof. destruct a as [x|]; cbn; eauto using Z.le_refl. Qed.
Lemma le_loop_trans a b c : le_loop a b -> le_loop b c -> le_loop a c.
Proof.
  destruct a as [x|]; [|trivial]. intros (y & -> & L) (z & -> & L'). exists z. split; [reflexivity|lia].
Qed.
Lemma widen_old a w : le_loop a (Some (widen a w)).
Proof. destruct a as [[]|]; cbn; [..|trivial]; (eexists; split; [reflexivity|]); destruct w; cbn; lia. Qed.
Lemma widen_new a w : loop_limit w <= loop_limit (widen a w).
Proof. destruct a as [[]|], w; cbn; lia. Qed.
Lemma loop_type_limit n : n < 2 ^ 32 -> n < loop_limit (loop_type n).
Proof. intros N. unfold loop_type. destruct (n <? 256) eqn:A; [cbn; lia|]. destruct (n <? 65536) eqn:B; cbn; lia. Qed.

(** What one item does: [code] for the type [t] in the object that [e] names. *)
Definition packs (ptr : bool) (lw : option looptype) (s : str) (code : list cstmt) (t : ty) (ns : list str) : Prop :=
  forall m a c, get (m_val m) (names ns) 0 = Some c -> shape s t c -> m_p m = Some a -> 0 <= a ->
  a + tlen t <= len (m_buf m) ->
  exists i, steps ptr lw code m = Some (after m (over (m_buf m) a (image t c)) (Some (a + tlen t)) i (m_val m) (tlen t)).
Definition unpacks (ptr : bool) (lw : option looptype) (s : str) (code : list cstmt) (t : ty) (ns : list str) : Prop :=
  forall m a c, get (m_val m) (names ns) 0 = Some c -> shape s t c -> m_p m = Some a -> 0 <= a ->
  a + tlen t <= len (m_buf m) -> bytes_ok (m_buf m) ->
  exists i v' k, put (m_val m) (names ns) 0 (loaded t c (cut (m_buf m) a (tlen t))) = Some v' /\ 0 <= k <= tlen t /\
    steps ptr lw code m = Some (after m (m_buf m) (Some (a + tlen t)) i v' k).
Definition works (op : dir) := match op with Pack => packs | Unpack => unpacks end.

Definition named_by (ptr : bool) (e : cexpr) (ns : list str) : Prop :=
  obj ptr e = Some (names ns) /\ pointee ptr e = Some (names ns).

Definition gen_members (bf : bool) (H : theap) (sfx : str) (op : dir) (var : option bool) (e : cexpr)
    : list delem -> lvars -> Z -> res (list cstmt * lvars * Z) :=
  fix go l lv offset := match l with
    | [] => Ok ([], lv, 0)
    | x :: r =>
      do '(c1, lv, n1) <- gen_item bf H sfx op None (member_expr sfx var e (de_name x)) x lv offset;
      do '(c2, lv, n2) <- go r lv (offset + n1);
      Ok (c1 ++ c2, lv, n1 + n2)
    end.
Lemma gen_item_rec bf H sfx op var e nm es lv off :
  gen_item bf H sfx op var e (DRec nm es) lv off = gen_members bf H sfx op var e es (mk_lvars true (lv_loop lv)) off.
Proof. reflexivity. Qed.
Lemma gen_item_arr bf H sfx op var e nm c lo hi n k lv off : kind_of c = Some k -> small k ->
  gen_item bf H sfx op var e (DPrim nm c lo hi (Some n)) lv off =
  Ok ([SFor n (int_code op (EIdx e) k)], mk_lvars true (Some (widen (lv_loop lv) (loop_type n))), Z.of_nat (width k) * n).
Proof.
  intros K S. cbn [gen_item]. unfold isComplexType. cbn [resolve_data_element resolve_loop MAX_RECURSE_DEPTH bind].
  rewrite (gen_integer_ptr bf H op (EIdx e) (DPrim nm c lo hi (Some n))
    (mk_lvars true (Some (widen (lv_loop lv) (loop_type n)))) off nm c lo hi (Some n) k eq_refl K S eq_refl).
  destruct c; try reflexivity. discriminate K.
Qed.
Lemma gen_item_str bf H sfx op var e nm lo hi n lv off :
  gen_item bf H sfx op var e (DPrim nm CSTR lo hi (Some n)) lv off =
  do code <- gen_string bf op e n lv off; Ok (code, lv, n).
Proof. reflexivity. Qed.
Lemma gen_item_num bf H sfx op var e d nm c lo hi lv off :
  resolve_data_element H d = Ok (DPrim nm c lo hi None) ->
  gen_item bf H sfx op var e d lv off = do '(code, n) <- gen_integer bf H op e d lv off; Ok (code, lv, n).
Proof.
  intros R. destruct d; cbn [gen_item]; unfold isComplexType; rewrite R; reflexivity.
Qed.

Lemma field_mid k x pre post : ~ In k (map fst pre) -> field k (pre ++ (k, x) :: post) = Some x.
Proof.
  induction pre as [|[j y] pre IH]; intros N; cbn [app field].
  - rewrite str_eqb_refl. reflexivity.
  - cbn [map fst In] in N. rewrite (proj2 (str_eqb_neq j k)) by tauto. apply IH. tauto.
Qed.
Lemma set_mid k x y pre post : ~ In k (map fst pre) -> set_field k y (pre ++ (k, x) :: post) = pre ++ (k, y) :: post.
Proof.
  induction pre as [|[j z] pre IH]; intros N; cbn [app set_field].
  - rewrite str_eqb_refl. reflexivity.
  - cbn [map fst In] in N. rewrite (proj2 (str_eqb_neq j k)) by tauto. f_equal. apply IH. tauto.
Qed.
Lemma loaded_keys ms : forall s fs b, shapes s ms fs -> map fst (loadeds ms fs b) = map fst fs.
Proof.
  induction ms as [|[nm t] ms IH]; intros s [|[k x] fs] b C; cbn [shapes] in C; try contradiction; [reflexivity|].
  destruct C as (-> & _ & C). cbn [loadeds map fst]. f_equal. exact (IH s fs _ C).
Qed.
Lemma shapes_keys ms : forall s fs, shapes s ms fs -> map fst fs = map (fun nm => nm ++ s) (map fst ms).
Proof.
  induction ms as [|[nm t] ms IH]; intros s [|[k x] fs] C; cbn [shapes] in C; try contradiction; [reflexivity|].
  destruct C as (-> & _ & C). cbn [map fst]. f_equal. exact (IH s fs C).
Qed.

(** The members of a record: [pre] are the fields before them. *)
Definition packs_members (ptr : bool) (lw : option looptype) (s : str) (code : list cstmt) (ms : list (str * ty)) (ns : list str) : Prop :=
  forall m a pre fs, get (m_val m) (names ns) 0 = Some (CStruct (pre ++ fs)) -> shapes s ms fs ->
  NoDup (map fst (pre ++ fs)) -> m_p m = Some a -> 0 <= a -> a + mlen ms <= len (m_buf m) ->
  exists i, steps ptr lw code m = Some (after m (over (m_buf m) a (images ms fs)) (Some (a + mlen ms)) i (m_val m) (mlen ms)).
Definition unpacks_members (ptr : bool) (lw : option looptype) (s : str) (code : list cstmt) (ms : list (str * ty)) (ns : list str) : Prop :=
  forall m a pre fs, get (m_val m) (names ns) 0 = Some (CStruct (pre ++ fs)) -> shapes s ms fs ->
  NoDup (map fst (pre ++ fs)) -> m_p m = Some a -> 0 <= a -> a + mlen ms <= len (m_buf m) -> bytes_ok (m_buf m) ->
  exists i v' k, put (m_val m) (names ns) 0 (CStruct (pre ++ loadeds ms fs (cut (m_buf m) a (mlen ms)))) = Some v' /\
    0 <= k <= mlen ms /\
    steps ptr lw code m = Some (after m (m_buf m) (Some (a + mlen ms)) i v' k).
Definition works_members (op : dir) := match op with Pack => packs_members | Unpack => unpacks_members end.

Lemma works_rec op ptr lw s code ms ns : NoDup (map fst ms) ->
  works_members op ptr lw s code ms ns -> works op ptr lw s code (TRec ms) ns.
Proof.
  intros ND W. assert (KEYS : forall fs, shapes s ms fs -> NoDup (map fst ([] ++ fs))).
  { intros fs C. cbn [app]. rewrite (shapes_keys _ _ _ C). clear -ND.
    apply FinFun.Injective_map_NoDup; [|exact ND]. intros x y E. exact (app_inv_tail _ _ _ E). }
  destruct op; cbn [works works_members] in *.
  - intros m a [| |fs] G C P A L; try contradiction. exact (W m a [] fs G C (KEYS fs C) P A L).
  - intros m a [| |fs] G C P A L B; try contradiction. exact (W m a [] fs G C (KEYS fs C) P A L B).
Qed.

Lemma works_int op ptr lw s e k ns : small k -> obj ptr e = Some (names ns) -> works op ptr lw s (int_code op e k) (TInt k) ns.
Proof.
  intros S O. destruct op; cbn [works].
  - intros m a [z| |] G C P A L; try contradiction. exists (m_i m). cbn [image tlen].
    apply pack_int; auto. exact (number_field _ _ _ _ _ O G).
  - intros m a [z| |] G C P A L B; try contradiction. cbn [loaded tlen] in *.
    destruct (put_some ns (m_val m) 0 (CInt (int_val k (cut (m_buf m) a (Z.of_nat (width k))))) _ G) as [v' V].
    exists (m_i m), v', (Z.of_nat (width k)). split; [exact V|]. split; [lia|].
    apply (unpack_int ptr lw e k m a (names ns) z v'); auto.
    + rewrite (get_names _ _ _ 0). exact G.
    + rewrite (put_index _ _ _ 0). exact V.
Qed.

Lemma works_arr op ptr w s e k n ns : small k -> pointee ptr e = Some (names ns) -> 0 <= n < loop_limit w ->
  works op ptr (Some w) s [SFor n (int_code op (EIdx e) k)] (TArr k n) ns.
Proof.
  intros S O N. destruct op; cbn [works].
  - intros m a [|l|] G C P A L; try contradiction. destruct C as [LL _]. exists n. cbn [image tlen] in *. cbn [steps].
    rewrite exec_for. replace (Z.to_nat n) with (length l) by (unfold len in LL; lia).
    rewrite (pack_turns ptr (Some w) w e k ns n S O (proj2 N) l [] (with_i m 0) a); cbn [with_i m_val m_i m_p m_buf]; auto.
    + cbn [obind]. rewrite with_i_after, after_after. rewrite LL. reflexivity.
    + rewrite LL. lia.
  - intros m a [|l|] G C P A L B; try contradiction. destruct C as [LL _]. cbn [loaded tlen] in *.
    destruct (unpack_turns ptr (Some w) w e k ns n S O (proj2 N) l [] (with_i m 0) a) as (v' & V & T); cbn [with_i m_val m_i m_p m_buf]; auto.
    { rewrite LL. lia. }
    cbn [with_i m_val m_buf app] in V, T. rewrite LL in V, T.
    exists n, v', (Z.of_nat (width k) * n). replace (Z.to_nat n) with (length l) by (unfold len in LL; lia).
    split; [exact V|]. split; [nia|]. cbn [steps].
    rewrite exec_for. replace (Z.to_nat n) with (length l) by (unfold len in LL; lia). rewrite T. cbn [obind].
    reflexivity.
Qed.

Definition text_code (op : dir) (e : cexpr) (n : Z) : list cstmt :=
  match op with
  | Pack => [SCopyTo AP e (n - 1); SNul AP (n - 1)]
  | Unpack => [SCopyFrom e AP (n - 1)]
  end ++ [SAddN n].
Lemma works_str op ptr lw s e n ns : 1 <= n -> pointee ptr e = Some (names ns) ->
  works op ptr lw s (text_code op e n) (TStr n) ns.
Proof.
  intros N O. destruct op; cbn [works text_code].
  - intros m a [|l|] G C P A L; try contradiction. destruct C as [LL _]. exists (m_i m). cbn [image tlen] in *.
    unfold text_code. rewrite steps_app.
    rewrite (pack_text ptr lw e ns n l m a N O G LL A L AP P) by (intros; exact P). cbn [obind steps exec].
    rewrite (move_ok _ a).
    + cbn [obind]. rewrite after_after. cbn [after m_buf m_i m_val]. rewrite Z.add_0_r. reflexivity.
    + exact P.
    + lia.
    + cbn [after m_buf]. rewrite over_len; [lia|exact A|]. rewrite len_app, len_firstn. unfold len in *. cbn [length]. lia.
  - intros m a [|l|] G C P A L B; try contradiction. destruct C as [LL _]. cbn [loaded tlen] in *.
    destruct (unpack_text ptr lw e ns n l m a AP N O G LL A L P) as (v' & V & T).
    exists (m_i m), v', (n - 1). split; [exact V|]. split; [lia|].
    unfold text_code. rewrite steps_app, T. cbn [obind steps exec]. rewrite (move_ok _ a); [|exact P|lia|exact L].
    cbn [obind]. rewrite after_after. cbn [after m_buf m_i m_val]. rewrite Z.add_0_r. reflexivity.
Qed.

(** A member and the members behind it. *)
Lemma works_cons op ptr lw s c1 c2 nm t ms ns :
  0 <= tlen t -> 0 <= mlen ms -> (forall c, shape [] t c -> len (image t c) = tlen t) ->
  (forall fs, shapes s ms fs -> len (images ms fs) = mlen ms) ->
  works op ptr lw [] c1 t (ns ++ [nm ++ s]) -> works_members op ptr lw s c2 ms ns ->
  works_members op ptr lw s (c1 ++ c2) ((nm, t) :: ms) ns.
Proof.
  intros T0 M0 IL ILS W1 W2.
  assert (ND' : forall pre (k : str) (x : cval) fs, NoDup (map fst (pre ++ (k, x) :: fs)) -> ~ In k (map fst pre)).
  { intros pre k x fs ND. rewrite map_app in ND. cbn [map fst] in ND. apply NoDup_remove_2 in ND.
    intros I. apply ND, in_or_app. left. exact I. }
  destruct op; cbn [works works_members] in *.
  - intros m a pre [|[k x] fs] G C ND P A L; cbn [shapes] in C; [contradiction|]. destruct C as (-> & C1 & C2).
    rewrite mlen_cons in *.
    assert (G1 : get (m_val m) (names (ns ++ [nm ++ s])) 0 = Some x).
    { rewrite names_app, get_app, G. cbn [obind names map get]. rewrite field_mid by (eapply ND'; exact ND). reflexivity. }
    destruct (W1 m a x G1 C1 P A) as [i1 E1]; [lia|].
    rewrite steps_app, E1. cbn [obind].
    destruct (W2 (after m (over (m_buf m) a (image t x)) (Some (a + tlen t)) i1 (m_val m) (tlen t)) (a + tlen t)
                (pre ++ [(nm ++ s, x)]) fs) as [i2 E2].
    + cbn [after m_val]. rewrite <- app_assoc. exact G.
    + exact C2.
    + rewrite <- app_assoc. exact ND.
    + reflexivity.
    + lia.
    + cbn [after m_buf]. rewrite over_len by (rewrite ?(IL _ C1); lia). lia.
    + exists i2. rewrite E2, after_after. cbn [after m_buf m_val]. f_equal. f_equal; try lia.
      * cbn [images]. rewrite <- (IL _ C1) at 1. apply over_app; [exact A|]. rewrite (IL _ C1), (ILS _ C2). lia.
      * f_equal. lia.
  - intros m a pre [|[k x] fs] G C ND P A L B; cbn [shapes] in C; [contradiction|]. destruct C as (-> & C1 & C2).
    rewrite mlen_cons in *.
    assert (G1 : get (m_val m) (names (ns ++ [nm ++ s])) 0 = Some x).
    { rewrite names_app, get_app, G. cbn [obind names map get]. rewrite field_mid by (eapply ND'; exact ND). reflexivity. }
    destruct (W1 m a x G1 C1 P A) as (i1 & v1 & k1 & V1 & K1 & E1); [lia|exact B|].
    rewrite steps_app, E1. cbn [obind].
    set (x1 := loaded t x (cut (m_buf m) a (tlen t))) in *.
    assert (V1' : put (m_val m) (names ns) 0 (CStruct (pre ++ (nm ++ s, x1) :: fs)) = Some v1).
    { rewrite names_app, put_app, G in V1. cbn [obind names map put] in V1.
      rewrite field_mid in V1 by (eapply ND'; exact ND). cbn [obind] in V1.
      rewrite set_mid in V1 by (eapply ND'; exact ND). exact V1. }
    destruct (W2 (after m (m_buf m) (Some (a + tlen t)) i1 v1 k1) (a + tlen t)
                (pre ++ [(nm ++ s, x1)]) fs) as (i2 & v2 & k2 & V2 & K2 & E2).
    + cbn [after m_val]. rewrite <- app_assoc. exact (put_get _ _ _ _ _ V1').
    + exact C2.
    + rewrite map_app in ND |- *. rewrite map_app, <- app_assoc. exact ND.
    + reflexivity.
    + lia.
    + cbn [after m_buf]. lia.
    + exact B.
    + exists i2, v2, (k1 + k2). split; [|split; [lia|]].
      * cbn [after m_val m_buf] in V2. rewrite (put_put _ _ _ _ _ _ _ V1'), <- app_assoc in V2. cbn [app] in V2.
        rewrite <- V2. f_equal. f_equal. f_equal. cbn [loadeds]. rewrite cut_first, cut_rest by lia. reflexivity.
      * rewrite E2, after_after. cbn [after m_buf]. f_equal. f_equal. f_equal. lia.
Qed.

Lemma works_members_nil op ptr lw s ns : works_members op ptr lw s [] [] ns.
Proof.
  destruct op; cbn [works_members].
  - intros m a pre [|] G C ND P A L; [|contradiction]. exists (m_i m). cbn [steps images]. rewrite mlen_nil in *.
    rewrite over_nil by lia. rewrite Z.add_0_r, <- P, after_none. reflexivity.
  - intros m a pre [|] G C ND P A L B; [|contradiction]. exists (m_i m), (m_val m), 0. cbn [steps loadeds]. rewrite mlen_nil in *.
    split; [apply put_same, G|]. split; [lia|]. rewrite Z.add_0_r, <- P, after_none. reflexivity.
Qed.

(** Generation and execution of members. *)
Lemma gen_item_works bf H sfx op :
  (forall d t, cable H d t -> forall e lv off, lv_ptr lv = true ->
     exists code lv', gen_item bf H sfx op None e d lv off = Ok (code, lv', tlen t) /\
       lv_ptr lv' = true /\ le_loop (lv_loop lv) (lv_loop lv') /\
       forall ptr lw ns, le_loop (lv_loop lv') lw -> named_by ptr e ns -> works op ptr lw [] code t ns) /\
  (forall es ms, cables H es ms -> forall var e lv off, lv_ptr lv = true ->
     exists code lv', gen_members bf H sfx op var e es lv off = Ok (code, lv', mlen ms) /\
       lv_ptr lv' = true /\ le_loop (lv_loop lv) (lv_loop lv') /\
       forall ptr lw s ns, le_loop (lv_loop lv') lw ->
         (forall nm, named_by ptr (member_expr sfx var e (Some nm)) (ns ++ [nm ++ s])) ->
         works_members op ptr lw s code ms ns).
Proof.
  apply cable_cables_ind.
  - intros nm c lo hi k K S e lv off P. exists (int_code op e k), lv.
    assert (R : resolve_data_element H (DPrim nm c lo hi None) = Ok (DPrim nm c lo hi None)) by reflexivity.
    rewrite (gen_item_num _ _ _ _ _ _ _ _ _ _ _ _ _ R). rewrite (gen_integer_ptr _ _ _ _ _ _ _ _ _ _ _ _ _ R K S P).
    split; [reflexivity|]. split; [exact P|]. split; [apply le_loop_refl|].
    intros ptr lw ns _ [O _]. apply works_int; assumption.
  - intros nm c lo hi k n K S N e lv off P. rewrite (gen_item_arr _ _ _ _ _ _ _ _ _ _ _ _ _ _ K S).
    eexists _, _. split; [reflexivity|]. split; [reflexivity|]. cbn [lv_loop]. split; [apply widen_old|].
    intros ptr lw ns (w & -> & L) [_ O]. apply works_arr; [exact S|exact O|].
    pose proof (loop_type_limit n (proj2 N)). pose proof (widen_new (lv_loop lv) (loop_type n)). lia.
  - intros nm lo hi n N e lv off P. rewrite gen_item_str. unfold gen_string. rewrite P. cbn [bind].
    exists (text_code op e n), lv. split; [destruct op; reflexivity|]. split; [exact P|]. split; [apply le_loop_refl|].
    intros ptr lw ns _ [_ O]. apply works_str; assumption.
  - intros nm es ms ND CS IH e lv off P. rewrite gen_item_rec.
    destruct (IH None e (mk_lvars true (lv_loop lv)) off eq_refl) as (code & lv' & G & P' & L & W).
    exists code, lv'. split; [exact G|]. split; [exact P'|]. split; [exact L|].
    intros ptr lw ns LW [O O']. apply works_rec; [exact ND|]. apply W; [exact LW|].
    intros x. rewrite app_nil_r. unfold named_by. cbn [member_expr opt_text obj pointee]. rewrite O, names_app. split; reflexivity.
  - intros nm r nm' c lo hi k R K S e lv off P. exists (int_code op e k), lv.
    rewrite (gen_item_num _ _ _ _ _ _ _ _ _ _ _ _ _ R). rewrite (gen_integer_ptr _ _ _ _ _ _ _ _ _ _ _ _ _ R K S P).
    split; [reflexivity|]. split; [exact P|]. split; [apply le_loop_refl|].
    intros ptr lw ns _ [O _]. apply works_int; assumption.
  - intros var e lv off P. exists [], lv. split; [reflexivity|]. split; [exact P|]. split; [apply le_loop_refl|].
    intros ptr lw s ns _ _. apply works_members_nil.
  - intros e0 es nm t ms E C IH CS IHS var e lv off P.
    destruct (IH (member_expr sfx var e (Some nm)) lv off P) as (c1 & lv1 & G1 & P1 & L1 & W1).
    destruct (IHS var e lv1 (off + tlen t) P1) as (c2 & lv2 & G2 & P2 & L2 & W2).
    exists (c1 ++ c2), lv2. split.
    { cbn [gen_members]. rewrite E, G1. cbn [bind]. fold (gen_members bf H sfx op var e). rewrite G2. cbn [bind]. rewrite mlen_cons. reflexivity. }
    split; [exact P2|]. split; [exact (le_loop_trans _ _ _ L1 L2)|].
    intros ptr lw s ns LW O.
    destruct (proj1 (image_lens H) _ _ C) as [T0 IL]. destruct (proj2 (image_lens H) _ _ CS) as [M0 ILS].
    apply works_cons; auto.
    + intros c SH. exact (IL [] c SH).
    + intros fs SH. exact (ILS s fs SH).
    + apply W1; [exact (le_loop_trans _ _ _ L2 LW)|apply O].
Qed.

(** ** Whole functions *)

(** Whether a value is passed by reference. *)
Definition by_ref (t : ty) : bool := match t with TInt _ => false | _ => true end.

Lemma gen_integer_abs H op e d off nm c lo hi al k : resolve_data_element H d = Ok (DPrim nm c lo hi al) ->
  kind_of c = Some k -> small k ->
  gen_integer true H op e d (mk_lvars false None) off =
  Ok (if Z.of_nat (width k) =? 1 then
        [match op with Pack => SStore (AOff off) e | Unpack => SLoad (EDeref e) (kind_base k) (AOff off) end]
      else
        [match op with Pack => SPack (AOff off) e (kind_base k) | Unpack => SUnpack (EDeref e) (kind_base k) (AOff off) end],
      Z.of_nat (width k)).
Proof.
  intros R K S. unfold gen_integer. rewrite R. cbn [bind]. rewrite (base_of_kind _ _ _ _ _ _ K S). reflexivity.
Qed.

Lemma pack_scalar lw off k z m : small k -> m_val m = CInt z -> 0 <= off -> off + Z.of_nat (width k) <= len (m_buf m) ->
  steps false lw (if Z.of_nat (width k) =? 1 then [SStore (AOff off) EVal] else [SPack (AOff off) EVal (kind_base k)]) m =
  Some (after m (over (m_buf m) off (num_le (width k) z)) (m_p m) (m_i m) (m_val m) (Z.of_nat (width k))).
Proof.
  intros S V A L. assert (N : number false m EVal = Some z) by (unfold number; cbn [obj obind get]; rewrite V; reflexivity).
  destruct (Z.of_nat (width k) =? 1) eqn:W; cbn [steps exec address obind]; rewrite N; cbn [obind].
  - assert (WW : width k = 1%nat) by lia. rewrite WW in *.
    rewrite wr_ok by (rewrite ?len_cons, ?len_nil; lia). reflexivity.
  - rewrite base_size_kind by exact S. pose proof (width_small k S).
    replace (2 ^ 32) with (2 ^ (8 * Z.of_nat 4)) by reflexivity. rewrite num_le_mod by lia.
    rewrite wr_ok by (rewrite ?num_le_len; lia). cbn [obind]. rewrite num_le_len. reflexivity.
Qed.
Lemma unpack_scalar lw off k z m : small k -> m_val m = CInt z -> 0 <= off -> off + Z.of_nat (width k) <= len (m_buf m) ->
  bytes_ok (m_buf m) ->
  steps true lw (if Z.of_nat (width k) =? 1 then [SLoad (EDeref EVal) (kind_base k) (AOff off)]
                 else [SUnpack (EDeref EVal) (kind_base k) (AOff off)]) m =
  Some (after m (m_buf m) (m_p m) (m_i m) (CInt (int_val k (cut (m_buf m) off (Z.of_nat (width k))))) (Z.of_nat (width k))).
Proof.
  intros S V A L B. pose proof (width_pos k) as WP.
  assert (AS : forall w, w = Z.of_nat (width k) ->
    assign true (touch m w) (EDeref EVal) (cast (kind_base k) (num_val (cut (m_buf m) off w))) =
    Some (after m (m_buf m) (m_p m) (m_i m) (CInt (int_val k (cut (m_buf m) off (Z.of_nat (width k))))) w)).
  { intros w ->. rewrite cast_int; [|exact S|apply cut_ok, B|apply cut_len; lia].
    unfold assign. cbn [obj obind get put touch m_val m_i]. rewrite V. reflexivity. }
  destruct (Z.of_nat (width k) =? 1) eqn:W; cbn [steps exec address obind].
  - rewrite rd_ok by lia. cbn [obind]. rewrite AS by lia. cbn [obind]. replace (Z.of_nat (width k)) with 1 by lia. reflexivity.
  - rewrite base_size_kind by exact S. rewrite rd_ok by lia. cbn [obind]. rewrite AS by lia. reflexivity.
Qed.

Ltac start_func := unfold gen_func; cbn [bind lv_ptr lv_loop app].

Lemma write_func H sfx d t off direct : cable H d t ->
  exists body, gen_func true H sfx Pack (by_ref t) d off direct = Ok (body, tlen t) /\
  forall buf c, shape sfx t c -> 0 <= off -> off + tlen t <= len buf ->
  exists m, run (by_ref t) false None body (mk_mem buf None 0 c false 0 []) = Some m /\
    m_buf m = over buf off (image t c) /\ m_val m = c /\ m_lock m = false /\ m_bare m = 0 /\
    m_out m = [(off, tlen t, direct)].
Proof.
  intros C.
  assert (NUM : forall k, t = TInt k -> small k -> forall nm c lo hi, resolve_data_element H d = Ok (DPrim nm c lo hi None) ->
    kind_of c = Some k -> exists body, gen_func true H sfx Pack (by_ref t) d off direct = Ok (body, tlen t) /\
    forall buf c, shape sfx t c -> 0 <= off -> off + tlen t <= len buf ->
    exists m, run (by_ref t) false None body (mk_mem buf None 0 c false 0 []) = Some m /\
    m_buf m = over buf off (image t c) /\ m_val m = c /\ m_lock m = false /\ m_bare m = 0 /\
    m_out m = [(off, tlen t, direct)]).
  { intros k -> S nm c lo hi R K. cbn [by_ref tlen]. unfold gen_func.
    rewrite (gen_item_num _ _ _ _ _ _ _ _ _ _ _ _ _ R), (gen_integer_abs H Pack EVal d off _ _ _ _ _ k R K S).
    cbn [bind lv_ptr lv_loop app]. eexists. split; [reflexivity|].
    intros buf [z| |] SH A L; cbn [shape] in SH; try contradiction. cbn [run m_lock].
    rewrite run_code. rewrite (pack_scalar None off k z) by (cbn [with_locked m_val m_buf]; auto). cbn [obind run m_lock after with_locked m_buf m_p m_i m_val m_bare m_out].
    eexists. split; [reflexivity|]. cbn. auto. }
  destruct C as [nm c lo hi k K S|nm c lo hi k n K S N|nm lo hi n N|nm es ms ND CS|nm r nm' c lo hi k R K S].
  - apply (NUM k eq_refl S nm c lo hi eq_refl K).
  - cbn [by_ref tlen]. unfold gen_func. rewrite (gen_item_arr _ _ _ _ _ _ _ _ _ _ _ _ _ _ K S).
    cbn [bind lv_ptr lv_loop app widen]. eexists. split; [reflexivity|].
    intros buf c' SH A L. cbn [run m_lock]. cbn [with_locked m_buf m_p m_i m_val m_bare m_out andb].
    replace ((0 <=? off) && (off <=? len buf)) with true by (pose proof (width_pos k); nia).
    cbn [obind with_p m_buf m_p m_i m_val m_lock m_bare m_out].
    destruct (works_arr Pack true (loop_type n) sfx EVal k n [] S eq_refl (conj (proj1 N) (loop_type_limit n (proj2 N)))
                (mk_mem buf (Some off) 0 c' true 0 []) off c' eq_refl SH eq_refl A L) as [i E].
    rewrite run_code. unfold with_p, with_locked. cbn [m_buf m_p m_i m_val m_lock m_bare m_out].
    rewrite E. cbn [obind run after m_lock]. eexists. split; [reflexivity|]. cbn. auto.
  - cbn [by_ref tlen]. unfold gen_func. rewrite gen_item_str. unfold gen_string. cbn [negb bind lv_ptr lv_loop app]. eexists. split; [reflexivity|].
    intros buf [|l|] SH A L; cbn [shape] in SH; try contradiction. destruct SH as [LL _]. cbn [run m_lock].
    pose proof (pack_text true None EVal [] n l (mk_mem buf None 0 (CArr l) true 0 []) off N eq_refl eq_refl LL A L (AOff off) eq_refl (fun _ _ _ _ => eq_refl)) as E.
    rewrite run_code. unfold with_locked. cbn [m_buf m_p m_i m_val m_bare m_out]. rewrite E. cbn [obind run after m_lock].
    eexists. split; [reflexivity|]. cbn. auto.
  - destruct (proj2 (gen_item_works true H sfx Pack) _ _ CS (Some true) EVal (mk_lvars true None) off eq_refl)
      as (code & lv' & G & P' & _ & W).
    cbn [by_ref]. change (tlen (TRec ms)) with (mlen ms). unfold gen_func. rewrite gen_item_rec. cbn [lv_loop]. rewrite G.
    cbn [bind]. rewrite P'. cbn [bind]. eexists. split; [reflexivity|].
    intros buf c SH A L. pose proof (proj1 (proj2 (image_lens H) _ _ CS)) as M0.
    assert (W' : works Pack true (lv_loop lv') sfx code (TRec ms) []).
    { apply works_rec; [exact ND|]. apply W; [apply le_loop_refl|]. intros nm'. split; reflexivity. }
    destruct (W' (mk_mem buf (Some off) 0 c true 0 []) off c eq_refl SH eq_refl A L) as [i E].
    assert (E' : run true true (lv_loop lv') (FLockOut :: FStart off :: map FCode code ++ [FNotify off (mlen ms) direct])
              (mk_mem buf None 0 c false 0 []) =
              Some (notified (after (mk_mem buf (Some off) 0 c true 0 []) (over buf off (image (TRec ms) c)) (Some (off + mlen ms)) i c (mlen ms)) (off, mlen ms, direct))).
    { cbn [run m_lock with_locked m_buf m_p m_i m_val m_bare m_out andb].
      replace ((0 <=? off) && (off <=? len buf)) with true by lia.
      unfold with_p, with_locked. cbn [m_buf m_p m_i m_val m_lock m_bare m_out]. rewrite run_code, E. reflexivity. }
    exists (notified (after (mk_mem buf (Some off) 0 c true 0 []) (over buf off (image (TRec ms) c)) (Some (off + mlen ms)) i c (mlen ms)) (off, mlen ms, direct)).
    split; [|cbn; auto]. destruct (lv_loop lv'); exact E'.
  - apply (NUM k eq_refl S nm' c lo hi R K).
Qed.

Lemma read_func H sfx d t off : cable H d t ->
  exists body, gen_func true H sfx Unpack true d off false = Ok (body, tlen t) /\
  forall buf old, bytes_ok buf -> shape sfx t old -> 0 <= off -> off + tlen t <= len buf ->
  exists m, run true false None body (mk_mem buf None 0 old false 0 []) = Some m /\
    m_buf m = buf /\ m_val m = loaded t old (cut buf off (tlen t)) /\ m_lock m = false /\ m_bare m <= 1 /\
    m_out m = [].
Proof.
  intros C.
  assert (NUM : forall k, t = TInt k -> small k -> forall nm c lo hi, resolve_data_element H d = Ok (DPrim nm c lo hi None) ->
    kind_of c = Some k -> exists body, gen_func true H sfx Unpack true d off false = Ok (body, tlen t) /\
    forall buf old, bytes_ok buf -> shape sfx t old -> 0 <= off -> off + tlen t <= len buf ->
    exists m, run true false None body (mk_mem buf None 0 old false 0 []) = Some m /\
    m_buf m = buf /\ m_val m = loaded t old (cut buf off (tlen t)) /\ m_lock m = false /\ m_bare m <= 1 /\
    m_out m = []).
  { intros k -> S nm c lo hi R K. cbn [tlen]. unfold gen_func.
    rewrite (gen_item_num _ _ _ _ _ _ _ _ _ _ _ _ _ R), (gen_integer_abs H Unpack EVal d off _ _ _ _ _ k R K S).
    cbn [bind lv_ptr lv_loop app]. eexists. split; [reflexivity|].
    intros buf [z| |] B SH A L; cbn [shape] in SH; try contradiction. destruct (1 <? Z.of_nat (width k)) eqn:M.
    - cbn [app run m_lock]. rewrite run_code. rewrite (unpack_scalar None off k z) by (cbn [with_locked m_val m_buf]; auto).
      cbn [obind run m_lock after with_locked m_buf m_p m_i m_val m_bare m_out].
      eexists. split; [reflexivity|]. unfold with_locked. cbn [m_buf m_val m_lock m_bare m_out loaded]. repeat split; cbn [after m_bare m_lock]; lia.
    - cbn [app]. rewrite run_code. rewrite (unpack_scalar None off k z) by (cbn [m_val m_buf]; auto).
      cbn [obind run after m_lock m_buf m_p m_i m_val m_bare m_out]. eexists. split; [reflexivity|].
      cbn [m_buf m_val m_lock m_bare m_out loaded]. repeat split; cbn [after m_bare m_lock]; lia. }
  (* all others start the same way *)
  assert (PTR : forall code lv', lv_ptr lv' = true -> 0 <= tlen t -> works Unpack true (lv_loop lv') sfx code t [] ->
    forall buf old, bytes_ok buf -> shape sfx t old -> 0 <= off -> off + tlen t <= len buf ->
    exists m, run true false None
      ([FPtr] ++ (match lv_loop lv' with Some w => [FLoop w] | None => [] end) ++ (if 1 <? tlen t then [FLockIn] else []) ++
       [FStart off] ++ map FCode code ++ (if 1 <? tlen t then [FUnlockIn] else [])) (mk_mem buf None 0 old false 0 []) = Some m /\
    m_buf m = buf /\ m_val m = loaded t old (cut buf off (tlen t)) /\ m_lock m = false /\ m_bare m <= 1 /\
    m_out m = []).
  { intros code lv' P' T0 W buf old B SH A L.
    set (lk := 1 <? tlen t).
    destruct (W (mk_mem buf (Some off) 0 old lk 0 []) off old eq_refl SH eq_refl A L B) as (i & v' & k & V & KK & E).
    cbn [names map put m_val m_buf] in V. injection V as <-.
    exists (mk_mem buf (Some (off + tlen t)) i (loaded t old (cut buf off (tlen t))) false (if lk then 0 else 0 + k) []).
    split.
    - assert (R : run true true (lv_loop lv') ((if lk then [FLockIn] else []) ++ [FStart off] ++ map FCode code ++ (if lk then [FUnlockIn] else []))
        (mk_mem buf None 0 old false 0 []) = Some (mk_mem buf (Some (off + tlen t)) i (loaded t old (cut buf off (tlen t))) false (if lk then 0 else 0 + k) [])).
      { destruct lk; cbn [app run m_lock with_locked m_buf m_p m_i m_val m_bare m_out andb];
          (replace ((0 <=? off) && (off <=? len buf)) with true by lia);
          unfold with_p, with_locked; cbn [m_buf m_p m_i m_val m_lock m_bare m_out]; rewrite run_code, E;
          cbn [obind run after m_lock with_locked m_buf m_p m_i m_val m_bare m_out]; reflexivity. }
      destruct (lv_loop lv'); exact R.
    - cbn [m_buf m_val m_lock m_bare m_out]. repeat split. destruct lk eqn:LK; unfold lk in LK; lia. }
  destruct C as [nm c lo hi k K S|nm c lo hi k n K S N|nm lo hi n N|nm es ms ND CS|nm r nm' c lo hi k R K S].
  - apply (NUM k eq_refl S nm c lo hi eq_refl K).
  - unfold gen_func. rewrite (gen_item_arr _ _ _ _ _ _ _ _ _ _ _ _ _ _ K S).
    cbn [bind lv_ptr lv_loop widen]. eexists. split; [reflexivity|].
    apply (PTR _ (mk_lvars true (Some (loop_type n))) eq_refl); [cbn [tlen]; pose proof (width_pos k); nia|].
    apply works_arr; [exact S|reflexivity|]. exact (conj (proj1 N) (loop_type_limit n (proj2 N))).
  - cbn [tlen]. unfold gen_func. rewrite gen_item_str. unfold gen_string. cbn [negb bind lv_ptr lv_loop app]. eexists. split; [reflexivity|].
    intros buf [|l|] B SH A L; cbn [shape] in SH; try contradiction. destruct SH as [LL _].
    destruct (unpack_text true None EVal [] n l (mk_mem buf None 0 (CArr l) (1 <? n) 0 []) off (AOff off) N eq_refl eq_refl LL A L eq_refl) as (v' & V & E).
    cbn [names map put m_val m_buf] in V. injection V as <-.
    destruct (1 <? n) eqn:M.
    + cbn [app run m_lock]. change (FCode (SCopyFrom EVal (AOff off) (n - 1)) :: [FUnlockIn]) with (map FCode [SCopyFrom EVal (AOff off) (n - 1)] ++ [FUnlockIn]).
      unfold with_locked. cbn [m_buf m_p m_i m_val m_bare m_out]. rewrite run_code, E. cbn [obind run after m_lock m_buf m_p m_i m_val m_bare m_out].
      eexists. split; [reflexivity|]. unfold with_locked. cbn [m_buf m_val m_lock m_bare m_out loaded]. repeat split; cbn [after m_bare m_lock]; lia.
    + cbn [app]. change ([FCode (SCopyFrom EVal (AOff off) (n - 1))]) with (map FCode [SCopyFrom EVal (AOff off) (n - 1)] ++ []).
      rewrite run_code, E. cbn [obind run after m_lock m_buf m_p m_i m_val m_bare m_out].
      eexists. split; [reflexivity|]. unfold with_locked. cbn [m_buf m_val m_lock m_bare m_out loaded]. repeat split; cbn [after m_bare m_lock]; lia.
  - destruct (proj2 (gen_item_works true H sfx Unpack) _ _ CS (Some true) EVal (mk_lvars true None) off eq_refl)
      as (code & lv' & G & P' & _ & W).
    change (tlen (TRec ms)) with (mlen ms). unfold gen_func. rewrite gen_item_rec. cbn [lv_loop]. rewrite G.
    cbn [bind]. rewrite P'. cbn [bind]. eexists. split; [reflexivity|].
    apply (PTR code lv' P' (proj1 (proj2 (image_lens H) _ _ CS))).
    apply works_rec; [exact ND|]. apply W; [apply le_loop_refl|]. intros nm'. split; reflexivity.
  - apply (NUM k eq_refl S nm' c lo hi R K).
Qed.
