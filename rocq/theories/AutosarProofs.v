(** Lemmas about the import of AUTOSAR constants and types. *)
From Coq Require Import ZifyBool ZifyNat Lia.
From Verif Require Import Py PyLemmas TypesModel TextModel SigModel AttrModel NodeModel AutosarModel.
From Verif Require Import TypesSpec SigSpec AttrSpec AutosarSpec TextProofs SigProofs AttrProofs.
Ltac Zify.zify_post_hook ::= Z.div_mod_to_equations.

(** ** Hexadecimal numbers *)

Definition hex_num (s : str) : Z := num_of 16 hex_val s.
Lemma hex_num_app a c : hex_num (a ++ [c]) = 16 * hex_num a + hex_val c.
Proof. unfold hex_num, num_of. rewrite fold_left_app. reflexivity. Qed.
Lemma hex_char_ok d : 0 <= d < 16 -> is_hex (hex_char d) = true /\ hex_val (hex_char d) = d.
Proof. intros D. unfold is_hex, hex_val, hex_char, is_digit. destruct (d <? 10) eqn:E; split; ite; lia. Qed.

Lemma hex_loop_spec : forall fuel n acc, 0 <= n < 16 ^ Z.of_nat fuel -> (0 < fuel)%nat ->
  exists ds, hex_loop fuel n acc = ds ++ acc /\ ds <> [] /\ all is_hex ds /\ hex_num ds = n.
Proof.
  induction fuel as [|k IH]; intros n acc N F; [lia|]. cbn [hex_loop].
  destruct (n <? 16) eqn:T.
  - destruct (hex_char_ok n ltac:(lia)) as [X V]. exists [hex_char n]. split; [reflexivity|]. split; [discriminate|].
    split; [constructor; [exact X|constructor]|]. unfold hex_num, num_of. cbn [fold_left]. lia.
  - assert (16 ^ Z.of_nat (S k) = 16 * 16 ^ Z.of_nat k) as P.
    { rewrite Nat2Z.inj_succ, Z.pow_succ_r by lia. reflexivity. }
    rewrite P in N. destruct k as [|k]; [change (16 ^ Z.of_nat 0) with 1 in N; lia|].
    destruct (IH (n / 16) (hex_char (n mod 16) :: acc)) as (ds & E & NE & A & V); [lia|lia|].
    destruct (hex_char_ok (n mod 16) ltac:(lia)) as [X W].
    exists (ds ++ [hex_char (n mod 16)]). rewrite E, <- app_assoc. split; [reflexivity|].
    split; [destruct ds; discriminate|]. split.
    + apply all_app. split; [exact A|]. constructor; [exact X|constructor].
    + rewrite hex_num_app, V, W. lia.
Qed.

Lemma hex_str_spec n : 0 <= n -> hex_str n <> [] /\ all is_hex (hex_str n) /\ hex_num (hex_str n) = n.
Proof.
  intros N. unfold hex_str. destruct (hex_loop_spec (S (Z.to_nat (Z.log2 n))) n []) as (ds & E & NE & A & V).
  - split; [lia|]. pose proof (Z.log2_nonneg n). rewrite Nat2Z.inj_succ, Z2Nat.id by lia.
    destruct (Z.eq_dec n 0) as [->|]; [reflexivity|]. pose proof (Z.log2_spec n ltac:(lia)) as [_ U].
    eapply Z.lt_le_trans; [exact U|]. apply Z.pow_le_mono_l. lia.
  - lia.
  - rewrite E, app_nil_r. destruct ds as [|c [|d ds]]; [congruence| |auto].
    split; [discriminate|]. split; [constructor; [reflexivity|exact A]|].
    unfold hex_num, num_of in *. cbn [fold_left] in *. change (hex_val 48) with 0. lia.
Qed.

Lemma hex_digit_of c : is_hex c = true -> hex_digit c (hex_val c).
Proof.
  unfold is_hex, hex_val. intros E. unfold is_digit in *. destruct ((48 <=? c) && (c <=? 57)) eqn:D; [constructor; lia|].
  cbn [orb] in E. destruct (c <=? 70) eqn:U.
  - replace (c - 55) with (10 + (c - 65)) by lia. apply hd_upper. lia.
  - replace (c - 87) with (10 + (c - 97)) by lia. apply hd_lower. lia.
Qed.

Lemma hex_spells z : 0 <= z -> spells (IVInt z) (lit "0x" ++ hex_str z).
Proof.
  intros Z0. destruct (hex_str_spec z Z0) as (NE & A & V). change (lit "0x" ++ hex_str z) with (48 :: 120 :: hex_str z).
  apply sp_hex. pose proof (numeral_of hex_digit 16 hex_val is_hex hex_digit_of _ A NE) as N.
  fold (hex_num (hex_str z)) in N. rewrite V in N. exact N.
Qed.

(** ** Constants *)

Lemma aconst_ind2 (P : aconst -> Prop) : (forall z, P (KInt z)) -> (forall s, P (KStr s)) ->
  (forall l, Forall P l -> P (KRec l)) -> (forall l, Forall P l -> P (KArr l)) -> P KOther -> forall c, P c.
Proof.
  intros A B C D E. fix IH 1. intros [z|s|l|l|]; [apply A|apply B| | |apply E].
  - apply C. induction l as [|x l IHl]; constructor; auto.
  - apply D. induction l as [|x l IHl]; constructor; auto.
Qed.

Fixpoint derive_list (l : list aconst) : res (list str) :=
  match l with [] => Ok [] | x :: r => do t <- derive_init x; do ts <- derive_list r; Ok (t :: ts) end.
Lemma derive_rec l : derive_init (KRec l) = do ts <- derive_list l; Ok ([123] ++ join [COMMA] ts ++ [125]).
Proof. reflexivity. Qed.
Lemma derive_arr l : derive_init (KArr l) = do ts <- derive_list l; Ok ([123] ++ join [COMMA] ts ++ [125]).
Proof. reflexivity. Qed.

Lemma hex_braced z : 0 <= z -> braced (lit "0x" ++ hex_str z).
Proof.
  intros Z0. destruct (hex_str_spec z Z0) as (_ & A & _). apply paired_braced, paired_none. apply none_app. split.
  - repeat constructor.
  - eapply all_none; [|exact A]. intros c C. unfold is_hex, is_digit in C. lia.
Qed.

Definition derived (c : aconst) : Prop :=
  (writable false (const_value c) -> exists t, derive_init c = Ok t /\ spells (const_value c) t) /\
  (writable true (const_value c) -> exists t, derive_init c = Ok t /\ spells (const_value c) t /\ braced t).

Lemma derive_int z : derived (KInt z).
Proof.
  unfold derived. cbn [derive_init const_value]. destruct (255 <? z) eqn:B; split; intros _; eexists; split; try reflexivity.
  - apply hex_spells. lia.
  - split; [apply hex_spells|apply hex_braced]; lia.
  - apply dec_spells.
  - split; [apply dec_spells|]. apply paired_braced, dec_paired; reflexivity.
Qed.

Lemma derive_items l : Forall derived l ->
  (fix go l := match l with [] => True | x :: r => writable true x /\ go r end) (map const_value l) ->
  exists ts, derive_list l = Ok ts /\ Forall2 spells (map const_value l) ts /\ Forall braced ts.
Proof.
  induction 1 as [|c l [_ D] F IH]; intros W; [exists []; repeat split; constructor|]. destruct W as [W1 W2].
  destruct (D W1) as (t & T & S1 & B). destruct (IH W2) as (ts & Ts & S2 & Bs).
  exists (t :: ts). cbn [derive_list]. rewrite T, Ts. split; [reflexivity|]. cbn [map]. split; constructor; auto.
Qed.

Lemma derive_agg l : Forall derived l -> writable true (IVList (map const_value l)) ->
  exists ts, derive_list l = Ok ts /\ spells (IVList (map const_value l)) ([123] ++ join [COMMA] ts ++ [125]) /\
    braced ([123] ++ join [COMMA] ts ++ [125]).
Proof.
  intros F [NE W]. destruct (derive_items l F W) as (ts & T & S1 & B). exists ts. split; [exact T|].
  pose proof (join_braced _ B) as JB. split.
  - apply sp_list; [apply join_items; auto|exact JB].
  - apply (br_pair _ []); [exact JB|constructor].
Qed.

Lemma derive_all c : derived c.
Proof.
  induction c as [z|s|l F|l F|] using aconst_ind2.
  - apply derive_int.
  - unfold derived. cbn [derive_init const_value]. split; intros [Q B]; eexists; (split; [reflexivity|]); [apply sp_str, Q|].
    split; [apply sp_str, Q|]. apply (br_char QUOTE); try discriminate. apply braced_app; [apply B; reflexivity|].
    apply br_char; try discriminate. constructor.
  - unfold derived. rewrite derive_rec. cbn [const_value]. split; intros W;
      destruct (derive_agg l F W) as (ts & T & S1 & B); rewrite T; eexists; split; try reflexivity; auto.
  - unfold derived. rewrite derive_arr. cbn [const_value]. split; intros W;
      destruct (derive_agg l F W) as (ts & T & S1 & B); rewrite T; eexists; split; try reflexivity; auto.
  - split; contradiction.
Qed.

(** ** Names *)

Lemma strip_RE_short n : short_name n (strip_RE n).
Proof.
  unfold strip_RE. destruct (ends_with (lit "_RE") n) eqn:E.
  - apply ends_with_spec in E as [r ->].
    replace (slice (r ++ lit "_RE") 0 (-3)) with r; [constructor|].
    unfold slice, slice_bound. rewrite len_app. change (len (lit "_RE")) with 3. pose proof (len_nonneg r).
    ite; try lia. rewrite Z.max_r by lia. replace (-3 + (len r + 3)) with (len r) by lia. rewrite Z.min_l by lia.
    change (Z.to_nat 0) with 0%nat. cbn [skipn]. rewrite Z.sub_0_r, to_nat_len, firstn_app, Nat.sub_diag, firstn_all.
    cbn [firstn]. rewrite app_nil_r. reflexivity.
  - constructor. intros p P. enough (ends_with (lit "_RE") n = true) by congruence. apply ends_with_spec. exists p. exact P.
Qed.
Lemma short_quoteless n s : short_name n s -> quoteless n -> quoteless s.
Proof. unfold quoteless. intros [t|t]; auto. intros Q I. apply Q, in_or_app. auto. Qed.

(** ** Integer codes *)

Lemma log2_up_le a k : 0 < a -> 0 <= k -> (Z.log2_up a <=? k) = (a <=? 2 ^ k).
Proof. intros A K. pose proof (Z.log2_up_le_pow2 a k A). lia. Qed.

Definition prim_text (c : tcode) (lim : option (Z * Z)) : str :=
  code_char c :: match lim with Some (lo, hi) => lit "(" ++ dec_str lo ++ lit "," ++ dec_str hi ++ lit ")" | None => [] end.
Definition prim_elem (c : tcode) (lim : option (Z * Z)) : delem :=
  DPrim None c (option_map fst lim) (option_map snd lim) None.

Lemma unsigned_code lo hi : 0 <= lo <= hi -> getIntegerTypeCode lo hi =
  if hi =? 0 then Err ValueError
  else if hi <=? 256 then Ok (Some (prim_text CU8 (if (0 <? lo) || (hi <? 255) then Some (lo, hi) else None)))
  else if hi <=? 65536 then Ok (Some (prim_text CU16 None))
  else if hi <=? 4294967296 then Ok (Some (prim_text CU32 None))
  else if hi <=? 18446744073709551616 then Ok (Some (prim_text CU64 None)) else Ok None.
Proof.
  intros L. unfold getIntegerTypeCode, calcUIntTypeLen. replace (0 <=? lo) with true by lia.
  replace (hi <=? 0) with (hi =? 0) by lia. destruct (hi =? 0) eqn:E; [reflexivity|]. cbn [bind].
  rewrite !log2_up_le by lia. change (2 ^ 8) with 256. change (2 ^ 16) with 65536.
  change (2 ^ 32) with 4294967296. change (2 ^ 64) with 18446744073709551616.
  ite; reflexivity.
Qed.

Lemma signed_code lo hi : lo < 0 -> getIntegerTypeCode lo hi =
  if hi =? 0 then Err ValueError
  else if Z.abs hi <=? 128 then Err AttributeError
  else if Z.abs hi <=? 32768 then Ok (Some (prim_text CS16 None))
  else if Z.abs hi <=? 2147483648 then Ok (Some (prim_text CS32 None))
  else if Z.abs hi <=? 9223372036854775808 then Ok (Some (prim_text CS64 None)) else Ok None.
Proof.
  intros L. unfold getIntegerTypeCode, calcIntTypeLen. replace (0 <=? lo) with false by lia.
  destruct (hi =? 0) eqn:E; [reflexivity|]. cbn [bind].
  assert (forall k, 1 <= k -> (Z.log2_up (Z.abs hi) + 1 <=? k) = (Z.abs hi <=? 2 ^ (k - 1))) as X.
  { intros k K. rewrite <- log2_up_le by lia. lia. }
  rewrite !X by lia. change (2 ^ (8 - 1)) with 128. change (2 ^ (16 - 1)) with 32768.
  change (2 ^ (32 - 1)) with 2147483648. change (2 ^ (64 - 1)) with 9223372036854775808.
  ite; reflexivity.
Qed.

Definition no_types : theap := fun _ => mk_dtype None (DRec None []) None None None.
Lemma prim_string c lim : elem_string false no_types (prim_elem c lim) = Ok (prim_text c lim).
Proof. unfold prim_elem, prim_text. destruct lim as [[lo hi]|]; cbn; rewrite ?app_nil_r; reflexivity. Qed.
Lemma prim_printable c lim : printable false no_types (prim_elem c lim).
Proof. unfold prim_elem. cbn. destruct lim as [[lo hi]|]; cbn; split; auto; split; congruence. Qed.
Lemma prim_read_back c lim : parse_signature (prim_text c lim) = Ok (prim_elem c lim).
Proof.
  destruct (signature_read false no_types _ (prim_printable c lim)) as (t & T & R).
  rewrite prim_string in T. invc T. exact R.
Qed.

(** ** Types *)

Lemma in_range_elem c k lo hi lim : kind_of c = Some k -> kmin k <= lo -> hi <= kmax k -> lim = None \/ lim = Some (lo, hi) ->
  holds_range lo hi (prim_elem c lim).
Proof.
  intros K A B L. unfold prim_elem. exists c, (option_map fst lim), (option_map snd lim), k.
  destruct L as [-> | ->]; cbn; auto 10.
Qed.

Lemma unsigned_found lo hi : 0 <= lo <= hi -> unsigned_ok hi ->
  exists c lim, getIntegerTypeCode lo hi = Ok (Some (prim_text c lim)) /\ holds_range lo hi (prim_elem c lim).
Proof.
  intros L [B N]. rewrite unsigned_code by lia. cbn [In] in N.
  replace (hi =? 0) with false by lia.
  destruct (hi <=? 256) eqn:E1; [|destruct (hi <=? 65536) eqn:E2; [|destruct (hi <=? 4294967296) eqn:E3; [|
    destruct (hi <=? 18446744073709551616) eqn:E4; [|lia]]]]; eexists _, _; (split; [reflexivity|]).
  - apply (in_range_elem CU8 U8); [reflexivity|cbn; lia|change (kmax U8) with 255; lia|]. ite; auto.
  - apply (in_range_elem CU16 U16); [reflexivity|cbn; lia|change (kmax U16) with 65535; lia|auto].
  - apply (in_range_elem CU32 U32); [reflexivity|cbn; lia|change (kmax U32) with 4294967295; lia|auto].
  - apply (in_range_elem CU64 U64); [reflexivity|cbn; lia|change (kmax U64) with 18446744073709551615; lia|auto].
Qed.

Lemma signed_found lo hi : lo < 0 -> lo <= hi -> signed_ok lo hi ->
  exists c lim, getIntegerTypeCode lo hi = Ok (Some (prim_text c lim)) /\ holds_range lo hi (prim_elem c lim).
Proof.
  intros L H [B N]. rewrite signed_code by lia.
  replace (hi =? 0) with false by lia. replace (Z.abs hi <=? 128) with false by lia.
  destruct (Z.abs hi <=? 32768) eqn:E2; [|destruct (Z.abs hi <=? 2147483648) eqn:E3; [|
    destruct (Z.abs hi <=? 9223372036854775808) eqn:E4; [|lia]]]; eexists _, _; (split; [reflexivity|]).
  - apply (in_range_elem CS16 S16); [reflexivity|change (kmin S16) with (-32768); lia|change (kmax S16) with 32767; lia|auto].
  - apply (in_range_elem CS32 S32); [reflexivity|change (kmin S32) with (-2147483648); lia|change (kmax S32) with 2147483647; lia|auto].
  - apply (in_range_elem CS64 S64); [reflexivity|change (kmin S64) with (-9223372036854775808); lia|change (kmax S64) with 9223372036854775807; lia|auto].
Qed.

Lemma adtype_ind2 (P : adtype -> Prop) : P ABool -> (forall lo hi, P (AInt lo hi)) -> P AArray -> (forall n, P (AString n)) ->
  (forall ms, Forall (fun m => P (snd m)) ms -> P (ARec ms)) -> P AMissing -> P AUnknown -> forall t, P t.
Proof.
  intros A B C D E F G. fix IH 1. intros [|lo hi| |n|ms| |]; [exact A|apply B|exact C|apply D| |exact F|exact G].
  apply E. induction ms as [|[n t] ms IHl]; constructor; [apply IH|apply IHl].
Qed.

Fixpoint calc_members (l : list (str * adtype)) : res str :=
  match l with
  | [] => Ok []
  | (name, child) :: r =>
    do sig <- match child with AMissing => Err ValueError | _ => calcDataSignature child end;
    do b <- calc_members r;
    Ok ([QUOTE] ++ strip_RE name ++ [QUOTE] ++ opt_text sig ++ b)
  end.
Lemma calc_rec ms : calcDataSignature (ARec ms) = do body <- calc_members ms; Ok (Some ([123] ++ body ++ [125])).
Proof. reflexivity. Qed.

Definition imported (t : adtype) : Prop := exists e sig, calcDataSignature t = Ok (Some sig) /\ describes t e /\
  elem_string false no_types e = Ok sig /\ printable false no_types e /\ described false no_types e = e /\ nameless e = e.

Lemma with_name_text s e : de_name (with_name s e) = Some s /\ elem_string false no_types (with_name s e) = elem_string false no_types e /\
  printable false no_types (with_name s e) = printable false no_types e /\
  described false no_types (with_name s e) = with_name s (described false no_types e).
Proof. destruct e as [n c lo hi a|n es|n [|r|i]]; repeat split; reflexivity. Qed.

Lemma import_all t : importable t -> imported t.
Proof.
  induction t as [|lo hi| |n|ms IH| |] using adtype_ind2; intros I; try contradiction.
  - exists (prim_elem CU8 (Some (0, 1))), (lit "C(0,1)"). split; [reflexivity|]. split; [constructor|].
    split; [rewrite prim_string; reflexivity|]. split; [apply prim_printable|split; reflexivity].
  - destruct I as [LE I].
    assert (exists c lim, getIntegerTypeCode lo hi = Ok (Some (prim_text c lim)) /\ holds_range lo hi (prim_elem c lim)) as (c & lim & G & R).
    { destruct I as [[L U]|[L U]]; [apply unsigned_found; auto|apply signed_found; auto]. }
    exists (prim_elem c lim), (prim_text c lim). split; [exact G|]. split; [constructor; exact R|].
    split; [apply prim_string|]. split; [apply prim_printable|split; reflexivity].
  - cbn in I. exists (DPrim None CSTR None None (Some (n + 1))), (lit "a[" ++ dec_str (n + 1) ++ lit "]").
    split; [reflexivity|]. split; [constructor|]. split; [reflexivity|]. split; [cbn; split; [tauto|lia]|split; reflexivity].
  - assert (exists es body, calc_members ms = Ok body /\ describes_members ms es /\ members_string false no_types es = Ok body /\
      printables false no_types es /\ map (described false no_types) es = es) as (es & body & C & D & M & P & E).
    { cbn [importable] in I. induction IH as [|[n t] ms T F IHl].
      - exists [], []. repeat split; constructor.
      - destruct I as (Q & I1 & I2). destruct (IHl I2) as (es & body & C & D & M & P & E).
        destruct (T I1) as (e & sig & C1 & D1 & S1 & P1 & E1 & N1). cbn [snd] in *.
        destruct (with_name_text (strip_RE n) e) as (W1 & W2 & W3 & W4).
        exists (with_name (strip_RE n) e :: es). eexists. cbn [calc_members members_string printables map].
        split; [|split; [|split; [|split]]].
        + replace (match t with AMissing => Err ValueError | _ => calcDataSignature t end) with (calcDataSignature t)
            by (destruct t; try reflexivity; contradiction). rewrite C1, C. reflexivity.
        + constructor; [apply strip_RE_short|exact D1|exact D].
        + rewrite W2, S1, M, W1. reflexivity.
        + split; [exists (strip_RE n); split; [exact W1|eapply short_quoteless; [apply strip_RE_short|exact Q]]|].
          rewrite W3. auto.
        + rewrite W4, E1, E. reflexivity. }
    exists (DRec None es), ([123] ++ body ++ [125]). rewrite calc_rec, C. split; [reflexivity|].
    split; [constructor; exact D|]. rewrite elem_string_rec, M, printable_rec. split; [reflexivity|]. split; [exact P|].
    cbn [described nameless]. rewrite E. split; reflexivity.
Qed.

(** ** Value tables *)

Lemma table_pos from els v lo hi text : consecutive from els -> In (lo, hi, text) els -> lo <= v <= hi ->
  from <= lo /\ nth_error (table_values els) (Z.to_nat (v - from)) =
    Some (if lo =? hi then text else text ++ dec_str (v - lo + 1)).
Proof.
  revert from. induction els as [|[[l h] t] els IH]; intros from C I V; [contradiction|].
  cbn [consecutive] in C. destruct C as (-> & LH & C). change (table_values ((from, h, t) :: els)) with
    ((if from =? h then [t] else map (fun i => t ++ dec_str i) (map Z.of_nat (seq 1 (Z.to_nat (h + 1 - from))))) ++ table_values els).
  assert (length (if from =? h then [t] else map (fun i => t ++ dec_str i) (map Z.of_nat (seq 1 (Z.to_nat (h + 1 - from)))))
    = Z.to_nat (h + 1 - from)) as LL.
  { destruct (from =? h) eqn:F; [cbn; lia|]. rewrite !map_length, seq_length. reflexivity. }
  destruct I as [I|I].
  - invc I. split; [lia|]. rewrite nth_error_app1 by (rewrite LL; lia). destruct (lo =? hi) eqn:F.
    + replace (Z.to_nat (v - lo)) with 0%nat by lia. reflexivity.
    + rewrite !nth_error_map, (nth_error_nth' _ 0%nat) by (rewrite seq_length; lia). rewrite seq_nth by lia.
      cbn [option_map]. do 3 f_equal. lia.
  - destruct (IH _ C I V) as [L E]. split; [lia|]. rewrite nth_error_app2 by (rewrite LL; lia). rewrite LL.
    rewrite <- E. f_equal. lia.
Qed.

Lemma quoted_join ts : Forall (fun t => none (fun c => c =? QUOTE) t /\ none (fun c => c =? COMMA) t) ts -> ts <> [] ->
  map (fun s => fst (parse_str s)) (split_on COMMA (join [COMMA] (map (fun x => [QUOTE] ++ x ++ [QUOTE]) ts))) = map Some ts.
Proof.
  intros F NE. rewrite split_join.
  - clear NE. induction F as [|t ts [Q C] F IH]; [reflexivity|]. cbn [map]. rewrite IH. f_equal.
    pose proof (parse_str_quoted t [] Q) as R. cbn [app] in *. rewrite R. reflexivity.
  - clear NE. induction F as [|t ts [Q C] F IH]; [constructor|]. cbn [map]. constructor; [|exact IH].
    apply none_app. split; [repeat constructor|]. apply none_app. split; [exact C|repeat constructor].
  - destruct ts; [congruence|discriminate].
Qed.

Lemma quoted_paired ts : Forall (paired 40 41) ts -> paired 40 41 (join [COMMA] (map (fun x => [QUOTE] ++ x ++ [QUOTE]) ts)).
Proof.
  intros F. assert (forall t, paired 40 41 t -> paired 40 41 ([QUOTE] ++ t ++ [QUOTE])) as X.
  { intros t T. apply paired_app; [apply paired_none; repeat constructor|]. apply paired_app; [exact T|apply paired_none; repeat constructor]. }
  induction F as [|t ts T F IH]; [constructor|]. destruct ts as [|u ts]; [apply X, T|].
  cbn [map] in *. change (join [COMMA] (?a :: ?b :: ?l)) with (a ++ [COMMA] ++ join [COMMA] (b :: l)).
  apply paired_app; [apply X, T|]. apply paired_app; [apply paired_none; repeat constructor|exact IH].
Qed.

Lemma table_text_app s z : table_text s -> table_text (s ++ dec_str z).
Proof.
  intros T c I. apply in_app_or in I as [I|I]; [apply T, I|]. destruct (dec_str_chars z) as [A _].
  unfold all in A. rewrite Forall_forall in A. specialize (A c I). unfold is_numch, is_digit in A. unfold QUOTE, COMMA. cbn [In]. lia.
Qed.
Lemma table_texts els : Forall (fun '(_, _, t) => table_text t) els -> Forall table_text (table_values els).
Proof.
  induction 1 as [|[[l h] t] els T F IH]; [constructor|]. unfold table_values in *. cbn [flat_map]. apply Forall_app. split; [|exact IH].
  destruct (l =? h); [constructor; auto|]. apply Forall_forall. intros x I. apply in_map_iff in I as (i & <- & _). apply table_text_app, T.
Qed.
Lemma table_text_none s : table_text s -> none (fun c => c =? QUOTE) s /\ none (fun c => c =? COMMA) s /\ paired 40 41 s.
Proof.
  intros T. assert (forall p, (forall c, p c = true -> In c [QUOTE; COMMA; 40; 41]) -> none p s) as X.
  { intros p P. apply Forall_forall. intros c I. specialize (T c I). destruct (p c) eqn:E; [|reflexivity]. exfalso. auto. }
  split; [|split]; [| |apply paired_none]; apply X; intros c C; cbn [In]; unfold QUOTE, COMMA in *; lia.
Qed.
Lemma value_table_read ts : Forall table_text ts -> ts <> [] ->
  parse_type_attr (lit "VT(" ++ join [COMMA] (map (fun x => [QUOTE] ++ x ++ [QUOTE]) ts) ++ lit ")") = Ok (Some (map Some ts)).
Proof.
  intros F NE. set (body := join _ _).
  assert (match_pair (40 :: body ++ [41]) 40 41 = (Some body, [])) as M.
  { apply (match_pair_paired 40 41 body []); [|discriminate]. apply quoted_paired. eapply Forall_impl; [|exact F].
    intros t T. apply table_text_none, T. }
  unfold parse_type_attr. change (lit "VT(" ++ body ++ lit ")") with (86 :: 84 :: 40 :: body ++ [41]).
  cbn [length type_attr_loop]. rewrite M. cbn [type_attr_loop]. do 2 f_equal. apply quoted_join; [|exact NE].
  eapply Forall_impl; [|exact F]. intros t T. destruct (table_text_none t T) as (A & B & _). auto.
Qed.
