(** Import of AUTOSAR constants, integer ranges, types and value tables (C46, C48, C53, C54). *)
From Coq Require Import ZifyBool ZifyNat Lia.
From Verif Require Import Py PyLemmas TypesModel TextModel SigModel AttrModel NodeModel AutosarModel.
From Verif Require Import TypesSpec SigSpec AttrSpec AutosarSpec TextProofs SigProofs AttrProofs AutosarProofs.
Ltac Zify.zify_post_hook ::= Z.div_mod_to_equations.

(** The init value of an imported port is the value of the AUTOSAR constant. *)
Theorem imported_constant_read c : writable false (const_value c) ->
  exists t, derive_init c = Ok t /\
    parse_port_attr (61 :: t) = Ok (mk_pattr false false None (const_value c) (61 :: t)).
Proof.
  intros W. destruct (proj1 (derive_all c) W) as (t & T & S1). exists t. split; [exact T|].
  pose proof (attr_loop_read IVNone false _ (const_value c) false [] false None
    (mk_init [] [] _ t [] IVNone false _ false (Forall_nil _) (Forall_nil _) S1 (mk_done _ false)) qu_none (S (length (61 :: t))) (61 :: t)) as R.
  rewrite !app_nil_r in R. cbn [app] in R. unfold parse_port_attr. rewrite R; [reflexivity|lia].
Qed.
Print Assumptions imported_constant_read.

Example ex_constant :
  let c := KRec [KInt 255; KInt 256; KInt (-3); KArr [KStr (lit "on"); KInt 48879]] in
  derive_init c = Ok (lit "{255,0x100,-3,{""on"",0xBEEF}}") /\ writable false (const_value c) /\
  const_value c = IVList [IVInt 255; IVInt 256; IVInt (-3); IVList [IVStr (lit "on"); IVInt 48879]].
Proof.
  cbv zeta. split; [vm_compute; reflexivity|]. split; [|reflexivity]. cbn. repeat split; try discriminate.
  - unfold QUOTE. intuition discriminate.
  - intros _. apply paired_braced, paired_none. repeat constructor.
Qed.

(** The type code chosen for an integer range holds the whole range exactly in these
    cases.  (The logarithm of the model is exact; floating point moves the single
    case of a signed range that ends at 2^31 or -2^31, and ends beyond 2^48.) *)
Theorem unsigned_range_fits lo hi : 0 <= lo <= hi ->
  ((exists s e, getIntegerTypeCode lo hi = Ok (Some s) /\ parse_signature s = Ok e /\ holds_range lo hi e) <-> unsigned_ok hi).
Proof.
  intros L. split.
  - intros (s & e & G & P & c & l & h & k & -> & K & _ & M & _). rewrite unsigned_code in G by lia.
    unfold unsigned_ok. cbn [In].
    destruct (hi =? 0) eqn:E0; [discriminate|].
    destruct (hi <=? 256) eqn:E1; [|destruct (hi <=? 65536) eqn:E2; [|destruct (hi <=? 4294967296) eqn:E3; [|
      destruct (hi <=? 18446744073709551616) eqn:E4; [|discriminate]]]]; injection G as <-;
      rewrite prim_read_back in P; unfold prim_elem in P; injection P as <- _ _; invc K.
    + change (kmax U8) with 255 in M. lia.
    + change (kmax U16) with 65535 in M. lia.
    + change (kmax U32) with 4294967295 in M. lia.
    + change (kmax U64) with 18446744073709551615 in M. lia.
  - intros U. destruct (unsigned_found lo hi L U) as (c & lim & G & R). eexists _, _. split; [exact G|].
    split; [apply prim_read_back|exact R].
Qed.
Print Assumptions unsigned_range_fits.

Theorem signed_range_fits lo hi : lo < 0 -> lo <= hi ->
  ((exists s e, getIntegerTypeCode lo hi = Ok (Some s) /\ parse_signature s = Ok e /\ holds_range lo hi e) <-> signed_ok lo hi).
Proof.
  intros L H. split.
  - intros (s & e & G & P & c & l & h & k & -> & K & N & M & _). rewrite signed_code in G by lia.
    unfold signed_ok.
    destruct (hi =? 0) eqn:E0; [discriminate|]. destruct (Z.abs hi <=? 128) eqn:E1; [discriminate|].
    destruct (Z.abs hi <=? 32768) eqn:E2; [|destruct (Z.abs hi <=? 2147483648) eqn:E3; [|
      destruct (Z.abs hi <=? 9223372036854775808) eqn:E4; [|discriminate]]]; injection G as <-;
      rewrite prim_read_back in P; unfold prim_elem in P; injection P as <- _ _; invc K.
    + change (kmax S16) with 32767 in M. change (kmin S16) with (-32768) in N. lia.
    + change (kmax S32) with 2147483647 in M. change (kmin S32) with (-2147483648) in N. lia.
    + change (kmax S64) with 9223372036854775807 in M. change (kmin S64) with (-9223372036854775808) in N. lia.
  - intros U. destruct (signed_found lo hi L H U) as (c & lim & G & R). eexists _, _. split; [exact G|].
    split; [apply prim_read_back|exact R].
Qed.
Print Assumptions signed_range_fits.

Example ex_ranges : unsigned_ok 100 /\ getIntegerTypeCode 1 100 = Ok (Some (lit "C(1,100)")) /\
  unsigned_ok 257 /\ getIntegerTypeCode 0 257 = Ok (Some (lit "S")) /\
  signed_ok (-5) 1000 /\ getIntegerTypeCode (-5) 1000 = Ok (Some (lit "s")).
Proof. unfold unsigned_ok, signed_ok. cbn [In]. repeat split; try (vm_compute; reflexivity); try lia. Qed.

(** Ranges whose code does not hold them, or that are refused. *)
Theorem integer_ranges_fit_refuted :
  (* 256 in one byte *)
  getIntegerTypeCode 0 256 = Ok (Some (lit "C")) /\
  getIntegerTypeCode 0 65536 = Ok (Some (lit "S")) /\
  getIntegerTypeCode 0 4294967296 = Ok (Some (lit "L")) /\
  (* the lower end is ignored: -100000 in two bytes *)
  getIntegerTypeCode (-100000) 1000 = Ok (Some (lit "s")) /\
  (* every signed range that fits one byte *)
  getIntegerTypeCode (-128) 127 = Err AttributeError /\
  getIntegerTypeCode (-10) 0 = Err ValueError /\
  getIntegerTypeCode 0 0 = Err ValueError.
Proof. vm_compute. repeat split. Qed.
Print Assumptions integer_ranges_fit_refuted.
Theorem signed_small_refused lo hi : lo < 0 -> -128 <= hi <= 127 ->
  getIntegerTypeCode lo hi = Err (if hi =? 0 then ValueError else AttributeError).
Proof. intros L H. rewrite signed_code by lia. ite; try reflexivity; lia. Qed.
Print Assumptions signed_small_refused.

(** The signature text of an imported type is read as an element for that type. *)
Theorem imported_type_read t : importable t ->
  exists sig e, calcDataSignature t = Ok (Some sig) /\ parse_signature sig = Ok e /\ describes t e.
Proof.
  intros I. destruct (import_all t I) as (e & sig & C & D & T & P & E & N). exists sig, e. split; [exact C|]. split; [|exact D].
  destruct (signature_read false no_types e P) as (t' & T' & R). rewrite T in T'. invc T'. rewrite R, E, N. reflexivity.
Qed.
Print Assumptions imported_type_read.

Example ex_imported :
  let t := ARec [(lit "Speed_RE", AInt 0 65535); (lit "Name", AString 8); (lit "On_RE_RE", ABool)] in
  importable t /\ calcDataSignature t = Ok (Some (lit "{""Speed""S""Name""a[9]""On_RE""C(0,1)}")).
Proof.
  cbv zeta. split; [|vm_compute; reflexivity]. cbn [importable]. unfold quoteless, unsigned_ok. cbn [In].
  repeat split; try lia; try (unfold QUOTE; cbn; intuition discriminate).
Qed.

(** Arrays of any kind, and the ranges of [integer_ranges_fit_refuted], stop the import. *)
Theorem imported_type_refuted : calcDataSignature AArray = Err NameError /\
  autosar_type (lit "T") (AInt 0 36893488147419103232) None 0 = Err NotImplementedError /\
  (* a name with a quote is read as another record *)
  exists t sig, calcDataSignature t = Ok (Some sig) /\ forall e, parse_signature sig = Ok e -> ~ describes t e.
Proof.
  split; [reflexivity|]. split; [vm_compute; reflexivity|].
  exists (ARec [(lit "a""C""b", ABool)]), (lit "{""a""C""b""C(0,1)}"). split; [vm_compute; reflexivity|].
  intros e E D. vm_compute in E. invc E. inversion D as [| | |ms es M]; subst. 
  inversion M as [|n s t e ms es S1 D1 M1]; subst. inversion M1.
Qed.
Print Assumptions imported_type_refuted.

(** The table of an enumeration comes back entry by entry... *)
Theorem value_table_round_trip els : Forall (fun '(_, _, t) => table_text t) els -> table_values els <> [] ->
  parse_type_attr (value_table_attr els) = Ok (Some (map Some (table_values els))).
Proof. intros F NE. apply value_table_read; [apply table_texts, F|exact NE]. Qed.
Print Assumptions value_table_round_trip.

(** ... and the entry at the place of a value is the text given for that value, with
    a running number where one text stands for several values. *)
Theorem value_table_entry els v lo hi text : consecutive 0 els -> In (lo, hi, text) els -> lo <= v <= hi ->
  nth_error (table_values els) (Z.to_nat v) = Some (if lo =? hi then text else text ++ dec_str (v - lo + 1)).
Proof. intros C I V. destruct (table_pos 0 els v lo hi text C I V) as [_ E]. rewrite Z.sub_0_r in E. exact E. Qed.
Print Assumptions value_table_entry.

Example ex_table : let els := [(0, 0, lit "Off"); (1, 3, lit "Gear"); (4, 4, lit "Error")] in
  consecutive 0 els /\ value_table_attr els = lit "VT(""Off"",""Gear1"",""Gear2"",""Gear3"",""Error"")" /\
  nth_error (table_values els) 3 = Some (lit "Gear3").
Proof. cbv zeta. split; [cbn; lia|]. split; vm_compute; reflexivity. Qed.

(** A table that does not start at 0 or has gaps is shifted; an empty one gains an
    entry without text. *)
Theorem value_table_refuted :
  (exists els, In (1, 1, lit "One") els /\ nth_error (table_values els) 1 <> Some (lit "One")) /\
  parse_type_attr (value_table_attr []) = Ok (Some [None]) /\
  parse_type_attr (value_table_attr [(0, 0, lit "a,b")]) = Ok (Some [None; None]).
Proof.
  split; [|split; vm_compute; reflexivity]. exists [(1, 1, lit "One"); (2, 2, lit "Two")]. split; [cbn; auto|]. vm_compute. discriminate.
Qed.
Print Assumptions value_table_refuted.
