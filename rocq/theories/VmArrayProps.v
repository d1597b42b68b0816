(** Properties: programs with arrays of records (C92). *)
From Coq Require Import ZifyBool ZifyNat Lia.
From Verif Require Import Py PyLemmas TypesModel CompilerModel VmModel TypesSpec VmArraySpec TypesProofs CompilerProofs VmProofs VmPackProofs VmUnpackProofs VmProps.
Ltac Zify.zify_post_hook ::= Z.div_mod_to_equations.

Scheme lays_mind := Induction for lays Sort Prop
  with lays_members_mind := Induction for lays_members Sort Prop
  with lays_items_mind := Induction for lays_items Sort Prop.
Combined Scheme lays_all from lays_mind, lays_members_mind, lays_items_mind.

Lemma plain_body d t : is_rec t = false -> wf_ty t -> plain_code d t = body d t.
Proof.
  intros R W. destruct t as [k|k n| |n|ms]; try discriminate; cbn [wf_ty] in W.
  - destruct d, k; cbn in W; try contradiction; reflexivity.
  - destruct W as (W & N). unfold plain_code, body. rewrite (Z.mod_small (n / 256)) by lia. destruct d, k; cbn in W; try contradiction; reflexivity.
  - contradiction.
  - unfold plain_code, body. rewrite (Z.mod_small (n / 256)) by lia. destruct d; reflexivity.
Qed.
Definition members_code (d : dir) (ms : list (str * shape)) : bytes := flat_map (fun m => let '(nm, s) := m in [30] ++ nm ++ [0] ++ shape_code d s) ms.
Lemma code_rec d ms rest : shape_code d (ShRec ms) ++ rest = 29 :: members_code d ms ++ 31 :: rest.
Proof. cbn [shape_code]. cbn [app]. unfold members_code. rewrite <- app_assoc. reflexivity. Qed.
Lemma code_arr d n s rest : shape_code d (ShArr n s) ++ rest = 32 :: concat (repeat (shape_code d s) n) ++ 33 :: rest.
Proof. cbn [shape_code app]. rewrite <- app_assoc. reflexivity. Qed.
Lemma code_member d nm s ms rest : members_code d ((nm, s) :: ms) ++ rest = 30 :: nm ++ 0 :: shape_code d s ++ members_code d ms ++ rest.
Proof. unfold members_code. cbn [flat_map app]. rewrite <- !app_assoc. cbn [app]. rewrite <- ?app_assoc. reflexivity. Qed.
Lemma parse_array_enter rest : parse_next_instruction (32 :: rest) = Ok (Some (IArrayEnter, rest)).
Proof. reflexivity. Qed.
Lemma parse_array_leave rest : parse_next_instruction (33 :: rest) = Ok (Some (IArrayLeave, rest)).
Proof. reflexivity. Qed.

(** ** Packing *)

Definition is_array (sh : shape) : bool := match sh with ShArr _ _ => true | _ => false end.
(** Where a record or array may begin: at the top, as an item of a list, as a member; with
    the stack inside and the state after it. *)
Inductive place (v : pyval) : bool -> vmstate -> list (pyval * option str * option Z) -> vmstate -> Prop :=
| at_top a : place v a (mk_vmstate v None None []) [] (mk_vmstate v None None [])
| at_item a l i st : index l i = Ok v -> place v a (mk_vmstate (VList l) None (Some i) st) ((VList l, None, Some i) :: st) (mk_vmstate (VList l) None (Some (i + 1)) st)
| at_member a d nm st : dget nm d = Some v ->
    place v a (mk_vmstate (VDict d) (Some nm) None st) ((VDict d, Some nm, None) :: st) (mk_vmstate (VDict d) (if a : bool then Some nm else None) None st).
Definition packs (sh : shape) (v : pyval) (b : bytes) : Prop := forall s st s' data off rest, place v (is_array sh) s st s' -> 0 <= off -> off + len b <= len data ->
  prun (shape_code Pack sh ++ rest) false s data off = prun rest false s' (wr data off b) (off + len b).
Lemma member_pack nm s v d st data off rest b n : (is_plain s = false -> packs s v b) -> lays s v b -> workable Pack s -> member_allowed Pack n s -> len d = Z.of_nat n -> dget nm d = Some v ->
  0 <= off -> off + len b <= len data ->
  exists k, prun (shape_code Pack s ++ rest) false (mk_vmstate (VDict d) (Some nm) None st) data off = prun rest false (mk_vmstate (VDict d) k None st) (wr data off b) (off + len b).
Proof.
  intros P L W MA LD G O R. destruct (is_plain s) eqn:PS.
  - destruct s as [t| |]; try discriminate. inversion W as [? RT WT| |]; subst. inversion L as [? ? ? X E| |]; subst. pose proof (enc_len t WT _ _ E) as LB.
    cbn [shape_code]. rewrite plain_body by assumption. destruct (member_all t) as (M & _). rewrite LB in *. eapply M; eauto.
    destruct t; cbn [mroom member_allowed] in *; rewrite ?G; try exact Logic.I; try discriminate. lia.
  - eexists. apply (P eq_refl _ _ _ _ _ _ (at_member v (is_array s) d nm st G) O R).
Qed.
Lemma pack_all :
  (forall sh v b, lays sh v b -> workable Pack sh -> is_plain sh = false -> packs sh v b) /\
  (forall ms dd b, lays_members ms dd b -> forall n d k st data off rest, workables Pack ms -> (forall nm s, In (nm, s) ms -> name_ok nm /\ member_allowed Pack n s) -> len d = Z.of_nat n ->
    (forall nm v, In (nm, v) dd -> dget nm d = Some v) -> 0 <= off -> off + len b <= len data ->
    exists k', prun (members_code Pack ms ++ rest) false (mk_vmstate (VDict d) k None st) data off = prun rest false (mk_vmstate (VDict d) k' None st) (wr data off b) (off + len b)) /\
  (forall s l b, lays_items s l b -> workable Pack s -> is_plain s = false -> forall pre st data off rest, 0 <= off -> off + len b <= len data ->
    prun (concat (repeat (shape_code Pack s) (length l)) ++ rest) false (mk_vmstate (VList (pre ++ l)) None (Some (len pre)) st) data off =
    prun rest false (mk_vmstate (VList (pre ++ l)) None (Some (len (pre ++ l))) st) (wr data off b) (off + len b)).
Proof.
  apply lays_all.
  - intros t v b X E W P. discriminate P.
  - intros ms d b L IH W _ s st s' data off rest PL O R. inversion W as [|? ND MA WS|]; subst.
    assert (map fst ms = map fst d) as NM by (clear -L; induction L; cbn [map fst]; [reflexivity|f_equal; assumption]).
    assert (forall nm v, In (nm, v) d -> dget nm d = Some v) as G.
    { rewrite NM in ND. clear -ND. induction d as [|[n x] d IH]; intros nm v I; [destruct I|]. cbn [map fst] in ND. inversion ND as [|? ? NI ND']; subst. cbn [dget].
      destruct I as [I|I]; [injection I as -> ->; rewrite str_eqb_refl; reflexivity|].
      destruct (str_eqb n nm) eqn:E; [apply str_eqb_eq in E as ->; exfalso; apply NI; change nm with (fst (nm, v)); apply in_map; exact I|].
      replace (str_eqb nm n) with false by (symmetry; apply str_eqb_neq; intros ->; rewrite str_eqb_refl in E; discriminate). apply IH; assumption. }
    assert (len d = Z.of_nat (length ms)) as LD by (unfold len; rewrite <- (map_length fst d), <- NM, map_length; reflexivity).
    rewrite code_rec. cbn [is_array] in PL.
    assert (p_record_enter s = Ok (mk_vmstate (VDict d) None None st)) as EN.
    { inversion PL as [|? ? ? ? I|? ? ? ? I]; subst; [reflexivity|cbn; rewrite I; reflexivity|cbn; rewrite I; reflexivity]. }
    rewrite (prun_step _ _ _ _ _ _ _ (parse_enter (members_code Pack ms ++ 31 :: rest))) by reflexivity. cbn [exec_pack]. rewrite EN. cbn [bind].
    destruct (IH (length ms) d None st data off (31 :: rest) WS MA LD G O R) as (k' & ->).
    rewrite (prun_step _ _ _ _ _ _ _ (parse_leave rest)) by reflexivity. cbn [exec_pack].
    assert (p_record_leave (mk_vmstate (VDict d) k' None st) = Ok s') as -> by (inversion PL; subst; reflexivity). reflexivity.
  - intros s l b L IH W _ s0 st s' data off rest PL O R. inversion W as [| |? ? NP WS]; subst. rewrite code_arr. cbn [is_array] in PL.
    assert (p_array_enter s0 = Ok (mk_vmstate (VList l) None (Some 0) st)) as EN.
    { inversion PL as [|? ? ? ? I|? ? ? ? I]; subst; [reflexivity|cbn; rewrite I; reflexivity|cbn; rewrite I; reflexivity]. }
    rewrite (prun_step _ _ _ _ _ _ _ (parse_array_enter _)) by reflexivity. cbn [exec_pack]. rewrite EN. cbn [bind].
    pose proof (IH WS NP [] st data off (33 :: rest) O R) as E. cbn [app] in E. change (@len pyval []) with 0 in E. rewrite E.
    rewrite (prun_step _ _ _ _ _ _ _ (parse_array_leave rest)) by reflexivity. cbn [exec_pack].
    assert (p_array_leave (mk_vmstate (VList l) None (Some (len l)) st) = Ok s') as -> by (inversion PL; subst; reflexivity). reflexivity.
  - intros n d k st data off rest _ _ _ _ O R. exists k. cbn [members_code flat_map app]. rewrite wr_nil. f_equal. change (@len Z []) with 0. lia.
  - intros nm s v ms dd a b L IHs Lm IHm n d k st data off rest WS MA LD G O R. inversion WS as [|? ? ? Ws Wm]; subst. rewrite code_member. rewrite (len_app a b) in *. pose proof (len_nonneg a). pose proof (len_nonneg b).
    destruct (MA nm s (or_introl eq_refl)) as (NO & AL). rewrite (prun_step _ _ _ _ _ _ _ (parse_select nm _ NO)) by reflexivity. cbn [exec_pack record_select is_dict vs_value vs_index vs_stack bind].
    destruct (member_pack nm s v d st data off (members_code Pack ms ++ rest) a n (fun P => IHs Ws P) L Ws AL LD (G nm v (or_introl eq_refl)) O ltac:(lia)) as (k1 & ->).
    destruct (IHm n d k1 st (wr data off a) (off + len a) rest Wm (fun x y I => MA x y (or_intror I)) LD (fun x y I => G x y (or_intror I)) ltac:(lia) ltac:(rewrite len_wr; lia)) as (k2 & ->).
    exists k2. rewrite wr_wr by lia. f_equal. lia.
  - intros s W NP pre st data off rest O R. cbn [length repeat concat app]. rewrite app_nil_r, wr_nil. change (@len Z []) with 0. f_equal. lia.
  - intros s v l a b L IHs Ll IHl W NP pre st data off rest O R. rewrite (len_app a b) in *. pose proof (len_nonneg a). pose proof (len_nonneg b). cbn [length repeat concat]. rewrite <- app_assoc.
    rewrite (IHs W NP _ _ _ data off (concat (repeat (shape_code Pack s) (length l)) ++ rest) (at_item v (is_array s) (pre ++ v :: l) (len pre) st (index_mid pre v l)) O ltac:(lia)).
    specialize (IHl W NP (pre ++ [v]) st (wr data off a) (off + len a) rest ltac:(lia) ltac:(rewrite len_wr; lia)). rewrite <- app_assoc in IHl. cbn [app] in IHl.
    replace (len (pre ++ [v])) with (len pre + 1) in IHl by (rewrite len_app; reflexivity). rewrite IHl. rewrite wr_wr by lia. f_equal. lia.
Qed.

(** ** Unpacking *)

(** As [place]; the value is put where it belongs, and a member is no record. *)
Inductive uplace (v : pyval) : bool -> vmstate -> list (pyval * option str * option Z) -> vmstate -> Prop :=
| un_top a : uplace v a (mk_vmstate VOther None None []) [] (mk_vmstate v None None [])
| un_item a l i st : uplace v a (mk_vmstate (VList l) None (Some i) st) ((VList l, None, Some i) :: st) (mk_vmstate (VList (l ++ [v])) None (Some (i + 1)) st)
| un_member d nm st : uplace v true (mk_vmstate (VDict d) (Some nm) None st) ((VDict d, Some nm, None) :: st) (mk_vmstate (VDict (dset nm v d)) None None st).
Lemma win_app data off a b : 0 <= off -> win data off (len (a ++ b)) = a ++ b -> win data off (len a) = a /\ win data (off + len a) (len b) = b.
Proof.
  intros O E. rewrite len_app in E. pose proof (len_nonneg a). pose proof (len_nonneg b). split.
  - rewrite <- (win_first data off (len a) (len a + len b)) by lia. rewrite E. unfold len. rewrite Nat2Z.id. apply firstn_len.
  - replace (len b) with (len a + len b - len a) by lia. rewrite <- (win_rest data off (len a) (len a + len b)) by lia. rewrite E. unfold len. rewrite Nat2Z.id. apply skipn_len.
Qed.
Section Unpack.
  Variable data : bytes.
  Hypothesis good : bytes_ok data.
  Definition unpacks (sh : shape) (v : pyval) (b : bytes) : Prop := forall s st s' off rest, uplace v (is_array sh) s st s' -> 0 <= off -> off + len b <= len data -> win data off (len b) = b ->
    urun (shape_code Unpack sh ++ rest) false s data off = urun rest false s' data (off + len b).
  Lemma member_unpack nm s v d st off rest b n : (is_plain s = false -> unpacks s v b) -> lays s v b -> workable Unpack s -> member_allowed Unpack n s ->
    0 <= off -> off + len b <= len data -> win data off (len b) = b ->
    exists k, urun (shape_code Unpack s ++ rest) false (mk_vmstate (VDict d) (Some nm) None st) data off = urun rest false (mk_vmstate (VDict (dset nm v d)) k None st) data (off + len b).
  Proof.
    intros P L W MA O R E. destruct s as [t|ms|m s].
    - inversion W as [? RT WT| |]; subst. inversion L as [? ? ? X EN| |]; subst. pose proof (enc_len t WT _ _ EN) as LB.
      destruct (exact_dec t WT) with (v := v) as (b' & EN' & _ & _ & DC); [destruct t; try exact Logic.I; discriminate|exact X|]. rewrite EN in EN'. injection EN' as <-.
      cbn [shape_code]. rewrite plain_body by assumption. rewrite LB in *. rewrite uleaf by assumption. rewrite E, DC. cbn [store vs_value vs_key vs_index vs_stack bind]. eexists. reflexivity.
    - destruct MA.
    - eexists. exact (P eq_refl _ _ _ _ _ (un_member v d nm st) O R E).
  Qed.
  Lemma unpack_all :
    (forall sh v b, lays sh v b -> workable Unpack sh -> is_plain sh = false -> unpacks sh v b) /\
    (forall ms dd b, lays_members ms dd b -> forall n d k st off rest, workables Unpack ms -> NoDup (map fst (d ++ dd)) -> (forall nm s, In (nm, s) ms -> name_ok nm /\ member_allowed Unpack n s) ->
      0 <= off -> off + len b <= len data -> win data off (len b) = b ->
      exists k', urun (members_code Unpack ms ++ rest) false (mk_vmstate (VDict d) k None st) data off = urun rest false (mk_vmstate (VDict (d ++ dd)) k' None st) data (off + len b)) /\
    (forall s l b, lays_items s l b -> workable Unpack s -> is_plain s = false -> forall pre st i off rest, 0 <= off -> off + len b <= len data -> win data off (len b) = b ->
      exists j, urun (concat (repeat (shape_code Unpack s) (length l)) ++ rest) false (mk_vmstate (VList pre) None (Some i) st) data off =
      urun rest false (mk_vmstate (VList (pre ++ l)) None (Some j) st) data (off + len b)).
  Proof.
    apply lays_all.
    - intros t v b X E W P. discriminate P.
    - intros ms d b L IH W _ s st s' off rest PL O R E. inversion W as [|? ND MA WS|]; subst.
      assert (map fst ms = map fst d) as NM by (clear -L; induction L; cbn [map fst]; [reflexivity|f_equal; assumption]).
      rewrite code_rec. cbn [is_array] in PL.
      assert (u_record_enter s = Ok (mk_vmstate (VDict []) None None st)) as EN by (inversion PL; subst; reflexivity).
      rewrite (urun_step _ _ _ _ _ _ _ (parse_enter (members_code Unpack ms ++ 31 :: rest))) by reflexivity. cbn [exec_unpack]. rewrite EN. cbn [bind].
      destruct (IH (length ms) [] None st off (31 :: rest) WS ltac:(cbn [app]; rewrite <- NM; exact ND) MA O R E) as (k' & ->). cbn [app].
      rewrite (urun_step _ _ _ _ _ _ _ (parse_leave rest)) by reflexivity. cbn [exec_unpack].
      assert (u_record_leave (mk_vmstate (VDict d) k' None st) = Ok s') as -> by (inversion PL; subst; reflexivity). reflexivity.
    - intros s l b L IH W _ s0 st s' off rest PL O R E. inversion W as [| |? ? NP WS]; subst. rewrite code_arr. cbn [is_array] in PL.
      assert (u_array_enter s0 = Ok (mk_vmstate (VList []) None (Some 0) st)) as EN by (inversion PL; subst; reflexivity).
      rewrite (urun_step _ _ _ _ _ _ _ (parse_array_enter _)) by reflexivity. cbn [exec_unpack]. rewrite EN. cbn [bind].
      destruct (IH WS NP [] st 0 off (33 :: rest) O R E) as (j & ->). cbn [app].
      rewrite (urun_step _ _ _ _ _ _ _ (parse_array_leave rest)) by reflexivity. cbn [exec_unpack].
      assert (u_array_leave (mk_vmstate (VList l) None (Some j) st) = Ok s') as -> by (inversion PL; subst; reflexivity). reflexivity.
    - intros n d k st off rest _ _ _ O R E. exists k. cbn [members_code flat_map app]. rewrite app_nil_r. f_equal. change (@len Z []) with 0. lia.
    - intros nm s v ms dd a b L IHs Lm IHm n d k st off rest WS ND MA O R E. inversion WS as [|? ? ? Ws Wm]; subst. rewrite code_member. destruct (win_app data off a b O E) as (EA & EB).
      rewrite (len_app a b) in *. pose proof (len_nonneg a). pose proof (len_nonneg b).
      destruct (MA nm s (or_introl eq_refl)) as (NO & AL). rewrite (urun_step _ _ _ _ _ _ _ (parse_select nm _ NO)) by reflexivity. cbn [exec_unpack record_select is_dict vs_value vs_index vs_stack bind].
      destruct (member_unpack nm s v d st off (members_code Unpack ms ++ rest) a n (fun P => IHs Ws P) L Ws AL O ltac:(lia) EA) as (k1 & ->).
      assert (~ In nm (map fst d)) as FR by (rewrite map_app in ND; cbn [map fst] in ND; apply NoDup_remove_2 in ND; intros X; apply ND; apply in_or_app; auto).
      rewrite dset_fresh by exact FR.
      destruct (IHm n (d ++ [(nm, v)]) k1 st (off + len a) rest Wm ltac:(rewrite <- app_assoc; exact ND) (fun x y I => MA x y (or_intror I)) ltac:(lia) ltac:(lia) EB) as (k2 & ->).
      exists k2. rewrite <- app_assoc. cbn [app]. f_equal. lia.
    - intros s W NP pre st i off rest O R E. exists i. cbn [length repeat concat app]. rewrite app_nil_r. change (@len Z []) with 0. f_equal. lia.
    - intros s v l a b L IHs Ll IHl W NP pre st i off rest O R E. destruct (win_app data off a b O E) as (EA & EB). rewrite (len_app a b) in *. pose proof (len_nonneg a). pose proof (len_nonneg b).
      cbn [length repeat concat]. rewrite <- app_assoc.
      rewrite (IHs W NP _ _ _ off (concat (repeat (shape_code Unpack s) (length l)) ++ rest) (un_item v (is_array s) pre i st) O ltac:(lia) EA).
      destruct (IHl W NP (pre ++ [v]) st (i + 1) (off + len a) rest ltac:(lia) ltac:(lia) EB) as (j & ->). exists j. rewrite <- app_assoc. cbn [app]. f_equal. lia.
  Qed.
End Unpack.

(** ** Whole programs *)

Lemma prog_head d n sh : 0 <= n < 2 ^ 32 -> shape_prog d n sh = head d n ++ shape_code d sh.
Proof. intros N. unfold shape_prog, head. destruct d; reflexivity. Qed.
(** The program packs a record or array of this shape: its bytes replace as many bytes of
    the data, and the rest is kept. *)
Theorem array_pack sh v b n data off : lays sh v b -> workable Pack sh -> is_plain sh = false -> 0 <= n < 2 ^ 32 -> n <= len data - off -> 0 <= off -> off + len b <= len data ->
  exec_pack_prog (shape_prog Pack n sh) data off v = Ok (overwritten data off b).
Proof.
  intros L W P N H O R. rewrite prog_head by exact N. unfold exec_pack_prog. rewrite verify_total. cbn [bind].
  fold (prun (head Pack n ++ shape_code Pack sh) true (mk_vmstate v None None []) data off).
  rewrite (prun_step _ _ _ _ _ _ _ (parse_head Pack n (shape_code Pack sh) N)) by reflexivity. cbn [exec_pack]. unfold verify_data_len. replace (len data - off <? n) with false by lia. cbn [bind].
  rewrite <- (app_nil_r (shape_code Pack sh)). destruct pack_all as (A & _). rewrite (A sh v b L W P _ _ _ data off [] (at_top v (is_array sh)) O R). reflexivity.
Qed.
Print Assumptions array_pack.
(** The program unpacks the value from its bytes, wherever they are in the data. *)
Theorem array_unpack sh v b n data off : lays sh v b -> workable Unpack sh -> is_plain sh = false -> 0 <= n < 2 ^ 32 -> n <= len data - off -> 0 <= off -> off + len b <= len data -> bytes_ok data ->
  window data off (len b) = b -> exec_unpack_prog (shape_prog Unpack n sh) data off = Ok v.
Proof.
  intros L W P N H O R B E. rewrite prog_head by exact N. unfold exec_unpack_prog. rewrite verify_total. cbn [bind].
  fold (urun (head Unpack n ++ shape_code Unpack sh) true (mk_vmstate VOther None None []) data off).
  rewrite (urun_step _ _ _ _ _ _ _ (parse_head Unpack n (shape_code Unpack sh) N)) by reflexivity. cbn [exec_unpack]. unfold verify_data_len. replace (len data - off <? n) with false by lia. cbn [bind].
  rewrite <- (app_nil_r (shape_code Unpack sh)). destruct (unpack_all data B) as (A & _). rewrite (A sh v b L W P _ _ _ off [] (un_top v (is_array sh)) O R E). reflexivity.
Qed.
Print Assumptions array_unpack.
Lemma lays_ok d : (forall sh v b, lays sh v b -> workable d sh -> bytes_ok b) /\ (forall ms dd b, lays_members ms dd b -> workables d ms -> bytes_ok b) /\
  (forall s l b, lays_items s l b -> workable d s -> bytes_ok b).
Proof.
  apply lays_all.
  - intros t v b X E W. inversion W as [? RT WT| |]; subst. destruct (exact_dec t WT) with (v := v) as (b' & E' & _ & B & _); [destruct t; try exact Logic.I; discriminate|exact X|]. rewrite E in E'. injection E' as <-. exact B.
  - intros ms dd b L IH W. inversion W; subst. auto.
  - intros s l b L IH W. inversion W; subst. auto.
  - intros. constructor.
  - intros nm s v ms dd a b L IH Lm IHm W. inversion W; subst. apply Forall_app. split; [apply IH|apply IHm]; assumption.
  - intros. constructor.
  - intros s v l a b L IH Ll IHl W. apply Forall_app. split; [apply IH|apply IHl]; assumption.
Qed.
(** What is packed is unpacked. *)
Theorem array_pack_unpack sh v b n data off : lays sh v b -> workable Pack sh -> workable Unpack sh -> is_plain sh = false -> 0 <= n < 2 ^ 32 -> n <= len data - off -> 0 <= off -> off + len b <= len data -> bytes_ok data ->
  exists data', exec_pack_prog (shape_prog Pack n sh) data off v = Ok data' /\ len data' = len data /\ exec_unpack_prog (shape_prog Unpack n sh) data' off = Ok v.
Proof.
  intros L WP WU P N H O R B. exists (overwritten data off b). split; [apply array_pack; assumption|]. assert (len (overwritten data off b) = len data) as LE by exact (len_wr data off b O R). split; [exact LE|].
  apply (array_unpack sh v b); try assumption; try (rewrite LE; assumption).
  - apply overwritten_ok; [exact B|]. exact (proj1 (lays_ok Pack) sh v b L WP).
  - exact (win_wr data off b O R).
Qed.
Print Assumptions array_pack_unpack.

(** A record with a number, an array of two records, each with an array of two arrays of
    records, and a text. *)
Definition ex_inner : shape := ShRec [(lit "x", ShPlain (TInt U8))].
Definition ex_item : shape := ShRec [(lit "id", ShPlain (TInt U16)); (lit "m", ShArr 2 (ShArr 1 ex_inner))].
Definition ex_shape : shape := ShRec [(lit "n", ShPlain (TInt S8)); (lit "l", ShArr 2 ex_item); (lit "t", ShPlain (TStr 3))].
Definition ex_x (z : Z) : pyval := VDict [(lit "x", VInt z)].
Definition ex_iv (z : Z) : pyval := VDict [(lit "id", VInt z); (lit "m", VList [VList [ex_x (z + 1)]; VList [ex_x (z + 2)]])].
Definition ex_v : pyval := VDict [(lit "n", VInt (-1)); (lit "l", VList [ex_iv 5; ex_iv 8]); (lit "t", VStr (lit "ab"))].
Example ex_workable : workable Pack ex_shape /\ workable Unpack ex_shape.
Proof.
  assert (forall d, workable d ex_shape) as H; [|split; apply H]. intros d.
  assert (forall t, is_rec t = false -> wf_ty t -> workable d (ShPlain t)) as P by (intros; constructor; assumption).
  assert (forall s l, (forall c, In c s -> 0 < c < 128) -> match d, l with Pack, ShPlain (TArr _ _) => False | Unpack, ShRec _ => False | _, _ => True end -> forall n, name_ok s /\ member_allowed d n l) as M.
  { intros s l A B n. split; [apply Forall_forall; exact A|]. destruct d, l as [[]| |]; try exact B; contradiction. }
  assert (workable d ex_inner) as W1.
  { apply wk_rec; [repeat constructor; intros []| |repeat constructor]. intros nm s [I|[]]; injection I as <- <-. (apply M; [cbn; intros c X; repeat destruct X as [<- |X]; try lia; destruct X|destruct d; exact Logic.I]). }
  assert (workable d ex_item) as W2.
  { apply wk_rec.
    - constructor; [intros [X|[]]; discriminate X|constructor; [intros []|constructor]].
    - intros nm s [I|[I|[]]]; injection I as <- <-; (apply M; [cbn; intros c X; repeat destruct X as [<- |X]; try lia; destruct X|destruct d; exact Logic.I]).
    - constructor; [apply P; cbn; auto|]. constructor; [|constructor]. apply wk_arr; [reflexivity|]. apply wk_arr; [reflexivity|exact W1]. }
  apply wk_rec.
  - constructor; [intros [X|[X|[]]]; discriminate X|constructor; [intros [X|[]]; discriminate X|constructor; [intros []|constructor]]].
  - intros nm s [I|[I|[I|[]]]]; injection I as <- <-; (apply M; [cbn; intros c X; repeat destruct X as [<- |X]; try lia; destruct X|destruct d; exact Logic.I]).
  - constructor; [apply P; cbn; auto|]. constructor; [apply wk_arr; [reflexivity|exact W2]|]. constructor; [apply P; cbn; auto; lia|constructor].
Qed.
Example ex_lays : lays ex_shape ex_v [255; 5; 0; 6; 7; 8; 0; 9; 10; 97; 98; 0].
Proof.
  assert (forall z, 0 <= z < 256 -> lays ex_inner (ex_x z) [z]) as X.
  { intros z Z. constructor. apply (lm_cons _ _ _ _ _ [z] []); [|constructor]. constructor; [cbn; lia|]. cbn [enc enc_int]. replace (in_range U8 z) with true by (unfold in_range, kmin, kmax; cbn -[Z.leb]; lia). cbn. rewrite Z.mod_small by lia. reflexivity. }
  assert (forall z, 0 <= z < 200 -> lays ex_item (ex_iv z) [z; 0; z + 1; z + 2]) as Y.
  { intros z Z. constructor. apply (lm_cons _ _ _ _ _ [z; 0] [z + 1; z + 2]).
    - constructor; [cbn; lia|]. cbn [enc enc_int]. replace (in_range U16 z) with true by (unfold in_range, kmin, kmax; cbn -[Z.leb]; lia). cbn. rewrite Z.mod_small by lia. rewrite (Z.div_small z) by lia. reflexivity.
    - apply (lm_cons _ _ _ _ _ [z + 1; z + 2] []); [|constructor]. apply (ly_arr (ShArr 1 ex_inner) [VList [ex_x (z + 1)]; VList [ex_x (z + 2)]]).
      apply (li_cons _ _ _ [z + 1] [z + 2]); [|apply (li_cons _ _ _ [z + 2] []); [|constructor]];
        [apply (ly_arr ex_inner [ex_x (z + 1)]); apply (li_cons _ _ _ [z + 1] []); [apply X; lia|constructor]|
         apply (ly_arr ex_inner [ex_x (z + 2)]); apply (li_cons _ _ _ [z + 2] []); [apply X; lia|constructor]]. }
  constructor. apply (lm_cons _ _ _ _ _ [255] [5; 0; 6; 7; 8; 0; 9; 10; 97; 98; 0]); [constructor; [cbn; lia|reflexivity]|].
  apply (lm_cons _ _ _ _ _ [5; 0; 6; 7; 8; 0; 9; 10] [97; 98; 0]).
  - apply (ly_arr ex_item [ex_iv 5; ex_iv 8]). apply (li_cons _ _ _ [5; 0; 6; 7] [8; 0; 9; 10]); [apply (Y 5); lia|]. apply (li_cons _ _ _ [8; 0; 9; 10] []); [apply (Y 8); lia|constructor].
  - apply (lm_cons _ _ _ _ _ [97; 98; 0] []); [|constructor]. constructor; [|reflexivity]. split; [cbn; intros [A|[A|[]]]; discriminate A|]. exists [97; 98]. split; [reflexivity|unfold len; cbn; lia].
Qed.
Example ex_array_prog : exec_pack_prog (shape_prog Pack 12 ex_shape) [1; 1; 1; 1; 1; 1; 1; 1; 1; 1; 1; 1; 1; 1] 1 ex_v = Ok [1; 255; 5; 0; 6; 7; 8; 0; 9; 10; 97; 98; 0; 1] /\
  exec_unpack_prog (shape_prog Unpack 12 ex_shape) [1; 255; 5; 0; 6; 7; 8; 0; 9; 10; 97; 98; 0; 1] 1 = Ok ex_v.
Proof. split; vm_compute; reflexivity. Qed.
(** A record in a record is packed but not unpacked. *)
Theorem record_unpack_refuted : exists sh v b, lays sh v b /\ workable Pack sh /\ is_plain sh = false /\
  exec_pack_prog (shape_prog Pack (len b) sh) [0] 0 v = Ok b /\ exec_unpack_prog (shape_prog Unpack (len b) sh) b 0 = Err NotImplementedError.
Proof.
  exists (ShRec [(lit "r", ex_inner)]), (VDict [(lit "r", ex_x 7)]), [7]. split; [|split; [|split; [reflexivity|split; vm_compute; reflexivity]]].
  - constructor. apply (lm_cons _ _ _ _ _ [7] []); [|constructor]. constructor. apply (lm_cons _ _ _ _ _ [7] []); [|constructor]. constructor; [cbn; lia|reflexivity].
  - apply wk_rec; [repeat constructor; intros []| |].
    + intros nm s [I|[]]; injection I as <- <-. split; [repeat constructor|exact Logic.I].
    + constructor; [|constructor]. apply wk_rec; [repeat constructor; intros []| |].
      * intros nm s [I|[]]; injection I as <- <-. split; [repeat constructor|exact Logic.I].
      * constructor; [|constructor]. apply wk_plain; [reflexivity|exact Logic.I].
Qed.
Print Assumptions record_unpack_refuted.
(** An item that is no record is not selected: the list itself is packed. *)
Theorem plain_item_refuted : exists sh v b, lays sh v b /\ exec_pack_prog (shape_prog Pack (len b) sh) [0; 0] 0 v = Err StructError.
Proof.
  exists (ShArr 2 (ShPlain (TInt U8))), (VList [VInt 7; VInt 8]), [7; 8]. split; [|vm_compute; reflexivity].
  apply (ly_arr (ShPlain (TInt U8)) [VInt 7; VInt 8]). apply (li_cons _ _ _ [7] [8]); [constructor; [cbn; lia|reflexivity]|]. apply (li_cons _ _ _ [8] []); [constructor; [cbn; lia|reflexivity]|constructor].
Qed.
Print Assumptions plain_item_refuted.
