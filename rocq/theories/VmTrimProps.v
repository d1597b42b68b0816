(** C93: the machine packs from a value what the program asks for. *)
From Coq Require Import ZifyBool ZifyNat Lia.
From Verif Require Import Py PyLemmas TypesModel CompilerModel VmModel TypesSpec VmArraySpec VmTrimSpec TypesProofs CompilerProofs VmProofs VmPackProofs VmUnpackProofs VmProps VmArrayProps.
Ltac Zify.zify_post_hook ::= Z.div_mod_to_equations.

Scheme gives_mind := Induction for gives Sort Prop
  with gives_members_mind := Induction for gives_members Sort Prop
  with gives_items_mind := Induction for gives_items Sort Prop.
Combined Scheme gives_all from gives_mind, gives_members_mind, gives_items_mind.

Lemma member_gives nm s v d st data off rest b n : (is_plain s = false -> packs s v b) -> gives s v b -> workable Pack s -> member_allowed Pack n s -> Z.of_nat n <= len d -> dget nm d = Some v ->
  0 <= off -> off + len b <= len data ->
  exists k, prun (shape_code Pack s ++ rest) false (mk_vmstate (VDict d) (Some nm) None st) data off = prun rest false (mk_vmstate (VDict d) k None st) (wr data off b) (off + len b).
Proof.
  intros P L W MA LD G O R. destruct (is_plain s) eqn:PS.
  - destruct s as [t| |]; try discriminate. inversion W as [? RT WT| |]; subst. inversion L as [? ? ? X E| |]; subst. pose proof (enc_len t WT _ _ E) as LB.
    cbn [shape_code]. rewrite plain_body by assumption. destruct (member_all t) as (M & _). rewrite LB in *. eapply M; eauto.
    destruct t; cbn [mroom member_allowed] in *; rewrite ?G; try exact Logic.I; try discriminate. lia.
  - eexists. apply (P eq_refl _ _ _ _ _ _ (at_member v (is_array s) d nm st G) O R).
Qed.
Lemma members_in ms d b : gives_members ms d b -> NoDup (map fst ms) -> Z.of_nat (length ms) <= len d.
Proof.
  intros L ND. assert (incl (map fst ms) (map fst d)) as I.
  { clear ND. induction L as [|nm s v ms d a b G _ _ IH]; intros x X; [destruct X|]. destruct X as [<- |X]; [|apply IH; exact X]. cbn [fst].
    clear -G. induction d as [|[k y] d IH]; [discriminate|]. cbn [dget] in G. cbn [map fst]. destruct (str_eqb k nm) eqn:E; [left; apply str_eqb_eq in E; congruence|right; apply IH; exact G]. }
  pose proof (NoDup_incl_length ND I) as H. rewrite !map_length in H. unfold len. lia.
Qed.
Lemma gives_pack :
  (forall sh v b, gives sh v b -> workable Pack sh -> is_plain sh = false -> packs sh v b) /\
  (forall ms d b, gives_members ms d b -> forall n k st data off rest, workables Pack ms -> (forall nm s, In (nm, s) ms -> name_ok nm /\ member_allowed Pack n s) -> Z.of_nat n <= len d ->
    0 <= off -> off + len b <= len data ->
    exists k', prun (members_code Pack ms ++ rest) false (mk_vmstate (VDict d) k None st) data off = prun rest false (mk_vmstate (VDict d) k' None st) (wr data off b) (off + len b)) /\
  (forall s l b, gives_items s l b -> workable Pack s -> is_plain s = false -> forall pre more st data off rest, 0 <= off -> off + len b <= len data ->
    prun (concat (repeat (shape_code Pack s) (length l)) ++ rest) false (mk_vmstate (VList (pre ++ l ++ more)) None (Some (len pre)) st) data off =
    prun rest false (mk_vmstate (VList (pre ++ l ++ more)) None (Some (len (pre ++ l))) st) (wr data off b) (off + len b)).
Proof.
  apply gives_all.
  - intros t v b X E W P. discriminate P.
  - intros ms d b L IH W _ s st s' data off rest PL O R. inversion W as [|? ND MA WS|]; subst.
    pose proof (members_in ms d b L ND) as LD. rewrite code_rec. cbn [is_array] in PL.
    assert (p_record_enter s = Ok (mk_vmstate (VDict d) None None st)) as EN.
    { inversion PL as [|? ? ? ? I|? ? ? ? I]; subst; [reflexivity|cbn; rewrite I; reflexivity|cbn; rewrite I; reflexivity]. }
    rewrite (prun_step _ _ _ _ _ _ _ (parse_enter (members_code Pack ms ++ 31 :: rest))) by reflexivity. cbn [exec_pack]. rewrite EN. cbn [bind].
    destruct (IH (length ms) None st data off (31 :: rest) WS MA LD O R) as (k' & ->).
    rewrite (prun_step _ _ _ _ _ _ _ (parse_leave rest)) by reflexivity. cbn [exec_pack].
    assert (p_record_leave (mk_vmstate (VDict d) k' None st) = Ok s') as -> by (inversion PL; subst; reflexivity). reflexivity.
  - intros s l more b L IH W _ s0 st s' data off rest PL O R. inversion W as [| |? ? NP WS]; subst. rewrite code_arr. cbn [is_array] in PL.
    assert (p_array_enter s0 = Ok (mk_vmstate (VList (l ++ more)) None (Some 0) st)) as EN.
    { inversion PL as [|? ? ? ? I|? ? ? ? I]; subst; [reflexivity|cbn; rewrite I; reflexivity|cbn; rewrite I; reflexivity]. }
    rewrite (prun_step _ _ _ _ _ _ _ (parse_array_enter _)) by reflexivity. cbn [exec_pack]. rewrite EN. cbn [bind].
    pose proof (IH WS NP [] more st data off (33 :: rest) O R) as E. cbn [app] in E. change (@len pyval []) with 0 in E. rewrite E.
    rewrite (prun_step _ _ _ _ _ _ _ (parse_array_leave rest)) by reflexivity. cbn [exec_pack].
    assert (p_array_leave (mk_vmstate (VList (l ++ more)) None (Some (len l)) st) = Ok s') as -> by (inversion PL; subst; reflexivity). reflexivity.
  - intros d n k st data off rest _ _ _ O R. exists k. cbn [members_code flat_map app]. rewrite wr_nil. f_equal. change (@len Z []) with 0. lia.
  - intros nm s v ms d a b G L IHs Lm IHm n k st data off rest WS MA LD O R. inversion WS as [|? ? ? Ws Wm]; subst. rewrite code_member. rewrite (len_app a b) in *. pose proof (len_nonneg a). pose proof (len_nonneg b).
    destruct (MA nm s (or_introl eq_refl)) as (NO & AL). rewrite (prun_step _ _ _ _ _ _ _ (parse_select nm _ NO)) by reflexivity. cbn [exec_pack record_select is_dict vs_value vs_index vs_stack bind].
    destruct (member_gives nm s v d st data off (members_code Pack ms ++ rest) a n (fun P => IHs Ws P) L Ws AL LD G O ltac:(lia)) as (k1 & ->).
    destruct (IHm n k1 st (wr data off a) (off + len a) rest Wm (fun x y I => MA x y (or_intror I)) LD ltac:(lia) ltac:(rewrite len_wr; lia)) as (k2 & ->).
    exists k2. rewrite wr_wr by lia. f_equal. lia.
  - intros s W NP pre more st data off rest O R. cbn [length repeat concat app]. rewrite app_nil_r, wr_nil. change (@len Z []) with 0. f_equal. lia.
  - intros s v l a b L IHs Ll IHl W NP pre more st data off rest O R. rewrite (len_app a b) in *. pose proof (len_nonneg a). pose proof (len_nonneg b). cbn [length repeat concat app]. rewrite <- app_assoc.
    rewrite (IHs W NP _ _ _ data off (concat (repeat (shape_code Pack s) (length l)) ++ rest) (at_item v (is_array s) (pre ++ v :: l ++ more) (len pre) st (index_mid pre v (l ++ more))) O ltac:(lia)).
    specialize (IHl W NP (pre ++ [v]) more st (wr data off a) (off + len a) rest ltac:(lia) ltac:(rewrite len_wr; lia)). rewrite <- !app_assoc in IHl. cbn [app] in IHl.
    replace (len (pre ++ [v])) with (len pre + 1) in IHl by (rewrite len_app; reflexivity). rewrite IHl. rewrite wr_wr by lia. f_equal. lia.
Qed.
Lemma gives_trimmed :
  (forall sh v b, gives sh v b -> lays sh (trimmed sh v) b) /\
  (forall ms d b, gives_members ms d b -> lays_members ms (map (fun m => let '(nm, s) := m in (nm, match dget nm d with Some x => trimmed s x | None => VOther end)) ms) b) /\
  (forall s l b, gives_items s l b -> lays_items s (map (trimmed s) l) b).
Proof.
  apply gives_all.
  - intros t v b X E. constructor; assumption.
  - intros ms d b _ L. cbn [trimmed]. constructor. exact L.
  - intros s l more b _ L. cbn [trimmed]. replace (firstn (length l) (l ++ more)) with l by (rewrite firstn_app, Nat.sub_diag, firstn_all; cbn; rewrite app_nil_r; reflexivity).
    rewrite <- (map_length (trimmed s) l). constructor. exact L.
  - intros. constructor.
  - intros nm s v ms d a b G _ L _ Lm. cbn [map]. rewrite G. constructor; assumption.
  - intros. constructor.
  - intros s v l a b _ L _ Ll. cbn [map]. constructor; assumption.
Qed.

(** Start of a pack program on a value. *)
Lemma pack_start n sh data off v : 0 <= n < 2 ^ 32 -> n <= len data - off ->
  exec_pack_prog (shape_prog Pack n sh) data off v = do '(_, data', _) <- prun (shape_code Pack sh ++ []) false (mk_vmstate v None None []) data off; Ok data'.
Proof.
  intros N H. rewrite prog_head by exact N. unfold exec_pack_prog. rewrite verify_total. cbn [bind].
  fold (prun (head Pack n ++ shape_code Pack sh) true (mk_vmstate v None None []) data off).
  rewrite (prun_step _ _ _ _ _ _ _ (parse_head Pack n (shape_code Pack sh) N)) by reflexivity. cbn [exec_pack]. unfold verify_data_len. replace (len data - off <? n) with false by lia. cbn [bind].
  rewrite app_nil_r. reflexivity.
Qed.
(** Further members of a dict, their order, and further items of a list do not matter. *)
Theorem pack_what_is_asked sh v b n data off : gives sh v b -> workable Pack sh -> is_plain sh = false -> 0 <= n < 2 ^ 32 -> n <= len data - off -> 0 <= off -> off + len b <= len data ->
  exec_pack_prog (shape_prog Pack n sh) data off v = Ok (overwritten data off b) /\
  exec_pack_prog (shape_prog Pack n sh) data off (trimmed sh v) = Ok (overwritten data off b).
Proof.
  intros L W P N H O R. split.
  - rewrite pack_start by assumption. destruct gives_pack as (A & _). rewrite (A sh v b L W P _ _ _ data off [] (at_top v (is_array sh)) O R). reflexivity.
  - apply array_pack; try assumption. apply gives_trimmed. exact L.
Qed.
Print Assumptions pack_what_is_asked.
(** Unpacking gives the value without them. *)
Theorem unpack_what_was_asked sh v b n data off : gives sh v b -> workable Pack sh -> workable Unpack sh -> is_plain sh = false -> 0 <= n < 2 ^ 32 -> n <= len data - off -> 0 <= off -> off + len b <= len data -> bytes_ok data ->
  exists data', exec_pack_prog (shape_prog Pack n sh) data off v = Ok data' /\ exec_unpack_prog (shape_prog Unpack n sh) data' off = Ok (trimmed sh v).
Proof.
  intros L WP WU P N H O R B. destruct gives_trimmed as (T & _).
  destruct (array_pack_unpack sh (trimmed sh v) b n data off (T _ _ _ L) WP WU P N H O R B) as (data' & E & _ & U).
  destruct (pack_what_is_asked sh v b n data off L WP P N H O R) as (E1 & E2). exists (overwritten data off b). split; [exact E1|]. rewrite E2 in E. injection E as <-. exact U.
Qed.
Print Assumptions unpack_what_was_asked.

Lemma index_end (l : list pyval) : index l (len l) = Err IndexError.
Proof.
  unfold index. pose proof (len_nonneg l). replace (len l <? 0) with false by lia. replace (len l <? 0) with false by lia.
  replace (nth_error l (Z.to_nat (len l))) with (@None pyval); [reflexivity|]. symmetry. apply nth_error_None. unfold len. lia.
Qed.
(** A list that is too short: IndexError. *)
Theorem short_list_raises s l b m n data off : gives_items s l b -> workable Pack s -> is_plain s = false -> (length l < m)%nat -> 0 <= n < 2 ^ 32 -> n <= len data - off -> 0 <= off -> off + len b <= len data ->
  exec_pack_prog (shape_prog Pack n (ShArr m s)) data off (VList l) = Err IndexError.
Proof.
  intros L W P M N H O R. rewrite pack_start by assumption. rewrite code_arr. rewrite (prun_step _ _ _ _ _ _ _ (parse_array_enter _)) by reflexivity. cbn [exec_pack p_array_enter vs_key vs_index vs_value vs_stack is_list bind].
  replace m with (length l + S (m - length l - 1))%nat by lia. rewrite repeat_app, concat_app, <- app_assoc.
  destruct gives_pack as (_ & _ & A). pose proof (A s l b L W P [] [] [] data off (concat (repeat (shape_code Pack s) (S (m - length l - 1))) ++ [33]) O R) as E.
  cbn [app] in E. rewrite app_nil_r in E. change (@len pyval []) with 0 in E. rewrite E. cbn [repeat concat]. rewrite <- app_assoc. generalize (concat (repeat (shape_code Pack s) (m - length l - 1)) ++ [33]) as rest. intros rest.
  destruct s as [t|ms|k s]; try discriminate.
  - rewrite code_rec. rewrite (prun_step _ _ _ _ _ _ _ (parse_enter _)) by reflexivity. cbn [exec_pack p_record_enter vs_key vs_index vs_value sub_int]. rewrite index_end. reflexivity.
  - rewrite code_arr. rewrite (prun_step _ _ _ _ _ _ _ (parse_array_enter _)) by reflexivity. cbn [exec_pack p_array_enter vs_key vs_index vs_value sub_int]. rewrite index_end. reflexivity.
Qed.
Print Assumptions short_list_raises.
(** A dict without a member: KeyError, whatever follows. *)
Theorem missing_member_raises ms nm s more d b n data off : gives_members ms d b -> workable Pack (ShRec ms) -> name_ok nm -> workable Pack s -> dget nm d = None -> 0 <= n < 2 ^ 32 -> n <= len data - off -> 0 <= off -> off + len b <= len data ->
  exec_pack_prog (shape_prog Pack n (ShRec (ms ++ (nm, s) :: more))) data off (VDict d) = Err KeyError.
Proof.
  intros L W NO Ws G N H O R. rewrite pack_start by assumption. rewrite code_rec. rewrite (prun_step _ _ _ _ _ _ _ (parse_enter _)) by reflexivity. cbn [exec_pack p_record_enter vs_key vs_index vs_value is_dict bind].
  assert (members_code Pack (ms ++ (nm, s) :: more) = members_code Pack ms ++ members_code Pack ((nm, s) :: more)) as -> by (unfold members_code; rewrite flat_map_app; reflexivity).
  rewrite <- app_assoc. inversion W as [|? ND MA WS|]; subst. destruct gives_pack as (_ & A & _).
  destruct (A ms d b L (length ms) None [] data off (members_code Pack ((nm, s) :: more) ++ [31]) WS MA (members_in ms d b L ND) O R) as (k & ->).
  rewrite code_member. rewrite (prun_step _ _ _ _ _ _ _ (parse_select nm _ NO)) by reflexivity. cbn [exec_pack record_select is_dict vs_value vs_index vs_stack bind].
  generalize (members_code Pack more ++ [31]) as rest. intros rest. destruct s as [t|ms'|m s].
  - inversion Ws as [? RT WT| |]; subst. cbn [shape_code]. rewrite plain_body by assumption. destruct t as [k0|k0 m| |m|ms']; try discriminate; cbn [wf_ty] in WT.
    + cbn [body app]. rewrite (prun_step _ _ _ _ _ _ _ (parse_scalar Pack k0 _ WT)) by reflexivity. cbn [iscalar exec_pack]. unfold pack_struct, current. cbn [vs_value vs_key]. rewrite G. reflexivity.
    + destruct WT as (WT & LM). cbn [body app]. rewrite (prun_step _ _ _ _ _ _ _ (parse_array Pack k0 m _ WT ltac:(lia))) by reflexivity. cbn [iscalar exec_pack]. unfold pack_struct, current. cbn [vs_value vs_key]. rewrite G. reflexivity.
    + destruct WT.
    + cbn [body app]. rewrite (prun_step _ _ _ _ _ _ _ (parse_string Pack m _ ltac:(lia))) by reflexivity. cbn [istring exec_pack]. unfold pack_str, current. cbn [vs_value vs_key]. rewrite G. reflexivity.
  - rewrite code_rec. rewrite (prun_step _ _ _ _ _ _ _ (parse_enter _)) by reflexivity. cbn [exec_pack p_record_enter vs_key vs_index vs_value sub_key]. rewrite G. reflexivity.
  - rewrite code_arr. rewrite (prun_step _ _ _ _ _ _ _ (parse_array_enter _)) by reflexivity. cbn [exec_pack p_array_enter vs_key vs_index vs_value sub_key]. rewrite G. reflexivity.
Qed.
Print Assumptions missing_member_raises.

(** A list with one item too many, whose records have their members in another order and a
    further one; and lists and dicts with too little. *)
Definition ex_pair : shape := ShRec [(lit "a", ShPlain (TInt U8)); (lit "b", ShPlain (TInt U16))].
Definition ex_big (x y : Z) : pyval := VDict [(lit "c", VStr (lit "no")); (lit "b", VInt y); (lit "a", VInt x)].
Example ex_gives : gives (ShArr 2 ex_pair) (VList [ex_big 1 2; ex_big 3 4; VInt 7]) [1; 2; 0; 3; 4; 0].
Proof.
  assert (forall x y, 0 <= x < 256 -> 0 <= y < 256 -> gives ex_pair (ex_big x y) [x; y; 0]) as X.
  { intros x y RX RY. constructor. apply (gm_cons _ _ (VInt x) _ _ [x] [y; 0]); [reflexivity| |apply (gm_cons _ _ (VInt y) _ _ [y; 0] []); [reflexivity| |constructor]]; (constructor; [cbn; lia|]); cbn [enc enc_int].
    - replace (in_range U8 x) with true by (unfold in_range, kmin, kmax; cbn -[Z.leb]; lia). cbn. rewrite Z.mod_small by lia. reflexivity.
    - replace (in_range U16 y) with true by (unfold in_range, kmin, kmax; cbn -[Z.leb]; lia). cbn. rewrite Z.mod_small by lia. rewrite (Z.div_small y) by lia. reflexivity. }
  apply (gv_arr ex_pair [ex_big 1 2; ex_big 3 4] [VInt 7]). apply (gi_cons _ _ _ [1; 2; 0] [3; 4; 0]); [apply X; lia|]. apply (gi_cons _ _ _ [3; 4; 0] []); [apply X; lia|constructor].
Qed.
Example ex_trim_prog : exec_pack_prog (shape_prog Pack 6 (ShArr 2 ex_pair)) [9; 9; 9; 9; 9; 9; 9] 1 (VList [ex_big 1 2; ex_big 3 4; VInt 7]) = Ok [9; 1; 2; 0; 3; 4; 0] /\
  exec_unpack_prog (shape_prog Unpack 6 (ShArr 2 ex_pair)) [9; 1; 2; 0; 3; 4; 0] 1 = Ok (VList [VDict [(lit "a", VInt 1); (lit "b", VInt 2)]; VDict [(lit "a", VInt 3); (lit "b", VInt 4)]]) /\
  exec_pack_prog (shape_prog Pack 6 (ShArr 2 ex_pair)) [9; 9; 9; 9; 9; 9] 0 (VList [ex_big 1 2]) = Err IndexError /\
  exec_pack_prog (shape_prog Pack 3 ex_pair) [9; 9; 9] 0 (VDict [(lit "a", VInt 1)]) = Err KeyError.
Proof. repeat split; vm_compute; reflexivity. Qed.
Example ex_trim_workable : workable Pack (ShArr 2 ex_pair) /\ workable Unpack (ShArr 2 ex_pair).
Proof.
  assert (forall d, workable d (ShArr 2 ex_pair)) as H; [|split; apply H]. intros d. apply wk_arr; [reflexivity|]. apply wk_rec.
  - constructor; [intros [X|[]]; discriminate X|constructor; [intros []|constructor]].
  - intros nm s [I|[I|[]]]; injection I as <- <-; (split; [repeat constructor|destruct d; exact Logic.I]).
  - repeat apply ws_cons; try apply ws_nil; (apply wk_plain; [reflexivity|exact Logic.I]).
Qed.
