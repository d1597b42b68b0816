(** Lemmas about the old definition writer. *)
From Coq Require Import ZifyBool ZifyNat Lia.
From Verif Require Import Py PyLemmas TypesModel TextModel SigModel AttrModel NodeModel ParserModel AutosarModel.
From Verif Require Import TypesSpec SigSpec AttrSpec NodeSpec ParserSpec AutosarSpec TextProofs SigProofs AttrProofs.
From Verif Require Import ElemTextProofs RoundTripProofs AutosarProofs WriterModel WriterSpec.
Ltac Zify.zify_post_hook ::= Z.div_mod_to_equations.

Lemma range_from E hi : we_math E = true -> range_code E 0 hi =
  if hi <=? 0 then Err ValueError
  else if hi <=? 256 then Ok (Some (prim_text CU8 (if hi <? 255 then Some (0, hi) else None)))
  else if hi <=? 65536 then Ok (Some (prim_text CU16 None))
  else if hi <=? 4294967296 then Ok (Some (prim_text CU32 None))
  else if hi <=? 18446744073709551616 then Ok (Some (prim_text CU64 None)) else Ok None.
Proof.
  intros M. unfold range_code, uint_len. rewrite M. change (0 <=? 0) with true. change (0 <? 0) with false. change (0 =? 0) with true. cbn [negb orb].
  destruct (hi <=? 0) eqn:Z0; [reflexivity|]. cbn [bind].
  rewrite !log2_up_le by lia. change (2 ^ 8) with 256. change (2 ^ 16) with 65536.
  change (2 ^ 32) with 4294967296. change (2 ^ 64) with 18446744073709551616.
  ite; reflexivity.
Qed.
Lemma range_below E lo hi : we_math E = true -> lo < 0 -> range_code E lo hi =
  if hi =? 0 then Err ValueError
  else if Z.abs hi <=? 128 then Ok (Some (prim_text CS8 (if (-128 <? lo) || (hi <? 127) then Some (lo, hi) else None)))
  else if Z.abs hi <=? 32768 then Ok (Some (prim_text CS16 None))
  else if Z.abs hi <=? 2147483648 then Ok (Some (prim_text CS32 None))
  else if Z.abs hi <=? 9223372036854775808 then Ok (Some (prim_text CS64 None)) else Ok None.
Proof.
  intros M L. unfold range_code, int_len. rewrite M. replace (0 <=? lo) with false by lia. cbn [negb].
  destruct (hi =? 0) eqn:Z0; [reflexivity|]. cbn [bind].
  assert (forall k, 1 <= k -> (Z.log2_up (Z.abs hi) + 1 <=? k) = (Z.abs hi <=? 2 ^ (k - 1))) as X.
  { intros k K. rewrite <- log2_up_le by lia. lia. }
  rewrite !X by lia. change (2 ^ (8 - 1)) with 128. change (2 ^ (16 - 1)) with 32768.
  change (2 ^ (32 - 1)) with 2147483648. change (2 ^ (64 - 1)) with 9223372036854775808.
  ite; reflexivity.
Qed.

Lemma range_found E lo hi : we_math E = true -> good_range lo hi ->
  exists c lim, range_code E lo hi = Ok (Some (prim_text c lim)) /\ holds_range lo hi (prim_elem c lim).
Proof.
  intros M [LE [[-> [B N]]|[L [Z0 R]]]].
  - rewrite range_from by exact M. cbn [In] in N. replace (hi <=? 0) with false by lia.
    destruct (hi <=? 256) eqn:E1; [|destruct (hi <=? 65536) eqn:E2; [|destruct (hi <=? 4294967296) eqn:E3; [|
      destruct (hi <=? 18446744073709551616) eqn:E4; [|lia]]]]; eexists _, _; (split; [reflexivity|]).
    + apply (in_range_elem CU8 U8); [reflexivity|cbn; lia|change (kmax U8) with 255; lia|]. ite; auto.
    + apply (in_range_elem CU16 U16); [reflexivity|cbn; lia|change (kmax U16) with 65535; lia|auto].
    + apply (in_range_elem CU32 U32); [reflexivity|cbn; lia|change (kmax U32) with 4294967295; lia|auto].
    + apply (in_range_elem CU64 U64); [reflexivity|cbn; lia|change (kmax U64) with 18446744073709551615; lia|auto].
  - rewrite range_below by auto. replace (hi =? 0) with false by lia.
    destruct (Z.abs hi <=? 128) eqn:E1; [|destruct (Z.abs hi <=? 32768) eqn:E2; [|destruct (Z.abs hi <=? 2147483648) eqn:E3; [|
      destruct (Z.abs hi <=? 9223372036854775808) eqn:E4; [|lia]]]]; eexists _, _; (split; [reflexivity|]).
    + apply (in_range_elem CS8 S8); [reflexivity|change (kmin S8) with (-128); lia|change (kmax S8) with 127; lia|]. ite; auto.
    + apply (in_range_elem CS16 S16); [reflexivity|change (kmin S16) with (-32768); lia|change (kmax S16) with 32767; lia|auto].
    + apply (in_range_elem CS32 S32); [reflexivity|change (kmin S32) with (-2147483648); lia|change (kmax S32) with 2147483647; lia|auto].
    + apply (in_range_elem CS64 S64); [reflexivity|change (kmin S64) with (-9223372036854775808); lia|change (kmax S64) with 9223372036854775807; lia|auto].
Qed.

Lemma prim_only c lim lo hi : holds_range lo hi (prim_elem c lim) -> exists k, kind_of c = Some k /\ kmin k <= lo /\ hi <= kmax k.
Proof. intros (c' & l & h & k & E & K & A & B & _). unfold prim_elem in E. injection E as <- _ _. eauto. Qed.

Lemma range_only E lo hi s e : we_math E = true -> lo <= hi -> range_code E lo hi = Ok (Some s) -> parse_signature s = Ok e ->
  holds_range lo hi e -> good_range lo hi.
Proof.
  intros M LE R P H. split; [exact LE|].
  assert (forall c lim k, s = prim_text c lim -> kind_of c = Some k -> kmin k <= lo /\ hi <= kmax k) as X.
  { intros c lim k -> K. rewrite prim_read_back in P. injection P as <-. apply prim_only in H as (k' & K' & A & B). rewrite K in K'. injection K' as <-. auto. }
  destruct (0 <=? lo) eqn:L0.
  - destruct (lo =? 0) eqn:L1.
    + left. apply Z.eqb_eq in L1. subst lo. split; [reflexivity|]. rewrite range_from in R by exact M. unfold unsigned_ok. cbn [In].
      destruct (hi <=? 0) eqn:E0; [discriminate|].
      destruct (hi <=? 256) eqn:E1; [|destruct (hi <=? 65536) eqn:E2; [|destruct (hi <=? 4294967296) eqn:E3; [|
        destruct (hi <=? 18446744073709551616) eqn:E4; [|discriminate]]]]; injection R as <-.
      * destruct (X CU8 _ U8 eq_refl eq_refl) as [_ B]. change (kmax U8) with 255 in B. lia.
      * destruct (X CU16 _ U16 eq_refl eq_refl) as [_ B]. change (kmax U16) with 65535 in B. lia.
      * destruct (X CU32 _ U32 eq_refl eq_refl) as [_ B]. change (kmax U32) with 4294967295 in B. lia.
      * destruct (X CU64 _ U64 eq_refl eq_refl) as [_ B]. change (kmax U64) with 18446744073709551615 in B. lia.
    + unfold range_code, uint_len in R. rewrite L0, L1 in R. discriminate.
  - right. split; [lia|]. rewrite range_below in R by (auto; lia). unfold signed_range.
    destruct (hi =? 0) eqn:E0; [discriminate|]. split; [lia|].
    destruct (Z.abs hi <=? 128) eqn:E1; [|destruct (Z.abs hi <=? 32768) eqn:E2; [|destruct (Z.abs hi <=? 2147483648) eqn:E3; [|
      destruct (Z.abs hi <=? 9223372036854775808) eqn:E4; [|discriminate]]]]; injection R as <-.
    + destruct (X CS8 _ S8 eq_refl eq_refl) as [A B]. change (kmin S8) with (-128) in A. change (kmax S8) with 127 in B. lia.
    + destruct (X CS16 _ S16 eq_refl eq_refl) as [A B]. change (kmin S16) with (-32768) in A. change (kmax S16) with 32767 in B. lia.
    + destruct (X CS32 _ S32 eq_refl eq_refl) as [A B]. change (kmin S32) with (-2147483648) in A. change (kmax S32) with 2147483647 in B. lia.
    + destruct (X CS64 _ S64 eq_refl eq_refl) as [A B]. change (kmin S64) with (-9223372036854775808) in A. change (kmax S64) with 9223372036854775807 in B. lia.
Qed.

(** ** Types *)

Fixpoint member_sigs (k : nat) (E : wenv) (l : list (str * str)) : res str :=
  match l with
  | [] => Ok []
  | (name, ref) :: r =>
    do t <- find E ref;
    match t with
    | None => Err TypeError
    | Some t =>
      do sig <- data_signature k E t;
      do b <- member_sigs k E r;
      Ok ([QUOTE] ++ name ++ [QUOTE] ++ match sig with Some s => s | None => lit "None" end ++ b)
    end
  end.
Lemma record_sig k E d ms : wt_kind d = Some (WRecord ms) ->
  data_signature (S k) E d = do body <- member_sigs k E ms; Ok (Some (lit "{" ++ body ++ lit "}")).
Proof.
  intros K. cbn [data_signature]. rewrite K. f_equal. induction ms as [|[n r] ms IH]; [reflexivity|].
  cbn [member_sigs]. destruct (find E r) as [[t|]|x]; [|reflexivity|reflexivity]. cbn [bind].
  destruct (data_signature k E t); [|reflexivity]. cbn [bind]. 
  match goal with |- (do b <- ?f ms; _) = _ => change (f ms) with ((fix go l := match l with
        | [] => Ok []
        | (name, ref) :: r =>
          do t <- find E ref;
          match t with
          | None => Err TypeError
          | Some t =>
            do sig <- data_signature k E t;
            do b <- go r;
            Ok ([QUOTE] ++ name ++ [QUOTE] ++ match sig with Some s => s | None => lit "None" end ++ b)
          end
        end) ms) end.
  clear IH K. assert (forall (a b : res str), a = b -> forall f : str -> res str, bind a f = bind b f) as C by (intros; subst; reflexivity).
  apply C. induction ms as [|[n' r'] ms IH]; [reflexivity|]. cbn [member_sigs].
  destruct (find E r') as [[t'|]|x]; [|reflexivity|reflexivity]. cbn [bind].
  destruct (data_signature k E t'); [|reflexivity]. cbn [bind]. apply C. exact IH.
Qed.

Definition written (types : str -> option wdict) (d : wdict) (sig : res (option str)) : Prop :=
  exists e s, sig = Ok (Some s) /\ elem_string false no_types e = Ok s /\ means types d e /\ tidy true e /\ nameless e = e.
Definition all_written (types : str -> option wdict) (ms : list (str * str)) (body : res str) : Prop :=
  exists es b, body = Ok b /\ members_string false no_types es = Ok b /\ means_members types ms es /\ tidies true es.

Lemma prim_tidy c lim : tidy true (prim_elem c lim).
Proof. unfold prim_elem. cbn. destruct lim as [[lo hi]|]; cbn; split; auto; split; congruence. Qed.
Lemma with_name_tidy s e : tidy true (with_name s e) = tidy true e.
Proof. destruct e as [n c lo hi a|n es|n [|r|i]]; reflexivity. Qed.

Lemma all_fine types k d : fine types k d -> written types d (data_signature k (mk_wenv true (Some types)) d).
Proof.
  set (E := mk_wenv true (Some types)).
  apply (fine_mind types (fun k d _ => written types d (data_signature k E d)) (fun k ms _ => all_written types ms (member_sigs k E ms))).
  - clear. intros k d K. cbn [data_signature]. rewrite K. exists (prim_elem CU8 (Some (0, 1))). eexists. split; [reflexivity|].
    split; [rewrite prim_string; reflexivity|]. split; [apply me_bool, K|]. split; [apply prim_tidy|reflexivity].
  - clear. intros k d lo hi K G. destruct (range_found E lo hi eq_refl G) as (c & lim & R & H).
    cbn [data_signature]. rewrite K, R. exists (prim_elem c lim), (prim_text c lim). split; [reflexivity|].
    split; [apply prim_string|]. split; [eapply me_int; eauto|]. split; [apply prim_tidy|reflexivity].
  - clear. intros k d ref n d' lo hi K N F K' G. destruct (range_found E lo hi eq_refl G) as (c & lim & R & H).
    cbn [data_signature]. rewrite K. unfold find, E. cbn [we_types]. rewrite F. cbn [bind integer_code]. rewrite K'. fold E. rewrite R. cbn [bind].
    exists (DPrim None c (option_map fst lim) (option_map snd lim) (Some n)). eexists. split; [reflexivity|].
    split; [destruct lim as [[l h]|]; cbn; rewrite <- ?app_assoc; reflexivity|].
    split; [eapply me_array; eauto|]. split; [|reflexivity]. destruct lim as [[l h]|]; cbn; repeat split; auto; congruence.
  - clear. intros k d n K N. cbn [data_signature]. rewrite K. exists (DPrim None CSTR None None (Some (n + 1))). eexists.
    split; [reflexivity|]. split; [reflexivity|]. split; [apply me_string, K|]. split; [cbn; split; [tauto|lia]|reflexivity].
  - clear. intros k d ms K F (es & b & B & M & D & T). rewrite (record_sig _ _ _ _ K), B. cbn [bind].
    exists (DRec None es). eexists. split; [reflexivity|]. rewrite elem_string_rec, M. split; [reflexivity|].
    split; [eapply me_record; eauto|]. rewrite tidy_rec. auto.
  - intros k'. exists [], []. repeat split; constructor.
  - clear. intros k n ref d ms C F _ (e & s & S1 & S2 & D1 & T1 & N1) _ (es & b & B & M & D & T).
    destruct (with_name_text n e) as (W1 & W2 & W3 & W4).
    exists (with_name n e :: es). eexists. cbn [member_sigs members_string tidies].
    unfold find at 1. unfold E at 1. cbn [we_types]. rewrite F. cbn [bind]. rewrite S1, B. cbn [bind].
    split; [reflexivity|]. rewrite W1, W2, S2, M. split; [reflexivity|]. split; [econstructor; eauto|].
    rewrite with_name_tidy. eauto.
Qed.

Lemma attr_found types d : type_attribute (mk_wenv true (Some types)) d =
  match wt_kind d with None => Err KeyError | _ => Ok (option_map (fun vt => lit "VT(" ++ join [COMMA] (map (fun x => [QUOTE] ++ x ++ [QUOTE]) vt) ++ lit ")") (table_of types d)) end.
Proof.
  unfold type_attribute, table_of, find. cbn [we_types bind]. destruct (wt_kind d) as [[ | | | | | ]|]; try reflexivity.
  destruct (types _) as [s|]; [|reflexivity]. destruct (wt_table s); reflexivity.
Qed.
Lemma table_line ts : Forall line_text ts -> tidy_attr (Some (lit "VT(" ++ join [COMMA] (map (fun x => [QUOTE] ++ x ++ [QUOTE]) ts) ++ lit ")")).
Proof.
  intros F. assert (forall x, x <> QUOTE -> x <> COMMA -> Forall (fun t => ~ In x t) ts -> ~ In x (join [COMMA] (map (fun x => [QUOTE] ++ x ++ [QUOTE]) ts))) as X.
  { clear. intros x Q C. induction ts as [|t ts IH]; intros F I; [contradiction|]. inversion F as [|? ? T F']; subst.
    assert (~ In x ([QUOTE] ++ t ++ [QUOTE])) as NT. { intros J. apply in_app_or in J as [[J|[]]|J]; [congruence|]. apply in_app_or in J as [J|[J|[]]]; [contradiction|congruence]. }
    destruct ts as [|u ts]; [exact (NT I)|]. cbn [map] in *. change (join [COMMA] (?a :: ?b :: ?l)) with (a ++ [COMMA] ++ join [COMMA] (b :: l)) in I.
    apply in_app_or in I as [I|I]; [exact (NT I)|]. apply in_app_or in I as [[I|[]]|I]; [congruence|]. exact (IH F' I). }
  assert (forall x, In x [35; 10] -> ~ In x (lit "VT(" ++ join [COMMA] (map (fun x => [QUOTE] ++ x ++ [QUOTE]) ts) ++ lit ")")) as Y.
  { intros x XX I. apply in_app_or in I as [I|I]; [cbn in XX, I; lia|]. apply in_app_or in I as [I|I]; [|cbn in XX, I; lia].
    revert I. apply X; [unfold QUOTE; cbn in XX; lia|unfold COMMA; cbn in XX; lia|]. eapply Forall_impl; [|exact F].
    intros t [_ P] J. apply (P x J). cbn in *. tauto. }
  split; [apply Y; cbn; auto|]. split; [apply Y; cbn; auto|]. intros p c E0. rewrite app_assoc in E0. apply app_inj_tail in E0 as [_ <-].
  unfold blank_char. cbn. lia.
Qed.

(** ** Port attributes *)

Lemma queue_drop n more k a : (0 < k)%nat -> match n with Some z => 0 <= z | None => forall r, more <> 91 :: r end ->
  pa_qlen a = None ->
  attr_loop k (match n with Some n => lit "Q[" ++ dec_str n ++ lit "]" | None => lit "Q" end ++ more) a =
    Ok (mk_pattr true (pa_param a) (option_map dec_str n) (pa_init a) (pa_str a)).
Proof.
  intros K N Q. destruct k as [|k]; [lia|]. destruct n as [z|].
  - change ((lit "Q[" ++ dec_str z ++ lit "]") ++ more) with (81 :: 91 :: (dec_str z ++ [93]) ++ more). cbn [attr_loop].
    change (lstrip (81 :: ?r)) with (81 :: r). cbn iota. cbn [match_qlen]. rewrite <- app_assoc. 
    destruct (dec_nat_spec z N) as (NE & A & _). assert (dec_str z = dec_nat z) as -> by (unfold dec_str; replace (z <? 0) with false by lia; reflexivity).
    rewrite take_while_app, drop_while_app by (exact A || reflexivity). cbn [app option_map].
    destruct (dec_nat z) eqn:DZ; [congruence|]. rewrite <- DZ. unfold dec_str. replace (z <? 0) with false by lia. rewrite DZ. reflexivity.
  - change (lit "Q" ++ more) with (81 :: more). cbn [attr_loop]. change (lstrip (81 :: ?r)) with (81 :: r). cbn iota.
    replace (match_qlen more) with (@None str); [rewrite Q; reflexivity|]. destruct more as [|c r]; [reflexivity|].
    unfold match_qlen. destruct (Z.eq_dec c 91) as [->|NC]; [destruct (N r eq_refl)|].
    destruct c as [|p|p]; try reflexivity. repeat (destruct p as [p|p|]; try reflexivity). congruence.
Qed.
