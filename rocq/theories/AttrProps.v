(** Property C46: init values and port attributes as text. *)
From Coq Require Import ZifyBool ZifyNat Lia.
From Verif Require Import Py PyLemmas TextModel AttrModel TextProofs SigProofs AttrSpec AttrProofs.
Ltac Zify.zify_post_hook ::= Z.div_mod_to_equations.

(** Every notation of the grammar is read as the value it stands for: any mixture of
    decimal and hexadecimal numbers, texts, nested lists and blanks. *)
Theorem init_notation_read v t w : white w -> spells v t ->
  parse_port_attr (61 :: w ++ t) = Ok (mk_pattr false false None v (61 :: w ++ t)).
Proof.
  intros W Sp. unfold parse_port_attr.
  pose proof (attr_loop_read IVNone false _ v false [] false None
    (mk_init [] w v t [] IVNone false v false (Forall_nil _) W Sp (mk_done v false)) qu_none (S (length (61 :: w ++ t))) (61 :: w ++ t)) as R.
  rewrite !app_nil_r in R. cbn [app] in R. rewrite R; [reflexivity|lia].
Qed.
Print Assumptions init_notation_read.

Ltac wh := unfold white; repeat (constructor; [cbn [In]; lia|]); try constructor.
Example ex_notation : exists w t, white w /\
  spells (IVList [IVInt 255; IVStr (lit "a, {b}"); IVList [IVInt (-7); IVInt 0]]) t /\
  61 :: w ++ t = lit "= { 0xfF , ""a, {b}"",{-7,00} }".
Proof.
  exists [32], (lit "{ 0xfF , ""a, {b}"",{-7,00} }"). split; [wh|]. split; [|reflexivity].
  change (lit "{ 0xfF , ""a, {b}"",{-7,00} }") with (123 :: lit " 0xfF , ""a, {b}"",{-7,00} " ++ [125]).
  assert (dec_digit 48 0) as D0 by (apply (dd 48); lia). assert (dec_digit 55 7) as D7 by (apply (dd 55); lia).
  assert (hex_digit 102 15) as H1 by (apply (hd_lower 102); lia). assert (hex_digit 70 15) as H2 by (apply (hd_upper 70); lia).
  apply sp_list.
  - apply (it_more (IVInt 255) (lit "0xfF") [32] [32] _ (lit " ""a, {b}"",{-7,00} ")); [wh| |wh|].
    + apply (sp_hex (lit "fF") 255). apply (nu_more hex_digit 16 [102] 15 70 15); [constructor; exact H1|exact H2].
    + apply (it_more (IVStr (lit "a, {b}")) (lit """a, {b}""") [32] [] _ (lit "{-7,00} ")); [wh| |wh|].
      * apply (sp_str (lit "a, {b}")). cbn. intuition discriminate.
      * apply (it_one (IVList [IVInt (-7); IVInt 0]) (lit "{-7,00}") [] [32]); [wh| |wh].
        apply (sp_list _ (lit "-7,00")).
        -- apply (it_more (IVInt (-7)) (lit "-7") [] [] [IVInt 0] (lit "00")); [wh| |wh|].
           ++ apply (sp_neg (lit "7") 7). constructor. exact D7.
           ++ apply (it_one (IVInt 0) (lit "00") [] []); [wh| |wh]. apply sp_dec, (nu_more dec_digit 10 [48] 0 48 0); [constructor; exact D0|exact D0].
        -- repeat (apply br_char; try discriminate). constructor.
  - apply paired_braced. vm_compute. repeat (apply pd_char; [discriminate|discriminate|]).
    apply (pd_pair _ _ [98]); repeat (apply pd_char; [discriminate|discriminate|]); [constructor|].
    apply (pd_pair _ _ [45; 55; 44; 48; 48]); repeat (apply pd_char; [discriminate|discriminate|]); constructor.
Qed.
Example ex_notation_value : parse_port_attr (lit "= { 0xfF , ""a, {b}"",{-7,00} }") =
  Ok (mk_pattr false false None (IVList [IVInt 255; IVStr (lit "a, {b}"); IVList [IVInt (-7); IVInt 0]])
        (lit "= { 0xfF , ""a, {b}"",{-7,00} }")).
Proof. vm_compute. reflexivity. Qed.

(** Whole attributes: the last init value counts, P sets the parameter mark, Q ends
    the attribute with an optional queue length. *)
Theorem port_attribute_read m q i p b ql : marks IVNone false m i p -> queue q b ql ->
  parse_port_attr (m ++ q) = Ok (mk_pattr b p ql i (m ++ q)).
Proof. intros M Q. unfold parse_port_attr. apply attr_loop_read; auto. Qed.
Print Assumptions port_attribute_read.

Example ex_attribute : marks IVNone false (lit "=7 P") (IVInt 7) true /\ queue (lit " Q[10]") true (Some (lit "10")) /\
  parse_port_attr (lit "=7 P Q[10]") = Ok (mk_pattr true true (Some (lit "10")) (IVInt 7) (lit "=7 P Q[10]")).
Proof.
  split; [|split; [|vm_compute; reflexivity]].
  - apply (mk_init [] [] (IVInt 7) (lit "7") (lit " P")); [wh|wh| |].
    + apply sp_dec, (nu_one _ _ 55 7), (dd 55). lia.
    + apply (mk_param [32] []); [wh|constructor].
  - apply (qu_sized [32] (lit "10") 10); [wh|]. apply (nu_more dec_digit 10 [49] 1 48 0); [constructor; apply (dd 49)|apply (dd 48)]; lia.
Qed.

(** The plain notation of a value is read back as the value. *)
Theorem init_text_round_trip v : writable false v ->
  parse_port_attr (61 :: init_text v) = Ok (mk_pattr false false None v (61 :: init_text v)).
Proof. intros W. apply (init_notation_read v (init_text v) []); [constructor|]. apply (proj1 (init_text_spells v)), W. Qed.
Print Assumptions init_text_round_trip.

Example ex_init_text : writable false (IVList [IVStr (lit "x{1}"); IVList [IVInt (-1); IVInt 4294967295]]) /\
  init_text (IVList [IVStr (lit "x{1}"); IVList [IVInt (-1); IVInt 4294967295]]) = lit "{""x{1}"",{-1,4294967295}}".
Proof.
  split; [|vm_compute; reflexivity]. cbn. repeat split; try discriminate.
  - intuition discriminate.
  - intros _. apply (br_char 120); try discriminate. apply (br_pair [49] []); repeat constructor; discriminate.
Qed.

(** The conditions are needed: a brace in a text inside a list, an empty list and a
    text with a quote are not read back; nor are hexadecimal digits without 0x. *)
Theorem init_text_round_trip_refuted :
  parse_port_attr (61 :: init_text (IVList [IVStr (lit "}")])) = Err ParseError /\
  parse_port_attr (61 :: init_text (IVStr (lit "}"))) = Ok (mk_pattr false false None (IVStr (lit "}")) (lit "=""}""")) /\
  parse_port_attr (61 :: init_text (IVList [])) = Err ParseError /\
  parse_port_attr (61 :: init_text (IVStr (lit "a""b"))) = Err ParseError /\
  parse_port_attr (lit "={""{""}") = Err TypeError.
Proof. vm_compute. repeat split. Qed.
Print Assumptions init_text_round_trip_refuted.

(** Text behind the queue mark is dropped without a word. *)
Theorem attribute_text_dropped_refuted :
  exists t, t <> [] /\ parse_port_attr (lit "Q[10]" ++ t) =
    Ok (mk_pattr true false (Some (lit "10")) IVNone (lit "Q[10]" ++ t)).
Proof. exists (lit "=5"). split; [discriminate|vm_compute; reflexivity]. Qed.
Print Assumptions attribute_text_dropped_refuted.

(** The parsers end by themselves on every text. *)
Theorem attribute_parser_terminates t : parse_port_attr t <> Err RecursionError.
Proof. apply attr_loop_fuel. lia. Qed.
Print Assumptions attribute_parser_terminates.

Theorem type_attribute_parser_terminates t : parse_type_attr t <> Err RecursionError.
Proof.
  unfold parse_type_attr. generalize (@None (list (option str))) as vt. assert (length t < S (length t))%nat as L by lia.
  revert L. generalize (S (length t)) as fuel. intros fuel. revert t.
  induction fuel as [|k IH]; intros t L vt E; [lia|]. cbn [type_attr_loop] in E.
  destruct t as [|c t]; [discriminate|].
  destruct c as [|p|p]; try discriminate. do 7 (try (destruct p as [p|p|]; try discriminate)).
  destruct t as [|c t]; [discriminate|].
  destruct c as [|p|p]; try discriminate. do 7 (try (destruct p as [p|p|]; try discriminate)).
  destruct t as [|c t]; [discriminate|].
  destruct c as [|p|p]; try discriminate. do 7 (try (destruct p as [p|p|]; try discriminate)).
  destruct (match_pair (40 :: t) 40 41) as [[r|] rest] eqn:M; [|discriminate].
  apply match_pair_len in M. cbn [length] in *. exact (IH rest ltac:(lia) _ E).
Qed.
Print Assumptions type_attribute_parser_terminates.
