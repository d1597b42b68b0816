(** The old definition writer (C83). *)
From Coq Require Import ZifyBool ZifyNat Lia.
From Verif Require Import Py PyLemmas TypesModel TextModel SigModel AttrModel NodeModel ParserModel AutosarModel.
From Verif Require Import TypesSpec SigSpec AttrSpec NodeSpec ParserSpec AutosarSpec TextProofs SigProofs AttrProofs.
From Verif Require Import ElemTextProofs RoundTripProofs AutosarProofs WriterModel WriterSpec WriterProofs.
Ltac Zify.zify_post_hook ::= Z.div_mod_to_equations.

(** Given the names it uses, the line it writes for a type is read as that type. *)
Theorem written_type_read types k d : fine types k d -> plain_name (wt_name d) ->
  (forall ts, table_of types d = Some ts -> ts <> [] /\ Forall line_text ts) ->
  exists line sig attr e,
    type_line_str k (mk_wenv true (Some types)) d = Ok line /\
    split_line line = Some [Some (lit "T"); Some (wt_name d); Some sig; attr] /\ ~ In NEWLINE line /\
    make_type (Some (wt_name d)) sig attr = Ok (mk_dtype (Some (wt_name d)) e attr None None) /\
    means types d e /\
    match attr with Some a => parse_type_attr a | None => Ok None end = Ok (option_map (map Some) (table_of types d)).
Proof.
  intros F P T. destruct (all_fine types k d F) as (e & s & S1 & S2 & M & TD & NL).
  destruct (own_text false no_types e TD) as (PR & CT & DE). destruct (elem_string_good _ _ _ CT _ S2) as [NB EW].
  destruct (signature_read false no_types e PR) as (s' & S3 & RD). rewrite S2 in S3. injection S3 as <-. rewrite DE, NL in RD.
  assert (wt_kind d <> None) as K by (destruct F; congruence).
  unfold type_line_str. rewrite S1, attr_found. cbn [bind].
  destruct (wt_kind d) as [kd|] eqn:KD; [|congruence]. clear K. cbn [bind].
  destruct (table_of types d) as [ts|] eqn:TO; cbn [option_map].
  - destruct (T ts eq_refl) as [NE LT]. pose proof (table_line ts LT) as TA.
    assert (Forall table_text ts) as TT by (eapply Forall_impl; [|exact LT]; intros t [X _]; exact X).
    pose proof (value_table_read ts TT NE) as VR. set (a := lit "VT(" ++ join [COMMA] (map (fun x => [QUOTE] ++ x ++ [QUOTE]) ts) ++ lit ")") in *.
    destruct (decl_line 84 (wt_name d) s (Some a) eq_refl P NB EW TA) as [SL NN].
    assert (signature_str (lit "T") (wt_name d) (Some s) (Some a) = decl_string 84 (Some (wt_name d)) s (Some a)) as EQ by reflexivity.
    exists (decl_string 84 (Some (wt_name d)) s (Some a)), s, (Some a), e. split; [exact (f_equal (@Ok str) EQ)|]. split; [exact SL|]. split; [exact NN|].
    split; [|split; [exact M|exact VR]]. unfold make_type. rewrite RD, VR. reflexivity.
  - destruct (decl_line 84 (wt_name d) s None eq_refl P NB EW Logic.I) as [SL NN].
    assert (signature_str (lit "T") (wt_name d) (Some s) None = decl_string 84 (Some (wt_name d)) s None) as EQ by reflexivity.
    exists (decl_string 84 (Some (wt_name d)) s None), s, None, e. split; [exact (f_equal (@Ok str) EQ)|]. split; [exact SL|]. split; [exact NN|].
    split; [|split; [exact M|reflexivity]]. unfold make_type. rewrite RD. reflexivity.
Qed.
Print Assumptions written_type_read.

(** An example with every kind of type. *)
Definition ex_types (ref : str) : option wdict :=
  if str_eqb ref (lit "/Level") then Some (mk_wdict (lit "Level") (Some (WInt 0 3)) None)
  else if str_eqb ref (lit "/DataType/Semantics/Level") then
    Some (mk_wdict (lit "Level") None (Some [lit "Off"; lit "Low"; lit "High"; lit "Error"]))
  else if str_eqb ref (lit "/Temp") then Some (mk_wdict (lit "Temp") (Some (WInt (-40) 100)) None)
  else if str_eqb ref (lit "/Temps") then Some (mk_wdict (lit "Temps") (Some (WArray (lit "/Temp") 4)) None)
  else if str_eqb ref (lit "/Flag") then Some (mk_wdict (lit "Flag") (Some WBool) None)
  else if str_eqb ref (lit "/Id") then Some (mk_wdict (lit "Id") (Some (WString 7)) None)
  else None.
Definition ex_level : wdict := mk_wdict (lit "Level") (Some (WInt 0 3)) None.
Definition ex_record : wdict := mk_wdict (lit "Rec") (Some (WRecord
  [(lit "flag", lit "/Flag"); (lit "level", lit "/Level"); (lit "temps", lit "/Temps"); (lit "id", lit "/Id")])) None.

Lemma ex_clean s : forallb (fun c => negb (existsb (Z.eqb c) [QUOTE; 35; 10; 58])) s = true -> clean_name s.
Proof.
  intros F c I J. rewrite forallb_forall in F. specialize (F c I). apply Bool.negb_true_iff in F.
  assert (existsb (Z.eqb c) [QUOTE; 35; 10; 58] = true) as X by (apply existsb_exists; exists c; split; [exact J|apply Z.eqb_refl]). congruence.
Qed.
Lemma ex_line s : forallb (fun c => negb (existsb (Z.eqb c) [QUOTE; COMMA; 40; 41; 35; 10])) s = true -> line_text s.
Proof.
  intros F. assert (forall c, In c s -> ~ In c [QUOTE; COMMA; 40; 41; 35; 10]) as X.
  { intros c I J. rewrite forallb_forall in F. specialize (F c I). apply Bool.negb_true_iff in F.
    assert (existsb (Z.eqb c) [QUOTE; COMMA; 40; 41; 35; 10] = true) as X by (apply existsb_exists; exists c; split; [exact J|apply Z.eqb_refl]). congruence. }
  split; intros c I J; apply (X c I); cbn [In] in *; tauto.
Qed.

Example ex_written :
  fine ex_types 2 ex_record /\ fine ex_types 1 ex_level /\
  type_line_str 2 (mk_wenv true (Some ex_types)) ex_record =
    Ok (lit "T""Rec""{""flag""C(0,1)""level""C(0,3)""temps""c(-40,100)[4]""id""a[8]}") /\
  type_line_str 1 (mk_wenv true (Some ex_types)) ex_level =
    Ok (lit "T""Level""C(0,3):VT(""Off"",""Low"",""High"",""Error"")") /\
  table_of ex_types ex_level = Some [lit "Off"; lit "Low"; lit "High"; lit "Error"] /\
  Forall line_text [lit "Off"; lit "Low"; lit "High"; lit "Error"].
Proof.
  assert (good_range 0 3) as G1 by (split; [lia|left; split; [reflexivity|split; [lia|cbn; lia]]]).
  assert (good_range (-40) 100) as G2 by (split; [lia|right; split; [lia|split; lia]]).
  split; [|split; [|split; [vm_compute; reflexivity|split; [vm_compute; reflexivity|split; [vm_compute; reflexivity|]]]]].
  - eapply fn_record; [reflexivity|].
    eapply fm_cons; [apply ex_clean; reflexivity|vm_compute; reflexivity|eapply fn_bool; reflexivity|].
    eapply fm_cons; [apply ex_clean; reflexivity|vm_compute; reflexivity|eapply fn_int; [reflexivity|exact G1]|].
    eapply fm_cons; [apply ex_clean; reflexivity|vm_compute; reflexivity|
      eapply fn_array; [reflexivity|lia|vm_compute; reflexivity|reflexivity|exact G2]|].
    eapply fm_cons; [apply ex_clean; reflexivity|vm_compute; reflexivity|eapply fn_string; [reflexivity|lia]|]. constructor.
  - eapply fn_int; [reflexivity|exact G1].
  - repeat (apply Forall_cons; [apply ex_line; reflexivity|]). apply Forall_nil.
Qed.

(** The integer ranges that get a code that holds them are exactly these ... *)
Theorem written_range_fits E lo hi : we_math E = true -> lo <= hi ->
  ((exists s e, range_code E lo hi = Ok (Some s) /\ parse_signature s = Ok e /\ holds_range lo hi e) <-> good_range lo hi).
Proof.
  intros M LE. split.
  - intros (s & e & R & P & H). eapply range_only; eauto.
  - intros G. destruct (range_found E lo hi M G) as (c & lim & R & H). exists (prim_text c lim), (prim_elem c lim).
    split; [exact R|]. split; [apply prim_read_back|exact H].
Qed.
Print Assumptions written_range_fits.

(** ... and these do not: a range above 0 raises, some ranges get a code too small. *)
Theorem written_range_refuted :
  (forall E lo hi, 0 < lo -> range_code E lo hi = Err TypeError) /\
  (forall types, range_code (mk_wenv true types) 0 256 = Ok (Some (lit "C"))) /\
  (forall types, range_code (mk_wenv true types) (-1000) 10 = Ok (Some (lit "c(-1000,10)"))).
Proof.
  split; [|split; intros; vm_compute; reflexivity]. intros E lo hi L. unfold range_code, uint_len.
  replace (0 <=? lo) with true by lia. replace (lo =? 0) with false by lia. reflexivity.
Qed.
Print Assumptions written_range_refuted.

(** A record that begins with itself is never written. *)
Theorem cyclic_record_raises types d name ref more k : types ref = Some d -> wt_kind d = Some (WRecord ((name, ref) :: more)) ->
  type_line_str k (mk_wenv true (Some types)) d = Err RecursionError.
Proof.
  intros F K. unfold type_line_str. assert (data_signature k (mk_wenv true (Some types)) d = Err RecursionError) as ->; [|reflexivity].
  induction k as [|k IH]; [reflexivity|]. rewrite (record_sig _ _ _ _ K). cbn [member_sigs]. unfold find at 1. cbn [we_types].
  rewrite F. cbn [bind]. rewrite IH. reflexivity.
Qed.
Print Assumptions cyclic_record_raises.

Example ex_cyclic : let d := mk_wdict (lit "A") (Some (WRecord [(lit "next", lit "/A")])) None in
  type_line_str 100 (mk_wenv true (Some (fun _ => Some d))) d = Err RecursionError.
Proof. vm_compute. reflexivity. Qed.

(** A reference to a type that is not there is never written, at any place of a
    record; in an array, and at the first place, it is a TypeError. *)
Theorem dangling_reference_raises k types d r : types r = None ->
  (forall n, wt_kind d = Some (WArray r n) -> type_line_str (S k) (mk_wenv true (Some types)) d = Err TypeError) /\
  (forall ms n, wt_kind d = Some (WRecord ms) -> In (n, r) ms -> exists e, type_line_str (S k) (mk_wenv true (Some types)) d = Err e) /\
  (forall ms n, wt_kind d = Some (WRecord ((n, r) :: ms)) -> type_line_str (S k) (mk_wenv true (Some types)) d = Err TypeError).
Proof.
  intros F. split; [|split].
  - intros n K. unfold type_line_str. cbn [data_signature]. rewrite K. unfold find. cbn [we_types]. rewrite F. reflexivity.
  - intros ms n K I. unfold type_line_str. rewrite (record_sig _ _ _ _ K).
    assert (exists e, member_sigs k (mk_wenv true (Some types)) ms = Err e) as (e & ->); [|exists e; reflexivity].
    clear K. induction ms as [|[n' r'] ms IH]; [destruct I|]. cbn [member_sigs]. unfold find at 1. cbn [we_types]. cbn [bind].
    destruct (types r') as [t|] eqn:T; [|eexists; reflexivity]. destruct I as [X|I]; [injection X as -> ->; congruence|].
    destruct (data_signature k (mk_wenv true (Some types)) t); [|eexists; reflexivity]. cbn [bind]. destruct (IH I) as (e & ->). eexists. reflexivity.
  - intros ms n K. unfold type_line_str. rewrite (record_sig _ _ _ _ K). cbn [member_sigs]. unfold find at 1. cbn [we_types]. rewrite F. reflexivity.
Qed.
Print Assumptions dangling_reference_raises.
Example ex_dangling :
  type_line_str 10 (mk_wenv true (Some (fun _ => None))) (mk_wdict (lit "A") (Some (WArray (lit "/x") 3)) None) = Err TypeError /\
  type_line_str 10 (mk_wenv true (Some (fun r => if str_eqb r (lit "/y") then Some (mk_wdict (lit "y") (Some WBool) None) else None)))
    (mk_wdict (lit "A") (Some (WRecord [(lit "a", lit "/y"); (lit "b", lit "/x")])) None) = Err TypeError.
Proof. vm_compute. auto. Qed.

(** The module as it stands writes booleans, texts and empty records only: the other
    types need names that are not defined. *)
Theorem shipped_writer_writes k d : (0 < k)%nat ->
  ((exists line, type_line_str k shipped d = Ok line) <->
    wt_kind d = Some WBool \/ (exists n, wt_kind d = Some (WString n)) \/ wt_kind d = Some (WRecord [])).
Proof.
  intros L. destruct k as [|k]; [lia|]. unfold type_line_str, type_attribute. cbn [data_signature].
  destruct (wt_kind d) as [[|lo hi|r n|n|[|[n r] ms]|]|] eqn:K; cbn [bind].
  - split; [auto|]. intros _. eexists. reflexivity.
  - split; [|intros [X|[[m X]|X]]; discriminate X]. intros [line X]. destruct (range_code shipped lo hi); discriminate X.
  - split; [intros [line X]; discriminate X|intros [X|[[m X]|X]]; discriminate X].
  - split; [eauto|]. intros _. eexists. reflexivity.
  - split; [auto|]. intros _. eexists. reflexivity.
  - split; [intros [line X]; discriminate X|intros [X|[[m X]|X]]; discriminate X].
  - split; [intros [line X]; discriminate X|intros [X|[[m X]|X]]; discriminate X].
  - split; [intros [line X]; discriminate X|intros [X|[[m X]|X]]; discriminate X].
Qed.
Print Assumptions shipped_writer_writes.

Theorem shipped_writer_refuted :
  type_line_str 10 shipped (mk_wdict (lit "Level") (Some (WInt 0 3)) None) = Err NameError /\
  data_signature 10 shipped (mk_wdict (lit "Level") (Some (WInt 0 3)) None) = Err NameError.
Proof. vm_compute. auto. Qed.
Print Assumptions shipped_writer_refuted.

(** The attribute text of a port that is not both queued and a parameter is read back. *)
Theorem written_attribute_read init v queued qlen param :
  (match init with Some t => spells v t | None => v = IVNone end) ->
  (match qlen with Some n => 0 <= n | None => True end) ->
  queued = false \/ param = false ->
  parse_port_attr (attr_str init queued qlen param) =
    Ok (mk_pattr queued param (if queued then option_map dec_str qlen else None) v (attr_str init queued qlen param)).
Proof.
  intros IV QL QP. set (m := match init with Some t => lit "=" ++ t | None => [] end ++ (if param then lit "P" else [])).
  set (q := if queued then match qlen with Some n => lit "Q[" ++ dec_str n ++ lit "]" | None => lit "Q" end else []).
  assert (attr_str init queued qlen param = m ++ q) as E.
  { unfold attr_str, m, q. rewrite <- app_assoc. f_equal. destruct QP as [-> | ->]; cbn [app]; rewrite ?app_nil_r; reflexivity. }
  rewrite !E. unfold parse_port_attr.
  assert (marks IVNone false m v param) as M.
  { unfold m. destruct init as [t|].
    - apply (mk_init [] [] v t (if param then lit "P" else []) IVNone false v param (Forall_nil _) (Forall_nil _) IV).
      destruct param; [apply (mk_param [] [] v false v true (Forall_nil _)); constructor|constructor].
    - subst v. destruct param; [apply (mk_param [] [] IVNone false IVNone true (Forall_nil _)); constructor|constructor]. }
  assert (queue q queued (if queued then option_map dec_str qlen else None)) as Q.
  { unfold q. destruct queued; [|constructor]. destruct qlen as [n|]; [|apply (qu_plain [] (Forall_nil _))].
    assert (dec_str n = dec_nat n) as D by (unfold dec_str; replace (n <? 0) with false by lia; reflexivity).
    cbn [option_map]. rewrite D. exact (qu_sized [] (dec_nat n) n (Forall_nil _) (dec_numeral n QL)). }
  apply attr_loop_read; auto.
Qed.
Print Assumptions written_attribute_read.

Example ex_written_attribute : spells (IVInt 7) (lit "7") /\ attr_str (Some (lit "7")) true (Some 10) false = lit "=7Q[10]" /\
  attr_str (Some (lit "7")) false None true = lit "=7P".
Proof. split; [exact (dec_spells 7)|]. split; vm_compute; reflexivity. Qed.

(** A queued parameter is read as no parameter: the mark is written behind the queue. *)
Theorem written_parameter_lost_refuted init v qlen :
  (match init with Some t => spells v t | None => v = IVNone end) ->
  (match qlen with Some n => 0 <= n | None => True end) ->
  parse_port_attr (attr_str init true qlen true) =
    Ok (mk_pattr true false (option_map dec_str qlen) v (attr_str init true qlen true)).
Proof.
  intros IV QL. set (q := match qlen with Some n => lit "Q[" ++ dec_str n ++ lit "]" | None => lit "Q" end).
  assert (match qlen with Some z => 0 <= z | None => forall r : str, lit "P" <> 91 :: r end) as QL' by (destruct qlen; [exact QL|discriminate]).
  unfold attr_str. cbn iota. fold q. destruct init as [t|].
  - assert (forall k r a, attr_loop (S k) (61 :: r) a = do '(v, rest) <- parse_init (2 * length r + 2) r;
      attr_loop k rest (mk_pattr (pa_queued a) (pa_param a) (pa_qlen a) v (pa_str a))) as AL by reflexivity.
    unfold parse_port_attr. change ((lit "=" ++ t) ++ q ++ lit "P") with (61 :: [] ++ t ++ q ++ lit "P"). rewrite AL.
    rewrite (proj1 read_values v t IV [] (q ++ lit "P")).
    + cbn [bind pa_queued pa_param pa_qlen pa_str]. unfold q at 2.
      rewrite (queue_drop qlen (lit "P")); [reflexivity|cbn [length]; lia|exact QL'|reflexivity].
    + constructor.
    + unfold q. destruct qlen; reflexivity.
    + cbn [app]. rewrite !app_length. lia.
  - subst v. unfold parse_port_attr. cbn [app]. unfold q. rewrite (queue_drop qlen (lit "P")); [reflexivity|lia|exact QL'|reflexivity].
Qed.
Print Assumptions written_parameter_lost_refuted.
