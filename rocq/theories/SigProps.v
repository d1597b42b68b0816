(** Property C37: data signatures as text. *)
From Coq Require Import ZifyBool ZifyNat Lia.
From Verif Require Import Py PyLemmas TypesModel TextModel SigModel TextProofs SigSpec SigProofs.
Ltac Zify.zify_post_hook ::= Z.div_mod_to_equations.

Lemma described_unlinked by_name H : forall e, unlinked e -> described by_name H e = e.
Proof.
  induction e as [n c lo hi a|n es IH|n r] using delem_ind2; intros U; [reflexivity| |destruct r; [reflexivity|reflexivity|contradiction]].
  cbn [described]. f_equal. induction IH as [|e es E F IHes]; [reflexivity|].
  cbn [unlinked] in U. destruct U as [U1 U2]. cbn [map]. rewrite E, IHes; auto.
Qed.

(** An element without type objects has a text, and parsing that text gives the
    element (its own name, which belongs to the record around it, aside). *)
Theorem signature_text_round_trip by_name H e :
  printable by_name H e -> unlinked e ->
  exists t, elem_string by_name H e = Ok t /\ parse_signature t = Ok (nameless e).
Proof.
  intros P U. destruct (signature_read by_name H e P) as (t & T & R). exists t.
  rewrite described_unlinked in R by exact U. auto.
Qed.
Print Assumptions signature_text_round_trip.

(** An element whose references are type objects of [types]: parsing its text and
    linking the references again gives the element. *)
Theorem linked_signature_round_trip by_name H types e :
  printable by_name H e -> located by_name H types e ->
  exists t d, elem_string by_name H e = Ok t /\ parse_signature t = Ok d /\ unlinked d /\
    resolve_type H (Some types) d = Ok (nameless e).
Proof.
  intros P L. destruct (signature_read by_name H e P) as (t & T & R). exists t, (nameless (described by_name H e)).
  split; [exact T|]. split; [exact R|]. split.
  - assert (forall e, printable by_name H e -> unlinked (described by_name H e)) as U.
    { clear. induction e as [n c lo hi a|n es IH|n r] using delem_ind2; intros P; [exact I| |].
      - rewrite printable_rec in P. cbn [described unlinked].
        induction IH as [|e es E F IHes]; [exact I|]. cbn [printables] in P. destruct P as (_ & P1 & P2).
        cbn [map]. split; [apply E, P1|apply IHes, P2].
      - destruct r as [i|s|o]; cbn [described unlinked]; [exact I|exact I|]. unfold reference_text.
        destruct (if by_name then _ else _); [exact I|]. destruct (dt_name (H o)); exact I. }
    specialize (U e P). destruct (described by_name H e); exact U.
  - apply resolve_nameless, described_located; auto.
Qed.
Print Assumptions linked_signature_round_trip.

(** Every parsed element without indices and with named members has a text that
    parses to the same element: the text form is a normal form. *)
Theorem parsed_signature_normal_form by_name H s e :
  parse_signature s = Ok e -> named e -> indexless e ->
  exists t, elem_string by_name H e = Ok t /\ parse_signature t = Ok e.
Proof.
  intros E N X. pose proof (parse_signature_inv s e E) as A.
  assert (forall e, as_parsed e -> named e -> indexless e -> printable by_name H e /\ unlinked e) as PU.
  { clear. induction e as [n c lo hi a|n es IH|n r] using delem_ind2; intros A N X; [split; [exact A|exact I]| |].
    - rewrite printable_rec. cbn [as_parsed named indexless unlinked] in *.
      induction IH as [|e es E F IHes]; [split; exact I|]. destruct A as (A1 & A2 & A3), N as (N1 & N2 & N3), X as (X1 & X2).
      destruct (E A2 N2 X1) as [P1 U1]. destruct (IHes A3 N3 X2) as [P2 U2]. cbn [printables].
      split; [|auto]. split; [|auto]. destruct (de_name e) as [nm|]; [|congruence]. eauto.
    - destruct r as [i|s|o]; cbn in *; try contradiction. auto. }
  destruct (PU e A N X) as [P U]. destruct (signature_text_round_trip by_name H e P U) as (t & T & R).
  exists t. split; [exact T|]. rewrite R. f_equal. clear - E.
  assert (de_name e = None) as D.
  { unfold parse_signature in E. apply bind_ok in E as ([o r] & E1 & E). destruct r; [|discriminate].
    destruct o as [e0|]; [|discriminate]. invc E. destruct (2 * length s + 2)%nat; [discriminate|]. cbn [parse_sig] in E1.
    destruct s as [|c s]; [discriminate|]. destruct (c =? 123).
    { apply bind_ok in E1 as ([es r] & _ & E). invc E. reflexivity. }
    destruct (c =? 84).
    { apply bind_ok in E1 as ([e0 r] & P & E). invc E. unfold parse_ref in P.
      destruct (match_pair s 91 93) as [[data|] r]; [|discriminate].
      destruct (parse_str data) as [[name|] [|d t]]; [invc P; reflexivity|discriminate| |]; inv_bind P; invc P; reflexivity. }
    destruct (char_code c) as [code|]; [|invc E1]. apply bind_ok in E1 as ([e0 r] & P & E). invc E. unfold parse_prim in P.
    apply bind_ok in P as ([[lo hi] s1] & _ & P). apply bind_ok in P as ([al s2] & _ & P).
    apply bind_ok in P as (al' & _ & P). invc P. reflexivity. }
  destruct e; cbn in D; subst; reflexivity.
Qed.
Print Assumptions parsed_signature_normal_form.

(** The parser ends by itself on every text: the bound on its depth is never hit. *)
Theorem signature_parser_terminates s : parse_signature s <> Err RecursionError.
Proof.
  unfold parse_signature. intros E. apply bind_err in E as [E|((o & r) & _ & E)].
  - revert E. apply parse_sig_fuel. lia.
  - destruct r; [destruct o|]; discriminate.
Qed.
Print Assumptions signature_parser_terminates.

(** The conditions on names are needed: a quote in a member name, an unpaired bracket
    in a type name, and a member without name all come back as something else. *)
Theorem signature_round_trip_refuted :
  exists e1 e2 e3 t1 t2 t3,
    let H := fun _ => mk_dtype None (DRec None []) None None None in
    elem_string false H e1 = Ok t1 /\ parse_signature t1 = Err ParseError /\
    elem_string false H e2 = Ok t2 /\ parse_signature t2 = Err ValueError /\
    elem_string false H e3 = Ok t3 /\ parse_signature t3 <> Ok e3 /\
    (exists s, parse_signature s = Ok e3).
Proof.
  exists (DRec None [DPrim (Some (lit "a""b")) CU8 None None None]), (DRef None (RName (lit "a]b"))),
    (DRec None [DPrim None CU8 None None None]).
  eexists _, _, _. cbv zeta. split; [reflexivity|]. split; [vm_compute; reflexivity|].
  split; [reflexivity|]. split; [vm_compute; reflexivity|].
  split; [reflexivity|]. split; [vm_compute; discriminate|]. exists (lit "{C}"). vm_compute. reflexivity.
Qed.
Print Assumptions signature_round_trip_refuted.

(** A record with limits, an array, a nested record and two kinds of references. *)
Definition ex_heap : theap := fun o =>
  match o with
  | 0%nat => mk_dtype (Some (lit "Speed_T")) (DPrim None CU16 (Some 0) (Some 65535) None) None (Some 0) None
  | _ => mk_dtype (Some (lit "Name[8]")) (DPrim None CSTR None None (Some 8)) None None None
  end.
Definition ex_elem : delem :=
  DRec None [DPrim (Some (lit "gear")) CS8 (Some (-1)) (Some 127) None;
             DRec (Some (lit "pos")) [DPrim (Some (lit "x y")) CU32 None None (Some 3); DRef (Some (lit "v")) (RObj 0)];
             DRef (Some (lit "who")) (RObj 1)].
Example ex_signature_text :
  elem_string false ex_heap ex_elem = Ok (lit "{""gear""c(-1,127)""pos""{""x y""L[3]""v""T[0]}""who""T[""Name[8]""]}") /\
  elem_string true ex_heap ex_elem = Ok (lit "{""gear""c(-1,127)""pos""{""x y""L[3]""v""T[""Speed_T""]}""who""T[""Name[8]""]}").
Proof. vm_compute. split; reflexivity. Qed.
Example ex_located : printable false ex_heap ex_elem /\ located false ex_heap [0%nat; 1%nat] ex_elem /\
  match parse_signature (lit "{""gear""c(-1,127)""pos""{""x y""L[3]""v""T[0]}""who""T[""Name[8]""]}") with
  | Ok d => resolve_type ex_heap (Some [0%nat; 1%nat]) d = Ok ex_elem
  | Err _ => False
  end.
Proof.
  split; [|split; [|vm_compute; reflexivity]].
  - cbn. repeat split; try discriminate; try (eexists; split; [reflexivity|]); try (intros X; cbn in X; intuition discriminate).
    apply (bk_char 78); try discriminate. apply (bk_char 97); try discriminate. apply (bk_char 109); try discriminate.
      apply (bk_char 101); try discriminate. apply (bk_pair [56] []); [apply bk_char; try discriminate; constructor|constructor].
  - cbn. repeat split; try lia. exists 1%nat. split; [reflexivity|]. intros j o' J E.
    destruct j; [|lia]. invc E. discriminate.
Qed.
Example ex_signature_unlinked :
  parse_signature (lit "{""gear""c(-1,127)""who""T[""Name_T""]}") =
    Ok (DRec None [DPrim (Some (lit "gear")) CS8 (Some (-1)) (Some 127) None; DRef (Some (lit "who")) (RName (lit "Name_T"))]).
Proof. vm_compute. reflexivity. Qed.
