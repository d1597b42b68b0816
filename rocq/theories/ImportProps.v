(** Importing software components (C59). *)
From Coq Require Import ZifyBool ZifyNat Lia.
From Verif Require Import Py PyLemmas TypesModel TextModel SigModel AttrModel NodeModel AutosarModel.
From Verif Require Import TypesSpec SigSpec AttrSpec AutosarSpec TextProofs SigProofs AttrProofs AutosarProofs AutosarProps NodeProofs ImportSpec ImportProofs.
Ltac Zify.zify_post_hook ::= Z.div_mod_to_equations.

(** A component of importable ports becomes a node with the same ports in the same
    order, numbered, with their init values, each referring to the type of its type
    name; one type per name, numbered, made for the first port that has the name.
    No object from before is changed. *)
Theorem component_imported W name provide require :
  Forall importable_port (provide ++ require) ->
  Forall (fun p => ap_provide p = true) provide -> Forall (fun p => ap_provide p = false) require ->
  exists W' nd, import_swc W name provide require = Ok (W', nd) /\
    n_name nd = Some name /\ n_final nd = false /\
    entrywise (fun i p o => port_imported W' (n_types nd) i p (w_ports W' o)) provide (n_provide nd) /\
    entrywise (fun i p o => port_imported W' (n_types nd) i p (w_ports W' o)) require (n_require nd) /\
    (exists firsts, entrywise (fun i p t => type_imported i p (w_types W' t)) firsts (n_types nd) /\
       Forall (first_use (provide ++ require)) firsts) /\
    NoDup (map (fun t => dt_name (w_types W' t)) (n_types nd)) /\
    (forall o, (o < w_ntypes W)%nat -> w_types W' o = w_types W o) /\
    (forall o, (o < w_nports W)%nat -> w_ports W' o = w_ports W o).
Proof.
  intros G P R.
  assert (I0 : iinv W W (new_node (Some name)) [] []).
  { constructor; cbn [new_node n_types n_map n_provide n_require map app filter]; auto; try constructor.
    - exists []. split; [apply entrywise_nil|constructor].
    - destruct b; reflexivity.
    - intros [|i] x y; discriminate. }
  destruct (import_ports W (provide ++ require) W _ [] I0 G) as (W1 & nd & E & I & Nn & Nf). cbn [app] in I.
  unfold import_swc. rewrite E. cbn [bind].
  destruct I as [[fs [Ty Fs]] Mp Cv Un Nt Np Po Ot Op _].
  assert (Fp : filter (fun p => Bool.eqb (ap_provide p) true) (provide ++ require) = provide).
  { rewrite filter_app, filter_all, filter_none, app_nil_r; [reflexivity| |].
    - eapply Forall_impl; [|exact R]. intros p ->. reflexivity.
    - eapply Forall_impl; [|exact P]. intros p ->. reflexivity. }
  assert (Fr : filter (fun p => Bool.eqb (ap_provide p) false) (provide ++ require) = require).
  { rewrite filter_app, filter_none, filter_all; [reflexivity| |].
    - eapply Forall_impl; [|exact R]. intros p ->. reflexivity.
    - eapply Forall_impl; [|exact P]. intros p ->. reflexivity. }
  pose proof (Po true) as Pp. pose proof (Po false) as Pr. rewrite Fp in Pp. rewrite Fr in Pr.
  unfold resolve_types. destruct (resolve_again (n_types nd) (n_require nd ++ n_provide nd) W1) as (W2 & Rs & Tt & _ & _ & Pw).
  { assert (X : forall (l : list aport) os, entrywise (fun i p o => port_imported W1 (n_types nd) i p (w_ports W1 o)) l os ->
      forall o, In o os -> exists t, pt_elem (w_ports W1 o) = DRef None (RObj t) /\ is_reference (dt_elem (w_types W1 t)) = false).
    { intros l os [Ln F] o (i & Ni)%In_nth_error.
      destruct (nth_error l i) as [p|] eqn:Np'; [|apply nth_error_None in Np'; assert (i < length os)%nat by (apply nth_error_Some; congruence); lia].
      destruct (F i p o Np' Ni) as (_ & _ & _ & (t & T & (j & It)%In_nth_error & _) & _). exists t. split; [exact T|].
      exact (proj2 (type_index _ _ _ _ _ Ty It)). }
    intros o [Io|Io]%in_app_or; eauto. }
  rewrite Rs. cbn [bind]. exists W2, nd. split; [reflexivity|]. rewrite Tt.
  split; [exact Nn|]. split; [exact Nf|].
  assert (Y : forall i p q, port_imported W1 (n_types nd) i p q -> port_imported W2 (n_types nd) i p q).
  { intros i p q. apply port_imported_grow. rewrite Tt. auto. }
  split; [eapply entrywise_impl; [|exact Pp]; intros i p o _ _; rewrite Pw; apply Y|].
  split; [eapply entrywise_impl; [|exact Pr]; intros i p o _ _; rewrite Pw; apply Y|].
  split; [exists fs; auto|]. split; [exact Un|]. split; [exact Ot|]. intros o Lo. rewrite Pw. apply Op, Lo.
Qed.
Print Assumptions component_imported.

Definition on_off := Some [(0, 0, lit "Off"); (1, 1, lit "On")].
Definition ex_provide := [mk_aport true (lit "Light") (lit "OnOff_T") (AInt 0 1) on_off (Some (KInt 1));
                          mk_aport true (lit "Speed") (lit "Speed_T") (AInt 0 65535) None (Some (KInt 65535))].
Definition ex_require := [mk_aport false (lit "Switch") (lit "OnOff_T") (AInt 0 1) on_off None].

Example ex_component : Forall importable_port (ex_provide ++ ex_require) /\
  (do '(W, nd) <- import_swc empty_world (lit "Lamp") ex_provide ex_require; do '(_, _, t) <- node_dumps false W nd; Ok t) = Ok (lit "APX/1.2
N""Lamp""
T""OnOff_T""C(0,1):VT(""Off"",""On"")
T""Speed_T""S
P""Light""T[0]:=1
P""Speed""T[1]:=0xFFFF
R""Switch""T[0]
").
Proof.
  split; [|vm_compute; reflexivity].
  repeat constructor; cbn [ex_provide ap_type ap_init importable]; unfold unsigned_ok; cbn [In]; try lia; cbn; try lia; auto.
Qed.

(** Only the last part of a type's name counts: of two types of one name from
    different packages, the second is not imported. *)
Theorem types_of_one_name_refuted : exists p q W nd o t,
  importable_port p /\ importable_port q /\
  import_swc empty_world (lit "N") [p; q] [] = Ok (W, nd) /\
  nth_error (n_provide nd) 1 = Some o /\ pt_name (w_ports W o) = Some (ap_name q) /\
  pt_elem (w_ports W o) = DRef None (RObj t) /\ ~ describes (ap_type q) (dt_elem (w_types W t)).
Proof.
  exists (mk_aport true (lit "A") (lit "T") (AInt 0 100) None None), (mk_aport true (lit "B") (lit "T") (AInt 0 1000) None None).
  destruct (import_swc empty_world (lit "N") _ []) as [[W nd]|] eqn:E; [|vm_compute in E; discriminate].
  exists W, nd, 1%nat, 0%nat.
  assert (X : nth_error (n_provide nd) 1 = Some 1%nat /\ pt_name (w_ports W 1%nat) = Some (lit "B") /\
    pt_elem (w_ports W 1%nat) = DRef None (RObj 0%nat) /\ dt_elem (w_types W 0%nat) = DPrim None CU8 (Some 0) (Some 100) None).
  { vm_compute in E. injection E as <- <-. repeat split. }
  destruct X as (X1 & X2 & X3 & X4). rewrite X4.
  split; [|split]; [repeat constructor; cbn [ap_type ap_init importable]; unfold unsigned_ok; cbn [In]; lia..|].
  split; [reflexivity|]. split; [exact X1|]. split; [exact X2|]. split; [exact X3|].
  cbn [ap_type]. intros D. inversion D as [|lo hi e (c & l & h & k & K1 & K2 & _ & K3 & _)| |]; subst.
  injection K1 as <- _ _. injection K2 as <-. change (kmax U8) with 255 in K3. lia.
Qed.
Print Assumptions types_of_one_name_refuted.
