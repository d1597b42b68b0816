(** C94: nodes that are finalized with compact names. *)
From Coq Require Import ZifyBool ZifyNat Lia.
From Coq Require Permutation Sorted.
From Verif Require Import Py PyLemmas TypesModel TextModel SigModel AttrModel NodeModel ParserModel.
From Verif Require Import SigSpec NodeSpec ParserSpec MergeSpec CompactSpec TextProofs SigProofs NodeProofs ElemTextProofs ParserProofs RoundTripProofs LoadProofs.
From Verif Require Import MirrorProofs FinalizeProofs ExtendProofs ParserProps NodeProps.
Ltac Zify.zify_post_hook ::= Z.div_mod_to_equations.

(** Finalizing with short names sorts as without, and gives the type at position i the id i
    and the short name Ti. *)
Theorem finalize_compacts sort W nd D : represents W nd D -> linked D -> n_final nd = false ->
  (forall t, In t (df_types D) -> td_name t <> None) -> (forall p, In p (df_provide D ++ df_require D) -> pd_name p <> None) ->
  exists W' nd' D', finalize sort true W nd = Ok (W', nd') /\ sorted_def sort D D' /\ represents W' nd' D' /\ n_final nd' = true /\
    (forall i o, nth_error (n_types nd') i = Some o -> dt_id (w_types W' o) = Some (Z.of_nat i) /\ dt_short (w_types W' o) = Some (short_name i)).
Proof.
  intros R L NF NT NP. destruct (finalize_ok sort true W nd D R L NF (conj NT NP)) as (W' & nd' & E). exists W', nd'.
  pose proof E as E0. unfold finalize in E. rewrite NF in E. inv_bind E. rename a into nd1. rename Ha into SE.
  destruct (sort_rep _ _ _ _ _ R SE) as (D' & SD & R1 & _ & IT & IP).
  destruct (resolve_ports_same (n_types nd1) (n_require nd1 ++ n_provide nd1) W) as (W1 & RE & T1 & P1 & NT1 & NP1).
  { intros o O. apply (rep_resolved W nd D o R L). apply IP. exact O. }
  unfold resolve_types in E. rewrite RE in E. cbn [bind] in E. unfold set_type_ids, compact_types in E. invc E.
  assert (represents W1 nd1 D') as R2. { eapply rep_frame; [exact R1|intros; rewrite T1; reflexivity|intros; apply P1|lia|lia]. }
  exists D'. split; [exact E0|]. split; [exact SD|]. cbn [n_types n_final].
  pose proof (number_rep (fun d i => with_short d (Some (84 :: dec_str i))) _ _ _ R2 ltac:(intros; repeat split)) as R3.
  destruct (number_types_spec (fun d i => with_short d (Some (84 :: dec_str i))) (n_types nd1) W1 0 (rp_tdup _ _ _ R2)) as (_ & _ & _ & _ & G1). cbv zeta in G1.
  set (W2 := number_types (fun d i => with_short d (Some (84 :: dec_str i))) W1 0 (n_types nd1)) in *.
  pose proof (number_rep (fun d i => with_tid d (Some i)) _ _ _ R3 ltac:(intros; repeat split)) as R4.
  destruct (number_types_spec (fun d i => with_tid d (Some i)) (n_types nd1) W2 0 (rp_tdup _ _ _ R3)) as (_ & _ & _ & _ & G2). cbv zeta in G2.
  split; [|split; [reflexivity|]].
  - destruct R4 as [Q1 Q2 Q3 Q4 Q5 Q6 Q7 Q8 Q9]. constructor; auto.
  - intros i o O. rewrite (G2 i o O). cbn [with_tid dt_id dt_short]. rewrite (G1 i o O). cbn [with_short dt_short]. split; reflexivity.
Qed.
Print Assumptions finalize_compacts.

(** ** Definitions with short names *)

Lemma nth_combine_seq {A} (l : list A) : forall k i, nth_error (combine (seq k (length l)) l) i = option_map (fun x => ((k + i)%nat, x)) (nth_error l i).
Proof.
  induction l as [|x l IH]; intros k [|i]; cbn [length seq combine nth_error option_map]; try reflexivity.
  - rewrite Nat.add_0_r. reflexivity.
  - rewrite IH. replace (S k + i)%nat with (k + S i)%nat by lia. reflexivity.
Qed.
Lemma short_nth D i : nth_error (df_types (with_short_names D)) i = option_map (fun t => mk_tdef (Some (short_name i)) (td_elem t) (td_attr t)) (nth_error (df_types D) i).
Proof. cbn [with_short_names df_types]. rewrite nth_error_map, nth_combine_seq. destruct (nth_error (df_types D) i); reflexivity. Qed.
Lemma short_length D : length (df_types (with_short_names D)) = length (df_types D).
Proof. cbn [with_short_names df_types]. rewrite map_length, combine_length, seq_length. lia. Qed.
Lemma short_inj i j : short_name i = short_name j -> i = j.
Proof. intros E. unfold short_name in E. apply app_inv_head in E. apply dec_str_inj in E. lia. Qed.
Lemma short_names_nth D i nm : nth_error (type_names (with_short_names D)) i = Some nm <-> (i < length (df_types D))%nat /\ nm = Some (short_name i).
Proof.
  unfold type_names. rewrite nth_error_map, short_nth. destruct (nth_error (df_types D) i) as [t|] eqn:E; cbn [option_map].
  - split; [intros X; injection X as <-; split; [apply nth_error_Some; congruence|reflexivity]|intros (_ & ->); reflexivity].
  - split; [discriminate|]. intros (X & _). apply nth_error_None in E. lia.
Qed.
Lemma short_reaches D n a : reaches (df_types D) n a -> reaches (df_types (with_short_names D)) n a.
Proof. induction 1 as [|n nm i t T _ IH]; [constructor; assumption|]. eapply rc_step; [rewrite short_nth, T; reflexivity|exact IH]. Qed.
Lemma short_in D t : In t (df_types (with_short_names D)) -> exists i t0, nth_error (df_types D) i = Some t0 /\ t = mk_tdef (Some (short_name i)) (td_elem t0) (td_attr t0).
Proof. intros I. apply In_nth_error in I as (i & I). rewrite short_nth in I. destruct (nth_error (df_types D) i) as [t0|] eqn:E; [|discriminate]. injection I as <-. eauto. Qed.
Lemma short_linked D : linked D -> linked (with_short_names D).
Proof.
  intros L. constructor.
  - apply NoDup_nth_error. intros i j I E. destruct (nth_error (type_names (with_short_names D)) i) as [nm|] eqn:A; [|apply nth_error_None in A; lia].
    symmetry in E. apply short_names_nth in A as (_ & ->). apply short_names_nth in E as (_ & E). apply short_inj. congruence.
  - intros i t T. rewrite short_nth in T. destruct (nth_error (df_types D) i) as [t0|] eqn:E; [|discriminate]. injection T as <-. apply (ln_below _ L _ _ E).
  - intros t I. apply short_in in I as (i & t0 & I & ->). cbn [td_elem]. apply short_reaches. apply (ln_ends _ L). eapply nth_error_In; eauto.
  - intros t I. apply short_in in I as (i & t0 & I & ->). cbn [td_elem]. apply (ln_plain _ L). eapply nth_error_In; eauto.
  - intros t a I. apply short_in in I as (i & t0 & I & ->). cbn [td_attr]. apply (ln_tattr _ L). eapply nth_error_In; eauto.
  - intros p I. destruct (ln_ports _ L p I) as (A & B & C & E). split; [|split; [exact B|split; [exact C|exact E]]].
    intros X. destruct (A X) as (Y & Z). rewrite short_length. split; [exact Y|]. apply short_reaches. exact Z.
Qed.
Lemma short_clean i : clean_name (short_name i) /\ bracketed (short_name i).
Proof.
  destruct (dec_str_chars (Z.of_nat i)) as (A & _). unfold short_name. change (lit "T") with [84]. cbn [app]. assert (forall c, In c (dec_str (Z.of_nat i)) -> is_numch c = true) as N.
  { intros c I. clear -A I. induction A; [destruct I|]. destruct I as [<- |I]; auto. }
  split.
  - intros c [<- |I] X; unfold QUOTE in X; [repeat (destruct X as [X|X]; [lia|]); exact X|]. specialize (N c I). unfold is_numch, is_digit in N. repeat (destruct X as [X|X]; [lia|]). exact X.
  - apply bk_char; [lia|lia|]. clear -N. induction (dec_str (Z.of_nat i)) as [|c s IH]; [constructor|].
    pose proof (N c (or_introl eq_refl)) as X. unfold is_numch, is_digit in X. apply bk_char; [lia|lia|]. apply IH. intros x I. apply N. right. exact I.
Qed.
Lemma short_writable D : writable_def D -> writable_def (with_short_names D).
Proof.
  intros WD. constructor; [apply (wd_name _ WD)| |apply (wd_ports _ WD)].
  intros t I. apply short_in in I as (i & t0 & I & ->). cbn [td_name td_elem td_attr]. destruct (wd_types _ WD t0 (nth_error_In _ _ I)) as (_ & A & B).
  split; [|split; assumption]. exists (short_name i). split; [reflexivity|]. apply short_clean.
Qed.

(** ** The text *)

Scheme stands_ind2 := Induction for stands Sort Prop with stands_all_ind2 := Induction for stands_all Sort Prop.
Lemma ids_text H H' types : (forall i o, nth_error types i = Some o -> dt_id (H o) = Some (Z.of_nat i) /\ dt_id (H' o) = Some (Z.of_nat i)) ->
  forall e a, stands types e a -> elem_string false H e = elem_string false H' e.
Proof.
  intros I. apply (stands_ind2 types (fun e a _ => elem_string false H e = elem_string false H' e)
    (fun es l _ => (fix go l := match l with [] => Ok [] | x :: r => do t <- elem_string false H x; do b <- go r; Ok ([QUOTE] ++ opt_text (de_name x) ++ [QUOTE] ++ t ++ b) end) es =
      (fix go l := match l with [] => Ok [] | x :: r => do t <- elem_string false H' x; do b <- go r; Ok ([QUOTE] ++ opt_text (de_name x) ++ [QUOTE] ++ t ++ b) end) es)).
  - reflexivity.
  - intros n o i O. cbn [elem_string]. destruct (I i o O) as (-> & ->). reflexivity.
  - intros n es l _ E. cbn [elem_string]. rewrite E. reflexivity.
  - reflexivity.
  - intros e a es l _ E _ Es. cbn [elem_string]. rewrite E, Es. reflexivity.
Qed.
Lemma pairs_nth {A B} (R : A -> B -> Prop) : forall l l', length l = length l' -> (forall i x y, nth_error l i = Some x -> nth_error l' i = Some y -> R x y) -> Forall2 R l l'.
Proof.
  induction l as [|x l IH]; intros [|y l'] E H; try discriminate; constructor; [apply (H 0%nat); reflexivity|]. apply IH; [injection E; auto|]. intros i a b A1 B1. apply (H (S i)); assumption.
Qed.
Lemma pairs_len {A B} (R : A -> B -> Prop) l l' : Forall2 R l l' -> length l = length l'.
Proof. induction 1; cbn [length]; congruence. Qed.
Lemma map_res_same {A B} (f g : A -> res B) l : (forall x, In x l -> f x = g x) -> map_res f l = map_res g l.
Proof. induction l as [|x l IH]; intros E; cbn [map_res]; [reflexivity|]. rewrite (E x (or_introl eq_refl)), IH; [reflexivity|]. intros y I. apply E. right. exact I. Qed.
Lemma short_map nm o : forall l k, map_find nm (combine (map (fun i => Some (short_name i)) (seq k (length l))) l) = Some o -> exists i, nth_error l i = Some o /\ nm = Some (short_name (k + i)).
Proof.
  unfold map_find. induction l as [|x l IH]; intros k E; [discriminate|]. cbn [length seq map combine find fst] in E. destruct (opt_eqb (Some (short_name k)) nm) eqn:Q.
  - cbn [option_map snd] in E. injection E as ->. apply opt_eqb_eq in Q as <-. exists 0%nat. rewrite Nat.add_0_r. split; reflexivity.
  - destruct (IH (S k) E) as (i & I & N). exists (S i). split; [exact I|]. rewrite N. do 2 f_equal. lia.
Qed.
Lemma short_found o : forall l k i, nth_error l i = Some o -> map_find (Some (short_name (k + i))) (combine (map (fun i => Some (short_name i)) (seq k (length l))) l) = Some o.
Proof.
  unfold map_find. induction l as [|x l IH]; intros k i E; [destruct i; discriminate|]. cbn [length seq map combine find fst]. destruct (opt_eqb (Some (short_name k)) (Some (short_name (k + i)))) eqn:Q.
  - apply opt_eqb_eq in Q. assert (k = k + i)%nat as X by (apply short_inj; congruence). assert (i = 0%nat) as -> by lia. cbn [nth_error] in E. exact E.
  - destruct i as [|i]; [rewrite Nat.add_0_r in Q; exfalso; assert (opt_eqb (Some (short_name k)) (Some (short_name k)) = true) as X by (apply opt_eqb_eq; reflexivity); congruence|].
    replace (k + S i)%nat with (S k + i)%nat by lia. apply IH. exact E.
Qed.

(** The text of a node finalized with short names is read as the sorted definition with the
    types called T0, T1, ...: references are by position. *)
Theorem compact_text sort W nd D D' : represents W nd D -> linked D -> n_final nd = false -> writable_def D ->
  sorted_def sort D D' -> (forall i t, nth_error (df_types D') i = Some t -> below i (td_elem t)) ->
  exists W' nd' text, finalize sort true W nd = Ok (W', nd') /\ node_dumps false W' nd' = Ok (W', nd', text) /\
    forall W0, exists W2 nd2, loads W0 text = Ok (W2, nd2) /\ represents W2 nd2 (with_short_names D').
Proof.
  intros R L NF WD SD B.
  assert (forall t, In t (df_types D) -> td_name t <> None) as NT by (intros t I; destruct (wd_types _ WD t I) as ((s & -> & _) & _); discriminate).
  assert (forall p, In p (df_provide D ++ df_require D) -> pd_name p <> None) as NP by (intros p I; destruct (wd_ports _ WD p I) as ((s & -> & _) & _); discriminate).
  destruct (finalize_compacts sort W nd D R L NF NT NP) as (W' & nd' & D1 & E & SD1 & R' & FN & TG).
  assert (D1 = D') as -> by exact (sorted_def_unique _ _ _ _ (ln_names _ L) SD1 SD).
  pose proof (linked_sorted _ _ _ L SD B) as L'. pose proof (writable_sorted _ _ _ SD WD) as WD'.
  set (f := fun d i => mk_dtype (Some (84 :: dec_str i)) (dt_elem d) (dt_attr d) (dt_id d) None).
  set (W2 := number_types f W' 0 (n_types nd')).
  set (nd2 := mk_node (n_name nd') (n_final nd') (n_types nd') (n_require nd') (n_provide nd') (combine (map (fun i => Some (short_name i)) (seq 0 (length (n_types nd')))) (n_types nd'))).
  destruct (number_types_spec f (n_types nd') W' 0 (rp_tdup _ _ _ R')) as (A1 & A2 & A3 & _ & A5). fold W2 in A1, A2, A3, A5.
  pose proof (pairs_len _ _ _ (rp_types _ _ _ R')) as LT.
  assert (represents W2 nd2 (with_short_names D')) as R2.
  { destruct R' as [Q1 Q2 Q3 Q4 Q5 Q6 Q7 Q8 Q9]. constructor; cbn [nd2 n_name n_types n_require n_provide n_map with_short_names df_name df_provide df_require]; auto.
    - apply pairs_nth; [rewrite <- short_length in LT; exact LT|]. intros i o t O T. change (nth_error (df_types (with_short_names D')) i = Some t) in T. rewrite short_nth in T.
      destruct (nth_error (df_types D') i) as [t0|] eqn:T0; [|discriminate]. injection T as <-. destruct (Forall2_nth _ _ _ _ _ Q2 O) as (t1 & T1 & X). rewrite T0 in T1. injection T1 as <-.
      destruct X as (X1 & X2 & X3). unfold type_is. rewrite (A5 i o O). cbn [f dt_name dt_attr dt_elem td_name td_attr td_elem]. split; [reflexivity|]. split; assumption.
    - eapply Forall2_imp; [|exact Q3]. intros o p _ _ X. unfold port_is in *. rewrite A3. exact X.
    - eapply Forall2_imp; [|exact Q4]. intros o p _ _ X. unfold port_is in *. rewrite A3. exact X.
    - intros nm o. split.
      + intros X. apply short_map in X as (i & O & ->). exists i. split; [exact O|]. apply short_names_nth. split; [|reflexivity]. rewrite <- LT. apply nth_error_Some. congruence.
      + intros (i & O & N). apply short_names_nth in N as (_ & ->). exact (short_found o _ 0%nat i O).
    - intros o O. rewrite A1. auto.
    - intros o O. rewrite A2. auto. }
  assert (tagged W2 nd2) as TG2.
  { intros i o O. cbn [nd2 n_types] in O. rewrite (A5 i o O). cbn [f dt_id dt_short]. split; [apply (TG i o O)|reflexivity]. }
  destruct (definition_round_trip false W2 nd2 _ R2 (short_linked _ L') (or_intror TG2) (short_writable _ WD')) as (text & ET & RT).
  assert (forall i o, nth_error (n_types nd') i = Some o -> dt_id (w_types W2 o) = Some (Z.of_nat i) /\ dt_id (w_types W' o) = Some (Z.of_nat i)) as IDS.
  { intros i o O. split; [apply (TG2 i o O)|apply (TG i o O)]. }
  assert (forall o p b, port_is W' (n_types nd') b o p -> In p (df_provide D' ++ df_require D') -> port_string false (w_types W2) (w_ports W2 o) = port_string false (w_types W') (w_ports W' o)) as PT.
  { intros o p b (_ & _ & _ & X) I. unfold port_string. rewrite A3. replace (elem_string false (w_types W2) (pt_elem (w_ports W' o))) with (elem_string false (w_types W') (pt_elem (w_ports W' o))); [reflexivity|]. symmetry.
    destruct (ln_ports _ L' p I) as (_ & OWN & _). inversion X as [n r a ST EQ1 EQ2|e NR EQ1 EQ2]; [exact (ids_text _ _ _ IDS _ _ ST)|]. apply parsed_text. rewrite EQ2. apply OWN. rewrite <- EQ2. exact NR. }
  assert (lines false W2 nd2 = lines false W' nd') as LE.
  { unfold lines. cbn [nd2 n_name n_types n_require n_provide]. 
    rewrite (map_res_same (fun o => type_string false (w_types W2) (w_types W2 o)) (fun o => type_string false (w_types W') (w_types W' o)) (n_types nd')).
    2: { intros o O. apply In_nth_error in O as (i & O). unfold type_string. destruct (TG i o O) as (_ & S1). rewrite S1.
         destruct (Forall2_nth _ _ _ _ _ (rp_types _ _ _ R') O) as (t & _ & _ & _ & ST). rewrite (A5 i o O). cbn [f dt_name dt_attr dt_elem dt_short]. rewrite (ids_text _ _ _ IDS _ _ ST). reflexivity. }
    rewrite (map_res_same (fun o => port_string false (w_types W2) (w_ports W2 o)) (fun o => port_string false (w_types W') (w_ports W' o)) (n_provide nd')).
    2: { intros o O. apply In_nth_error in O as (i & O). destruct (Forall2_nth _ _ _ _ _ (rp_provide _ _ _ R') O) as (p & P & X). apply (PT o p true X). apply in_or_app. left. eapply nth_error_In; eauto. }
    rewrite (map_res_same (fun o => port_string false (w_types W2) (w_ports W2 o)) (fun o => port_string false (w_types W') (w_ports W' o)) (n_require nd')).
    2: { intros o O. apply In_nth_error in O as (i & O). destruct (Forall2_nth _ _ _ _ _ (rp_require _ _ _ R') O) as (p & P & X). apply (PT o p false X). apply in_or_app. right. eapply nth_error_In; eauto. }
    reflexivity. }
  unfold context_dumps in ET. cbn [map_res] in ET. rewrite LE in ET. inv_bind ET. inv_bind Ha. rename a0 into ls. cbn [bind] in Ha. injection Ha as <-. cbn [concat] in ET. rewrite app_nil_r in ET.
  exists W', nd', text. split; [exact E|]. split.
  - unfold node_dumps, finalize. rewrite FN. cbn [bind]. rewrite Ha0. cbn [bind].
    assert (exists l0 ls0, ls = l0 :: ls0) as (l0 & ls0 & ->).
    { unfold lines in Ha0. inv_bind Ha0. inv_bind Ha0. inv_bind Ha0. injection Ha0 as <-. eauto. }
    injection ET as <-. reflexivity.
  - intros W0. destruct (RT W0) as (W3 & nd3 & LD & R3 & _). eauto.
Qed.
Print Assumptions compact_text.

(** The normalized text refers by the long names, which it does not declare. *)
Definition ex_long : str := text_of ["APX/1.2"; "N""n"""; "T""b""C"; "T""a""S"; "T""c""{""x""T[""b""]}"; "P""q""T[0]"; "P""p""T[2]"; ""]%string.
Definition ex_short : str := text_of ["APX/1.2"; "N""n"""; "T""T0""S"; "T""T1""C"; "T""T2""{""x""T[1]}"; "P""p""T[2]"; "P""q""T[1]"; ""]%string.
Definition compact_dump (normalized : bool) (text : str) : res str :=
  do '(W, nd) <- loads empty_world text; do '(W, nd) <- finalize true true W nd; do '(_, _, out) <- node_dumps normalized W nd; Ok out.
Example ex_compact : compact_dump false ex_long = Ok ex_short.
Proof. vm_compute. reflexivity. Qed.
Theorem compact_normalized_refuted : exists W nd W' nd' W2 nd2 text, loads empty_world ex_long = Ok (W, nd) /\ finalize true true W nd = Ok (W', nd') /\ node_dumps true W' nd' = Ok (W2, nd2, text) /\
  loads empty_world text = Err ApxTypeError.
Proof. do 7 eexists. split; [vm_compute; reflexivity|]. split; [vm_compute; reflexivity|]. split; [vm_compute; reflexivity|]. vm_compute. reflexivity. Qed.
Print Assumptions compact_normalized_refuted.
