(** Lemmas about the C generator: ports, offsets, the whole file. *)
From Coq Require Import ZifyBool ZifyNat Lia Permutation.
From Verif Require Import Py PyLemmas TypesModel CompilerModel VmModel TypesSpec TypesProofs
  VmProofs VmPackProofs VmUnpackProofs TextModel SigModel AttrModel NodeModel RmfModel FileModel NodeDataModel NodeDataSpec NodeDataProofs
  NodeInitProofs NodeDataProps GenModel GenSpec GenProofs GenProofs2.
Ltac Zify.zify_post_hook ::= Z.div_mod_to_equations.

(** ** The world stays the same *)

Definition same_world (W W' : world) : Prop :=
  w_types W' = w_types W /\ forall o, w_ports W' o = w_ports W o.
Lemma same_world_refl W : same_world W W. Proof. split; reflexivity. Qed.
Lemma same_world_trans W1 W2 W3 : same_world W1 W2 -> same_world W2 W3 -> same_world W1 W3.
Proof. intros [A B] [C D]. split; [congruence|]. intros o. rewrite D. apply B. Qed.
Lemma same_world_sym W1 W2 : same_world W1 W2 -> same_world W2 W1.
Proof. intros [A B]. split; [congruence|]. intros o. symmetry. apply B. Qed.
Lemma same_world_set W o : same_world W (set_port W o (with_pelem (w_ports W o) (pt_elem (w_ports W o)))).
Proof.
  split; [reflexivity|]. intros o'. cbn [set_port w_ports]. destruct (Nat.eq_dec o' o) as [->|N].
  - rewrite upd_same. apply with_pelem_elem.
  - apply upd_other, N.
Qed.

Lemma map_res_ext {A B} (f g : A -> res B) l : (forall x, f x = g x) -> map_res f l = map_res g l.
Proof. intros E. induction l as [|x l IH]; [reflexivity|]. cbn [map_res]. rewrite E, IH. reflexivity. Qed.
Lemma dumps_same b W W' nds : same_world W W' -> context_dumps b W' nds = context_dumps b W nds.
Proof.
  intros [A B]. unfold context_dumps. rewrite (map_res_ext (lines b W') (lines b W)); [reflexivity|].
  intros nd. unfold lines. rewrite A. rewrite !(map_res_ext _ _ _ (fun o => f_equal (port_string b (w_types W)) (B o))). reflexivity.
Qed.

(** ** One port *)

Definition sig_init (fuel : nat) (H : theap) (p : port) (n : Z) : res bytes :=
  match init_of p with IVNone => Ok (zeros n) | v => createInitData fuel H (pt_elem p) v end.

Record signal (fuel : nat) (op : dir) (name : str) (W : world) (off : Z) (o : nat) (s : siginfo) : Prop := mk_signal {
  sg_name : si_name s = pt_name (w_ports W o);
  sg_offset : si_offset s = off;
  sg_len : packLen fuel (w_types W) (pt_elem (w_ports W o)) = Ok (si_len s);
  sg_func : si_func s = func_name op name (pt_name (w_ports W o));
  sg_type : ctypename (w_types W) (pt_elem (w_ports W o)) = Ok (si_type s);
  sg_pointer : match op with Unpack => Ok true | Pack => isComplexType (w_types W) (pt_elem (w_ports W o)) end = Ok (si_pointer s);
  sg_target : resolve_data_element (w_types W) (pt_elem (w_ports W o)) = Ok (si_target s);
  sg_init : sig_init fuel (w_types W) (w_ports W o) (si_len s) = Ok (si_init s);
  sg_initlen : len (si_init s) = si_len s
}.
Fixpoint signals (fuel : nat) (op : dir) (name : str) (W : world) (off : Z) (ports : list nat) (sigs : list siginfo) : Prop :=
  match ports, sigs with
  | [], [] => True
  | o :: r, s :: l => signal fuel op name W off o s /\ signals fuel op name W (off + si_len s) r l
  | _, _ => False
  end.

(** Elements that have a C type are not changed by resolving them. *)
Lemma c_resolved H types e t e' : ctypename H e = Ok t -> resolve_type H types e = Ok e' -> e' = e.
Proof.
  destruct e as [nm c lo hi a|nm es|nm [i|s|o]]; cbn [ctypename resolve_type]; intros C E; try discriminate; congruence.
Qed.

Lemma gen_signal_inv fuel op types name W off o W' s : gen_signal fuel op types name W off o = Ok (W', s) ->
  same_world W W' /\ signal fuel op name W off o s.
Proof.
  unfold gen_signal. intros E.
  apply bind_ok in E as (pointer & Ep & E). apply bind_ok in E as (t & Et & E). apply bind_ok in E as (n & En & E).
  apply bind_ok in E as ([e tg] & Er & E). apply bind_ok in E as (b & Eb & E).
  unfold resolve_sig in Er. apply bind_ok in Er as (e' & R1 & Er). apply bind_ok in Er as (d & R2 & Er). injection Er as -> ->.
  assert (X : e = pt_elem (w_ports W o)) by exact (c_resolved _ _ _ _ _ Et R1). subst e.
  destruct (Z.eqb_spec (len b) n) as [L|L]; cbn [negb] in E; [|discriminate]. injection E as <- <-.
  split; [apply same_world_set|]. constructor; cbn [si_name si_offset si_len si_func si_type si_pointer si_target si_init]; auto.
Qed.

Lemma signal_same fuel op name W W' off o s : same_world W W' -> signal fuel op name W off o s -> signal fuel op name W' off o s.
Proof. intros [A B] []. constructor; rewrite ?A, ?B; auto. Qed.
Lemma signals_same fuel op name W W' : same_world W W' -> forall ports off sigs,
  signals fuel op name W off ports sigs -> signals fuel op name W' off ports sigs.
Proof.
  intros S. induction ports as [|o r IH]; intros off [|s l] G; cbn [signals] in *; auto.
  destruct G as [G1 G2]. split; [exact (signal_same _ _ _ _ _ _ _ _ S G1)|auto].
Qed.
Lemma gen_signals_inv fuel op types name : forall ports W off W' sigs,
  gen_signals fuel op types name W off ports = Ok (W', sigs) ->
  same_world W W' /\ signals fuel op name W off ports sigs.
Proof.
  induction ports as [|o r IH]; intros W off W' sigs E; cbn [gen_signals] in E.
  - injection E as <- <-. split; [apply same_world_refl|exact I].
  - apply bind_ok in E as ([W1 s] & E1 & E). apply bind_ok in E as ([W2 l] & E2 & E). injection E as <- <-.
    apply gen_signal_inv in E1 as [S1 G1]. apply IH in E2 as [S2 G2].
    split; [exact (same_world_trans _ _ _ S1 S2)|]. cbn [signals]. split; [exact G1|].
    exact (signals_same _ _ _ _ _ (same_world_sym _ _ S1) _ _ _ G2).
Qed.

(** ** The same offsets and initial bytes as in Python *)

Lemma init_resolve H v b : forall count e tg, resolve_loop count H e = Ok tg -> forall fuel, init_inner fuel H e v = Ok b ->
  exists fuel', init_inner fuel' H tg v = Ok b.
Proof.
  induction count as [|count IH]; intros e tg R fuel E; cbn [resolve_loop] in R.
  - destruct (is_reference e); [discriminate|]. injection R as <-. eauto.
  - destruct e as [nm c lo hi a|nm es|nm [i|s|o]]; try discriminate; try (injection R as <-; eauto).
    destruct fuel as [|fuel]; [discriminate|]. cbn [init_inner] in E. exact (IH _ _ R _ E).
Qed.

Lemma init_agrees H e tg v fuel b fuel' b' t : ctypename H e = Ok t -> resolve_data_element H e = Ok tg ->
  createInitData fuel H e v = Ok b -> createInitData fuel' H tg v = Ok b' -> b' = b.
Proof.
  intros C R E1 E2.
  assert (E1' : init_inner fuel H e v = Ok b).
  { destruct e as [nm c lo hi a|nm es|nm r]; [exact E1|discriminate C|exact E1]. }
  destruct (init_resolve H v b _ _ _ R _ E1') as [f2 E3].
  assert (E4 : exists f3, createInitData f3 H tg v = Ok b).
  { destruct tg as [nm c lo hi a|nm es|nm r]; [exists f2; exact E3| |exists f2; exact E3].
    destruct f2 as [|f2]; [discriminate|]. exists f2. cbn [init_inner createInitData] in *. destruct v; try discriminate.
    destruct (negb _); [discriminate|]. exact E3. }
  destruct E4 as [f3 E4].
  apply createInitData_more with (fuel' := Nat.max f3 fuel') in E4; [|lia].
  apply createInitData_more with (fuel' := Nat.max f3 fuel') in E2; [|lia]. congruence.
Qed.

Lemma add_all_agrees fuel op name d types : forall ports W off sigs s W' s',
  signals fuel op name W off ports sigs -> s_offset s = off -> add_all fuel d types W s ports = Ok (W', s') ->
  same_world W W' /\ s_offset s' = off + sum_lens sigs /\ s_init s' = s_init s ++ concat (map si_init sigs) /\
  s_map s' = s_map s ++ map (fun x => mk_portmap (si_offset (fst x)) (si_len (fst x)) (snd x)) (combine sigs ports).
Proof.
  induction ports as [|o r IH]; intros W off [|g sigs] s W' s' G O E; cbn [signals add_all] in *; try contradiction.
  - injection E as <- <-. split; [apply same_world_refl|]. cbn [sum_lens map concat combine]. rewrite !app_nil_r. split; [lia|]. auto.
  - apply bind_ok in E as ([W1 s1] & E1 & E). destruct G as [G1 G2].
    destruct G1 as [Gn Go Gl _ Gt _ Gr Gi Gil].
    unfold add_to_side in E1.
    apply bind_ok in E1 as (u & _ & E1). apply bind_ok in E1 as ([e tg] & R & E1). apply bind_ok in E1 as (n & P & E1).
    apply bind_ok in E1 as (prog & _ & E1). apply bind_ok in E1 as (u' & _ & E1). apply bind_ok in E1 as (b & Bi & E1).
    unfold resolve_sig in R. apply bind_ok in R as (e' & R1 & R). apply bind_ok in R as (d' & R2 & R). injection R as -> ->.
    assert (X : e = pt_elem (w_ports W o)) by exact (c_resolved _ _ _ _ _ Gt R1). subst e.
    cbn [set_port w_types] in *. rewrite Gl in P. injection P as <-. rewrite Gr in R2. injection R2 as <-.
    assert (Eb : b = si_init g).
    { unfold sig_init in Gi. destruct (init_of (w_ports W o)) eqn:IO; try (exact (init_agrees _ _ _ _ _ _ _ _ _ Gt Gr Gi Bi)).
      unfold mk_zeros in Bi. destruct (_ <? 0); [discriminate|]. congruence. }
    subst b. injection E1 as E1w E1s.
    assert (S1 : same_world W W1) by (rewrite <- E1w; apply same_world_set).
    subst s1. apply (signals_same _ _ _ _ _ S1) in G2.
    pose proof (fun O => IH W1 (off + si_len g) sigs _ W' s' G2 O E) as X. cbn [s_offset] in X.
    destruct (X ltac:(lia)) as (S2 & A & B & C). clear X.
    cbn [s_init s_map s_offset] in *.
    split; [exact (same_world_trans _ _ _ S1 S2)|]. split; [cbn [sum_lens]; lia|].
    split; [cbn [map concat]; rewrite B, <- app_assoc; reflexivity|].
    cbn [combine map fst snd]. rewrite C, <- app_assoc. cbn [app]. rewrite Go, O. reflexivity.
Qed.

Lemma sigs_offset fuel op name W : forall ports off sigs, signals fuel op name W off ports sigs ->
  len (concat (map si_init sigs)) = sum_lens sigs.
Proof.
  induction ports as [|o r IH]; intros off [|s l] G; cbn [signals] in *; try contradiction; [reflexivity|].
  destruct G as [G1 G2]. cbn [map concat sum_lens]. rewrite len_app, (sg_initlen _ _ _ _ _ _ _ G1), (IH _ _ G2). reflexivity.
Qed.

(** ** Signals by name *)

Lemma opt_eqb_eq a b : opt_eqb a b = true <-> a = b.
Proof.
  destruct a as [x|], b as [y|]; cbn [opt_eqb]; split; intros E; try discriminate; try reflexivity.
  - apply str_eqb_eq in E. congruence.
  - injection E as ->. apply str_eqb_refl.
Qed.

Lemma sig_of_here l s : NoDup (map si_name l) -> In s l -> sig_of l (si_name s) = Ok s.
Proof.
  intros ND I. unfold sig_of.
  assert (F : forall l, NoDup (map si_name l) -> In s l -> find (fun x => opt_eqb (si_name x) (si_name s)) l = Some s).
  { clear. induction l as [|x l IH]; intros ND I; [destruct I|]. cbn [find]. cbn [map] in ND. inversion ND as [|a b N ND']; subst.
    destruct (opt_eqb (si_name x) (si_name s)) eqn:Q.
    - apply opt_eqb_eq in Q. destruct I as [->|I]; [reflexivity|]. exfalso. apply N. rewrite Q. apply in_map, I.
    - destruct I as [->|I]; [|auto]. rewrite (proj2 (opt_eqb_eq _ _) eq_refl) in Q. discriminate. }
  rewrite (F (rev l)); [reflexivity| |apply in_rev in I; exact I].
  rewrite map_rev. apply NoDup_rev, ND.
Qed.

Lemma gather_all l sigs : NoDup (map si_name l) -> (forall s, In s sigs -> In s l) ->
  gather l sigs = Ok (concat (map si_init sigs)).
Proof.
  intros ND. induction sigs as [|s sigs IH]; intros I; [reflexivity|]. cbn [gather map concat].
  rewrite (sig_of_here l s ND (I s (or_introl eq_refl))). cbn [bind]. rewrite IH by (intros; apply I; right; assumption). reflexivity.
Qed.

Lemma init_table_all l b : NoDup (map si_name l) -> len (concat (map si_init l)) = sum_lens l ->
  init_table l = Ok b -> b = concat (map si_init l).
Proof.
  intros ND L E. unfold init_table in E. destruct (Z.eqb_spec (sum_lens l) 0) as [Z|Z].
  - injection E as <-. rewrite Z in L. destruct (concat _) as [|x y]; [reflexivity|]. rewrite len_cons in L. pose proof (len_nonneg y). lia.
  - rewrite (gather_all l l ND) in E by auto. cbn [bind] in E. destruct (_ =? _); [|discriminate]. congruence.
Qed.

Lemma signals_names fuel op name W : forall ports off sigs, signals fuel op name W off ports sigs ->
  map si_name sigs = map (fun o => pt_name (w_ports W o)) ports.
Proof.
  induction ports as [|o r IH]; intros off [|s l] G; cbn [signals] in *; try contradiction; [reflexivity|].
  destruct G as [G1 G2]. cbn [map]. f_equal; [apply (sg_name _ _ _ _ _ _ _ G1)|exact (IH _ _ G2)].
Qed.

(** ** The definition text *)

Lemma unescape_app a b x y : unescape a = Some x -> unescape b = Some y -> unescape (a ++ b) = Some (x ++ y).
Proof.
  revert x. assert (G : forall n a, (length a <= n)%nat -> forall x, unescape a = Some x -> unescape b = Some y -> unescape (a ++ b) = Some (x ++ y)).
  { induction n as [|n IH]; intros a' L x E B.
    - destruct a'; [|cbn [length] in L; lia]. injection E as <-. exact B.
    - destruct a' as [|c r]; [injection E as <-; exact B|]. cbn [app unescape] in *. cbn [length] in L.
      destruct (c =? 92).
      + destruct r as [|e r]; [discriminate|]. cbn [app length] in *.
        destruct (if e =? 110 then _ else _) as [z|]; [|discriminate]. cbn [obind] in *.
        destruct (unescape r) as [t|] eqn:U; [|discriminate]. cbn [obind] in *. injection E as <-.
        rewrite (IH r ltac:(lia) t U B). reflexivity.
      + destruct ((c =? 34) || (c =? 10)); [discriminate|].
        destruct (unescape r) as [t|] eqn:U; [|discriminate]. cbn [obind] in *. injection E as <-.
        rewrite (IH r ltac:(lia) t U B). reflexivity. }
  intros x. apply (G (length a) a). lia.
Qed.

Lemma unescape_escape s : ~ In 92 s -> ~ In 10 s -> unescape (escape s) = Some s.
Proof.
  induction s as [|c s IH]; intros A B; [reflexivity|]. cbn [escape flat_map]. fold (escape s). cbn [In] in A, B.
  apply (unescape_app _ _ [c] s); [|apply IH; tauto].
  destruct (Z.eqb_spec c QUOTE) as [->|N]; [reflexivity|]. cbn [unescape].
  replace (c =? 92) with false by lia. unfold QUOTE in N. replace ((c =? 34) || (c =? 10)) with false by lia. reflexivity.
Qed.

Lemma split_no_newline s : forall l, In l (split_on NEWLINE s) -> ~ In 10 l.
Proof.
  induction s as [|c s IH]; intros l I; cbn [split_on] in I.
  - destruct I as [<-|[]]. intros [].
  - destruct (Z.eqb_spec c NEWLINE) as [->|N].
    + destruct I as [<-|I]; [intros []|exact (IH l I)].
    + destruct (split_on NEWLINE s) as [|f r]; [destruct I as [<-|[]]; unfold NEWLINE in N; cbn; intuition congruence|].
      destruct I as [<-|I]; [|apply IH; right; exact I].
      intros [J|J]; [unfold NEWLINE in N; congruence|]. exact (IH f (or_introl eq_refl) J).
Qed.
Lemma split_chars x s : forall l, In l (split_on NEWLINE s) -> In x l -> In x s.
Proof.
  induction s as [|c s IH]; intros l I J; cbn [split_on] in I.
  - destruct I as [<-|[]]. exact J.
  - destruct (c =? NEWLINE).
    + destruct I as [<-|I]; [destruct J|right; exact (IH l I J)].
    + destruct (split_on NEWLINE s) as [|f r]; [destruct I as [<-|[]]; destruct J as [->|[]]; left; reflexivity|].
      destruct I as [<-|I]; [destruct J as [->|J]; [left; reflexivity|right; exact (IH f (or_introl eq_refl) J)]|].
      right. exact (IH l (or_intror I) J).
Qed.
Lemma split_lines s : concat (map (fun l => l ++ [10]) (split_on NEWLINE s)) = s ++ [10].
Proof.
  induction s as [|c s IH]; [reflexivity|]. cbn [split_on]. destruct (Z.eqb_spec c NEWLINE) as [->|N].
  - cbn [map concat app]. rewrite IH. reflexivity.
  - destruct (split_on NEWLINE s) as [|f r] eqn:E.
    + destruct s as [|y s']; cbn [split_on] in E; [discriminate|]. destruct (y =? NEWLINE); [discriminate|]. destruct (split_on NEWLINE s'); discriminate.
    + cbn [map concat] in *. rewrite <- !app_assoc in *. cbn [app] in *. rewrite IH. reflexivity.
Qed.

Lemma literal_denotes text : ~ In 92 text -> denoted (map literal_line (split_on NEWLINE text)) = Some (text ++ [10]).
Proof.
  intros B. rewrite <- split_lines.
  assert (C : forall l, In l (split_on NEWLINE text) -> ~ In 92 l /\ ~ In 10 l).
  { intros l I. split; [intros J; exact (B (split_chars _ _ _ I J))|exact (split_no_newline _ _ I)]. }
  induction (split_on NEWLINE text) as [|l r IH]; [reflexivity|]. cbn [map denoted concat].
  destruct (C l (or_introl eq_refl)) as [C1 C2].
  unfold literal_line at 1. rewrite (unescape_app _ [92; 110] l [10] (unescape_escape l C1 C2) eq_refl). cbn [obind].
  rewrite IH by (intros; apply C; right; assumption). reflexivity.
Qed.
