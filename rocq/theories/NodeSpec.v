(** What a node definition is, apart from objects: declarations whose references are
    the positions of the types they go to. *)
From Coq Require Permutation Sorted.
From Verif Require Import Py TypesModel TextModel SigModel AttrModel NodeModel SigSpec.

Record tdef := mk_tdef { td_name : option str; td_elem : delem; td_attr : option str }.
Record pdef := mk_pdef { pd_name : option str; pd_elem : delem; pd_attr : option pattr }.
Record ndef := mk_ndef {
  df_name : option str;
  df_types : list tdef;
  df_provide : list pdef;
  df_require : list pdef
}.
Definition type_names (D : ndef) : list (option str) := map td_name (df_types D).

Definition is_ref (e : delem) : Prop := match e with DRef _ _ => True | _ => False end.

(** [refers names e a]: the references of the parsed element [e] are, by name or by
    position, those of [a]; [names] are the types there are.  As everywhere in
    Python, negative positions count from the end. *)
Inductive refers (names : list (option str)) : delem -> delem -> Prop :=
| rf_prim n c lo hi k : refers names (DPrim n c lo hi k) (DPrim n c lo hi k)
| rf_name n s i : nth_error names i = Some (Some s) ->
    refers names (DRef n (RName s)) (DRef n (RInt (Z.of_nat i)))
| rf_index n i : (i < length names)%nat ->
    refers names (DRef n (RInt (Z.of_nat i))) (DRef n (RInt (Z.of_nat i)))
| rf_back n i : (i < length names)%nat ->
    refers names (DRef n (RInt (Z.of_nat i - len names))) (DRef n (RInt (Z.of_nat i)))
| rf_rec n es l : refers_all names es l -> refers names (DRec n es) (DRec n l)
with refers_all (names : list (option str)) : list delem -> list delem -> Prop :=
| rfs_nil : refers_all names [] []
| rfs_cons e a es l : refers names e a -> refers_all names es l -> refers_all names (e :: es) (a :: l).

(** [reaches ts n a]: following at most [n] references gives an element that is none. *)
Inductive reaches (ts : list tdef) : nat -> delem -> Prop :=
| rc_here n a : ~ is_ref a -> reaches ts n a
| rc_step n nm i t : nth_error ts i = Some t -> reaches ts n (td_elem t) ->
    reaches ts (S n) (DRef nm (RInt (Z.of_nat i))).

(** References of the element of type [i] go to types before it. *)
Inductive below (i : nat) : delem -> Prop :=
| bl_prim n c lo hi k : below i (DPrim n c lo hi k)
| bl_ref n j : (j < i)%nat -> below i (DRef n (RInt (Z.of_nat j)))
| bl_rec n l : belows i l -> below i (DRec n l)
with belows (i : nat) : list delem -> Prop :=
| bls_nil : belows i []
| bls_cons a l : below i a -> belows i l -> belows i (a :: l).

(** A definition whose references all lead somewhere.  The references inside a record
    that a port declares itself stay as they are written. *)
Definition good_port (D : ndef) (p : pdef) : Prop :=
  (is_ref (pd_elem p) -> below (length (df_types D)) (pd_elem p) /\ reaches (df_types D) 10 (pd_elem p)) /\
  (~ is_ref (pd_elem p) -> as_parsed (pd_elem p)) /\
  nameless (pd_elem p) = pd_elem p /\
  (forall a, pd_attr p = Some a -> parse_port_attr (pa_str a) = Ok a).
Record linked (D : ndef) : Prop := {
  ln_names : NoDup (type_names D);
  ln_below : forall i t, nth_error (df_types D) i = Some t -> below i (td_elem t);
  ln_ends : forall t, In t (df_types D) -> reaches (df_types D) 10 (td_elem t);
  ln_plain : forall t, In t (df_types D) -> nameless (td_elem t) = td_elem t;
  ln_tattr : forall t a, In t (df_types D) -> td_attr t = Some a -> exists v, parse_type_attr a = Ok v;
  ln_ports : forall p, In p (df_provide D ++ df_require D) -> good_port D p
}.

(** [stands types e a]: the objects that [e] refers to are those at the positions in [a]. *)
Inductive stands (types : list nat) : delem -> delem -> Prop :=
| st_prim n c lo hi k : stands types (DPrim n c lo hi k) (DPrim n c lo hi k)
| st_ref n o i : nth_error types i = Some o ->
    stands types (DRef n (RObj o)) (DRef n (RInt (Z.of_nat i)))
| st_rec n es l : stands_all types es l -> stands types (DRec n es) (DRec n l)
with stands_all (types : list nat) : list delem -> list delem -> Prop :=
| sts_nil : stands_all types [] []
| sts_cons e a es l : stands types e a -> stands_all types es l -> stands_all types (e :: es) (a :: l).

Inductive port_stands (types : list nat) : delem -> delem -> Prop :=
| ps_ref n r a : stands types (DRef n r) a -> port_stands types (DRef n r) a
| ps_own e : ~ is_ref e -> port_stands types e e.

Definition type_is (H : theap) (types : list nat) (o : nat) (t : tdef) : Prop :=
  dt_name (H o) = td_name t /\ dt_attr (H o) = td_attr t /\ stands types (dt_elem (H o)) (td_elem t).
Definition port_is (W : world) (types : list nat) (provide : bool) (o : nat) (p : pdef) : Prop :=
  pt_provide (w_ports W o) = provide /\ pt_name (w_ports W o) = pd_name p /\
  pt_attr (w_ports W o) = pd_attr p /\ port_stands types (pt_elem (w_ports W o)) (pd_elem p).

(** The node object [nd] stands for the definition [D]. *)
Record represents (W : world) (nd : node) (D : ndef) : Prop := {
  rp_name : n_name nd = df_name D;
  rp_types : Forall2 (type_is (w_types W) (n_types nd)) (n_types nd) (df_types D);
  rp_provide : Forall2 (port_is W (n_types nd) true) (n_provide nd) (df_provide D);
  rp_require : Forall2 (port_is W (n_types nd) false) (n_require nd) (df_require D);
  rp_map : forall nm o, map_find nm (n_map nd) = Some o <->
             exists i, nth_error (n_types nd) i = Some o /\ nth_error (type_names D) i = Some nm;
  rp_tdup : NoDup (n_types nd);
  rp_pdup : NoDup (n_provide nd ++ n_require nd);
  rp_tbelow : forall o, In o (n_types nd) -> (o < w_ntypes W)%nat;
  rp_pbelow : forall o, In o (n_provide nd ++ n_require nd) -> (o < w_nports W)%nat
}.

(** The id of every port is its position. *)
Definition numbered (W : world) (nd : node) : Prop :=
  (forall i o, nth_error (n_provide nd) i = Some o -> pt_id (w_ports W o) = Some (Z.of_nat i)) /\
  (forall i o, nth_error (n_require nd) i = Some o -> pt_id (w_ports W o) = Some (Z.of_nat i)).
(** Types without ids and short names, and with ids. *)
Definition untagged (W : world) (nd : node) : Prop :=
  forall o, In o (n_types nd) -> dt_id (w_types W o) = None /\ dt_short (w_types W o) = None.
Definition tagged (W : world) (nd : node) : Prop :=
  forall i o, nth_error (n_types nd) i = Some o ->
    dt_id (w_types W o) = Some (Z.of_nat i) /\ dt_short (w_types W o) = None.

(** Names and elements whose text says what they are. *)
Definition plain_name (s : str) : Prop := forall c, In c s -> ~ In c [QUOTE; 35; 10].
Definition clean_name (s : str) : Prop := forall c, In c s -> ~ In c [QUOTE; 35; 10; 58].
Fixpoint tidy (own : bool) (a : delem) : Prop :=
  match a with
  | DPrim _ _ lo hi k => (lo = None <-> hi = None) /\ match k with Some n => 0 <= n | None => True end
  | DRec _ l =>
    (fix go l := match l with
                 | [] => True
                 | x :: r => (exists s, de_name x = Some s /\ clean_name s) /\ tidy own x /\ go r
                 end) l
  | DRef _ (RInt _) => own = false
  | DRef _ (RName s) => own = true /\ clean_name s /\ bracketed s
  | DRef _ (RObj _) => False
  end.

(** One more declaration. *)
Definition plus_type (D : ndef) (t : tdef) : ndef :=
  mk_ndef (df_name D) (df_types D ++ [t]) (df_provide D) (df_require D).
Definition plus_port (provide : bool) (D : ndef) (p : pdef) : ndef :=
  if provide then mk_ndef (df_name D) (df_types D) (df_provide D ++ [p]) (df_require D)
  else mk_ndef (df_name D) (df_types D) (df_provide D) (df_require D ++ [p]).

Definition name_is (P : str -> Prop) (n : option str) : Prop := exists s, n = Some s /\ P s.
Definition tidy_types (D : ndef) : Prop :=
  forall t, In t (df_types D) -> name_is (fun s => clean_name s /\ bracketed s) (td_name t) /\ tidy false (td_elem t).

(** [declares_type D n s at D']: what the declaration of a type with name [n],
    signature text [s] and attribute text [at] makes of a definition. *)
Definition type_attr_ok (attr : option str) : Prop :=
  match attr with Some t => exists v, parse_type_attr t = Ok v | None => True end.
Inductive declares_type (D : ndef) (n : option str) (s : str) (attr : option str) : ndef -> Prop :=
| dy_new e a : parse_signature s = Ok e -> type_attr_ok attr -> ~ In n (type_names D) ->
    refers (type_names D) e a -> reaches (df_types D) 10 a ->
    declares_type D n s attr (plus_type D (mk_tdef n a attr))
(* said before, and the same, provided all names can be told apart: no change *)
| dy_again e t : parse_signature s = Ok e -> type_attr_ok attr -> In t (df_types D) -> td_name t = n ->
    (tidy true e -> tidy_types D -> refers (type_names D) e (td_elem t) /\ attr = td_attr t) ->
    declares_type D n s attr D.

Definition port_attr_read (attr : option str) (a : option pattr) : Prop :=
  match attr with
  | Some t => exists v, parse_port_attr t = Ok v /\ a = Some v
  | None => a = None
  end.
Inductive declares_port (provide : bool) (D : ndef) (n : option str) (s : str) (attr : option str) : ndef -> Prop :=
| dp_ref e a pa : parse_signature s = Ok e -> port_attr_read attr pa -> is_ref e ->
    refers (type_names D) e a -> reaches (df_types D) 10 a ->
    declares_port provide D n s attr (plus_port provide D (mk_pdef n a pa))
| dp_own e pa : parse_signature s = Ok e -> port_attr_read attr pa -> ~ is_ref e ->
    declares_port provide D n s attr (plus_port provide D (mk_pdef n e pa)).

(** [mentions e o]: the element refers to type object [o]. *)
Inductive mentions : delem -> nat -> Prop :=
| mt_ref n o : mentions (DRef n (RObj o)) o
| mt_rec n es e o : In e es -> mentions e o -> mentions (DRec n es) o.

(** What mirroring makes of a definition, and when its ports have a text. *)
Definition mirrored (name : option str) (D : ndef) : ndef :=
  mk_ndef (match name with Some s => Some s | None => df_name D end) (df_types D) (df_require D) (df_provide D).
Definition copyable (D : ndef) : Prop :=
  (forall t, In t (df_types D) -> name_is (fun s => clean_name s /\ bracketed s) (td_name t)) /\
  (forall p, In p (df_provide D ++ df_require D) -> is_ref (pd_elem p) \/ tidy true (pd_elem p)).

(** Texts in the order of their code points. *)
Inductive str_le : str -> str -> Prop :=
| sle_nil b : str_le [] b
| sle_less x y a b : x < y -> str_le (x :: a) (y :: b)
| sle_same x a b : str_le a b -> str_le (x :: a) (x :: b).

(** [stably_sorted name l l']: [l'] is [l] sorted by name, where those with the same name
    keep their order. *)
Definition stably_sorted {A} (name : A -> option str) (l l' : list A) : Prop :=
  Permutation.Permutation l l' /\
  Sorted.StronglySorted (fun x y => str_le (opt_text (name x)) (opt_text (name y))) l' /\
  forall s, filter (fun x => str_eqb (opt_text (name x)) s) l' = filter (fun x => str_eqb (opt_text (name x)) s) l.

(** [moved names names' a a']: references go to the types of the same name. *)
Inductive moved (names names' : list (option str)) : delem -> delem -> Prop :=
| mv_prim n c lo hi k : moved names names' (DPrim n c lo hi k) (DPrim n c lo hi k)
| mv_ref n i j nm : nth_error names i = Some nm -> nth_error names' j = Some nm ->
    moved names names' (DRef n (RInt (Z.of_nat i))) (DRef n (RInt (Z.of_nat j)))
| mv_rec n l l' : moveds names names' l l' -> moved names names' (DRec n l) (DRec n l')
with moveds (names names' : list (option str)) : list delem -> list delem -> Prop :=
| mvs_nil : moveds names names' [] []
| mvs_cons a a' l l' : moved names names' a a' -> moveds names names' l l' -> moveds names names' (a :: l) (a' :: l').

(** [sorted_def ports D D']: the types, and the ports if [ports], sorted by name. *)
Definition moved_port (D D' : ndef) (p p' : pdef) : Prop :=
  pd_name p' = pd_name p /\ pd_attr p' = pd_attr p /\
  (is_ref (pd_elem p) -> moved (type_names D) (type_names D') (pd_elem p) (pd_elem p')) /\
  (~ is_ref (pd_elem p) -> pd_elem p' = pd_elem p).
Record sorted_def (ports : bool) (D D' : ndef) : Prop := {
  sd_name : df_name D' = df_name D;
  sd_types : exists ts, stably_sorted td_name (df_types D) ts /\
    Forall2 (fun t t' => td_name t' = td_name t /\ td_attr t' = td_attr t /\
                         moved (type_names D) (type_names D') (td_elem t) (td_elem t')) ts (df_types D');
  sd_provide : exists ps, (if ports then stably_sorted pd_name (df_provide D) ps else ps = df_provide D) /\
    Forall2 (moved_port D D') ps (df_provide D');
  sd_require : exists ps, (if ports then stably_sorted pd_name (df_require D) ps else ps = df_require D) /\
    Forall2 (moved_port D D') ps (df_require D')
}.
