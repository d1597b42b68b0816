(** What is left of a call that raised, apart from the model. *)
From Verif Require Import Py TypesModel TextModel SigModel AttrModel NodeModel SigSpec NodeSpec ParserSpec MergeSpec.

(** [bound types names e e']: [e'] is [e] where some references have become the
    objects they name; [names] are the names of [types]. *)
Inductive bound (types : list nat) (names : list (option str)) : delem -> delem -> Prop :=
| bd_same e : bound types names e e
| bd_index n i o : nth_error types i = Some o -> bound types names (DRef n (RInt (Z.of_nat i))) (DRef n (RObj o))
| bd_back n i o : nth_error types i = Some o ->
    bound types names (DRef n (RInt (Z.of_nat i - len types))) (DRef n (RObj o))
| bd_name n s i o : nth_error types i = Some o -> nth_error names i = Some (Some s) ->
    bound types names (DRef n (RName s)) (DRef n (RObj o))
| bd_rec n es es' : bounds types names es es' -> bound types names (DRec n es) (DRec n es')
with bounds (types : list nat) (names : list (option str)) : list delem -> list delem -> Prop :=
| bds_nil : bounds types names [] []
| bds_cons e e' es es' : bound types names e e' -> bounds types names es es' ->
    bounds types names (e :: es) (e' :: es').

(** Only type object [o], or port object [o], is another than before. *)
Definition only_type (o : nat) (W W' : world) : Prop :=
  w_ntypes W' = w_ntypes W /\ w_nports W' = w_nports W /\
  (forall x, x <> o -> w_types W' x = w_types W x) /\ (forall x, w_ports W' x = w_ports W x).
Definition only_port (o : nat) (W W' : world) : Prop :=
  w_ntypes W' = w_ntypes W /\ w_nports W' = w_nports W /\
  (forall x, w_types W' x = w_types W x) /\ (forall x, x <> o -> w_ports W' x = w_ports W x).

(** Positions count from the front. *)
Inductive forward : delem -> Prop :=
| fw_prim n c lo hi k : forward (DPrim n c lo hi k)
| fw_int n i : 0 <= i -> forward (DRef n (RInt i))
| fw_name n s : forward (DRef n (RName s))
| fw_rec n es : Forall forward es -> forward (DRec n es).

(** [joined D D2 done p D']: [D'] is [D] with those of the ports [done] of [D2] that it
    did not have, and with types of [D2] that these ports or [p] need. *)
Record joined (D D2 : ndef) (done : list (bool * pdef)) (last : bool * pdef) (D' : ndef) : Prop := {
  jn_name : df_name D' = df_name D;
  jn_types : exists ts, df_types D' = df_types D ++ ts /\
    forall t, In t ts -> exists p i t2, In p (done ++ [last]) /\ needs D2 (pd_elem (snd p)) i /\
      nth_error (df_types D2) i = Some t2 /\ same_type D2 D' t2 t;
  jn_ports : exists new : bool -> list pdef, (forall pr, ports pr D' = ports pr D ++ new pr) /\
    NoDup (map pd_name (new true ++ new false)) /\
    forall pr q, In q (new pr) -> ~ In (pd_name q) (port_names D) /\
      exists p, In (pr, p) done /\ moved_port D2 D' p q /\ type_agrees D2 D' p;
  jn_all : forall pr p, In (pr, p) done -> exists q, In q (ports pr D') /\ moved_port D2 D' p q
}.
(** The ports of a definition in the order in which [extend] takes them. *)
Definition in_turn (D : ndef) : list (bool * pdef) :=
  map (pair false) (df_require D) ++ map (pair true) (df_provide D).

(** [accepts D l D']: lines given one after the other; those that declare no port of
    the definition so far are refused. *)
Definition port_line (line : str) (D : ndef) (D' : ndef) : Prop :=
  exists (pr : bool) n s attr, line_says line (Some [Some [if pr then 80 else 82]; n; Some s; attr]) /\ declares_port pr D n s attr D'.
Inductive accepts : ndef -> list (str * bool) -> ndef -> Prop :=
| ac_nil D : accepts D [] D
| ac_taken D line D1 l D2 : port_line line D D1 -> accepts D1 l D2 -> accepts D ((line, true) :: l) D2
| ac_refused D line l D2 : (forall D1, ~ port_line line D D1) -> accepts D l D2 -> accepts D ((line, false) :: l) D2.
