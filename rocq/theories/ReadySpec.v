(** Which node definitions can be turned into port data. *)
From Verif Require Import Py TypesModel TextModel SigModel AttrModel NodeModel CompilerModel VmModel VmProps
  TypesSpec SigSpec NodeSpec FilesSpec NodeDataModel NodeDataSpec.

(** [typed ts a t]: the type of an element whose references are positions in [ts]:
    what the compiler supports (no 64 bit integers, no single characters, member
    names of characters up to 255, references only to numbers and records). *)
Inductive typed (ts : list tdef) : delem -> ty -> Prop :=
| ty_int nm c lo hi k : kind_of c = Some k -> small k -> typed ts (DPrim nm c lo hi None) (TInt k)
| ty_arr nm c lo hi k n : kind_of c = Some k -> small k -> typed ts (DPrim nm c lo hi (Some n)) (TArr k n)
| ty_str nm lo hi n : typed ts (DPrim nm CSTR lo hi (Some n)) (TStr n)
| ty_rec nm l ms : typeds ts l ms -> typed ts (DRec nm l) (TRec ms)
| ty_ref nm i d t : nth_error ts i = Some d -> target (td_elem d) -> typed ts (td_elem d) t ->
    typed ts (DRef nm (RInt (Z.of_nat i))) t
with typeds (ts : list tdef) : list delem -> list (str * ty) -> Prop :=
| tys_nil : typeds ts [] []
| tys_cons a l nm t ms : de_name a = Some nm -> bytes_ok nm -> typed ts a t -> typeds ts l ms ->
    typeds ts (a :: l) ((nm, t) :: ms).

(** [leads ts a b]: following the references from [a] gives [b]. *)
Inductive leads (ts : list tdef) : delem -> delem -> Prop :=
| ld_here a : ~ is_ref a -> leads ts a a
| ld_ref nm i d b : nth_error ts i = Some d -> leads ts (td_elem d) b ->
    leads ts (DRef nm (RInt (Z.of_nat i))) b.

(** All references are names.  (A port that declares its record itself keeps the
    references as written, and then a number cannot be written out.) *)
Inductive by_names : delem -> Prop :=
| bn_prim nm c lo hi n : by_names (DPrim nm c lo hi n)
| bn_ref nm s : by_names (DRef nm (RName s))
| bn_rec nm es : Forall by_names es -> by_names (DRec nm es).

Inductive port_typed (D : ndef) (p : pdef) (t : ty) : Prop :=
| py_ref b : is_ref (pd_elem p) -> leads (df_types D) (pd_elem p) b -> typed (df_types D) b t ->
    port_typed D p t
| py_own a : ~ is_ref (pd_elem p) -> by_names (pd_elem p) -> refers (type_names D) (pd_elem p) a ->
    typed (df_types D) a t -> port_typed D p t.

Definition initial (p : pdef) : ivalue :=
  match pd_attr p with Some a => pa_init a | None => IVNone end.
Definition ascii (s : str) : Prop := Forall (fun c => 0 <= c < 128) s.

(** A node with a name and ASCII words, whose ports have these types and init
    values of the right shape. *)
Record supported (D : ndef) (ins outs : list ty) : Prop := {
  sp_name : df_name D <> None;
  sp_words : forall w, In w (def_words D) -> ascii w;
  sp_ins : Forall2 (port_typed D) (df_require D) ins;
  sp_outs : Forall2 (port_typed D) (df_provide D) outs;
  sp_rins : Forall regular ins;
  sp_routs : Forall regular outs;
  sp_iins : Forall2 (fun p t => first_bytes t (initial p) <> None) (df_require D) ins;
  sp_iouts : Forall2 (fun p t => first_bytes t (initial p) <> None) (df_provide D) outs
}.
