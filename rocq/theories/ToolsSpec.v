(** What the command line tools are to do, in terms of definitions. *)
From Verif Require Import Py TypesModel TextModel SigModel AttrModel NodeModel ParserModel NodeDataModel FilesModel ToolsModel.
From Verif Require Import SigSpec NodeSpec MergeSpec FilesSpec.

(** What a tool with these arguments is given: the text on the standard input, or its
    first file. *)
Definition given (a : args) (stdin : str) (d : disk) (D : ndef) : Prop :=
  if a_pipe a then read_as (put_file (fun _ => None) [] stdin) [] D
  else exists p rest, a_inputs a = p :: rest /\ read_as d p D.

(** The file that a tool with these arguments writes to: the one that it is told, or
    its first file. *)
Inductive goes_to (a : args) : str -> Prop :=
| go_told p : a_output a = Some p -> goes_to a p
| go_input p rest : a_output a = None -> a_inputs a = p :: rest -> goes_to a p.

(** The names in a list at their first places, without those that were seen. *)
Fixpoint firsts (seen l : list (option str)) : list (option str) :=
  match l with
  | [] => []
  | n :: r => if existsb (opt_eqb n) seen then firsts seen r else n :: firsts (n :: seen) r
  end.
Definition names_of (pr : bool) (D : ndef) : list (option str) := map pd_name (ports pr D).

(** [join_of Ds D]: the ports of all the definitions, each name once, in order, and
    nothing else. *)
Record join_of (Ds : list ndef) (D : ndef) : Prop := {
  jn_names : forall pr, names_of pr D = firsts [] (flat_map (names_of pr) Ds);
  jn_once : NoDup (port_names D);
  jn_all : forall Di pr p, In Di Ds -> In p (ports pr Di) -> exists q, In q (ports pr D) /\ moved_port Di D p q;
  jn_from : forall pr q, In q (ports pr D) -> exists Di p, In Di Ds /\ In p (ports pr Di) /\ moved_port Di D p q;
  jn_types : forall t, In t (df_types D) -> exists Di pr p i t2, In Di Ds /\ In p (ports pr Di) /\ needs Di (pd_elem p) i /\
    nth_error (df_types Di) i = Some t2 /\ same_type Di D t2 t
}.

(** [part_of D pick D']: [D'] has the ports [pick pr] of [D], in this order, and types of [D]. *)
Record part_of (D : ndef) (pick : bool -> list pdef) (D' : ndef) : Prop := {
  pf_ports : forall pr, Forall2 (moved_port D D') (pick pr) (ports pr D');
  pf_types : forall t, In t (df_types D') -> exists pr p i t2, In p (pick pr) /\ needs D (pd_elem p) i /\ nth_error (df_types D) i = Some t2 /\ same_type D D' t2 t
}.
(** The ports with the names asked for, in the order of the names, and the others. *)
Definition asked (D : ndef) (names : list str) (pr : bool) (ps : list pdef) : Prop :=
  (forall p, In p ps -> In p (ports pr D)) /\
  map pd_name ps = filter (fun n => existsb (opt_eqb n) (names_of pr D)) (firsts [] (map Some names)).
Definition others (D : ndef) (names : list str) (pr : bool) : list pdef :=
  filter (fun p => negb (existsb (opt_eqb (pd_name p)) (map Some names))) (ports pr D).

(** The node name that comes with the name of a file. *)
Definition directory (p : str) : Prop := p = [] \/ exists q, p = q ++ [47].
Inductive named_by : str -> str -> Prop :=
| nb_apx pre n : directory pre -> ~ In 47 n -> (exists c, In c n /\ c <> 46) -> named_by (pre ++ n ++ lit ".apx") n
| nb_other pre n : directory pre -> ~ In 47 n -> (forall a b, n <> a ++ lit ".apx" ++ b) -> named_by (pre ++ n) n.
Definition node_name (file : option str) (default n : str) : Prop :=
  match file with Some p => named_by p n | None => n = default end.

(** A line with a name: blanks around it and a comment after it do not count. *)
Definition blank (s : str) : Prop := forall c, In c s -> is_space c = true.
Definition comment (s : str) : Prop := s = [] \/ exists r, s = 35 :: r.
Definition line_names (l s : str) : Prop :=
  exists a b c, l = a ++ s ++ b ++ c /\ blank a /\ blank b /\ comment c /\ ~ In 35 s /\
    (exists x y, s = x :: y /\ is_space x = false) /\ (exists x y, s = x ++ [y] /\ is_space y = false).
(** The names in a file, line by line. *)
Inductive lines_name : list str -> list str -> Prop :=
| ln_nil : lines_name [] []
| ln_name l s ls names : line_names l s -> lines_name ls names -> lines_name (l :: ls) (s :: names)
| ln_none l b c ls names : l = b ++ c -> blank b -> comment c -> lines_name ls names -> lines_name (l :: ls) names.
(** The names that the arguments ask for. *)
Definition wanted (a : split_args) (d : disk) (names : list str) : Prop :=
  match s_file a with
  | Some f => exists text ls, d f = Some text /\ file_lines text ls /\ lines_name ls names
  | None => names = s_names a /\ names <> []
  end.

(** [takes ts k e n]: an element takes [n] bytes; [k] bounds the depth. *)
Definition width (c : tcode) : Z :=
  match c with CU8 | CS8 | CSTR => 1 | CU16 | CS16 => 2 | CU32 | CS32 => 4 | CU64 | CS64 => 8 end.
Definition total (l : list Z) : Z := fold_right Z.add 0 l.
Inductive takes (ts : list tdef) : nat -> delem -> Z -> Prop :=
| tk_one k nm c lo hi : takes ts (S k) (DPrim nm c lo hi None) (width c)
| tk_many k nm c lo hi a : takes ts (S k) (DPrim nm c lo hi (Some a)) (width c * a)
| tk_ref k nm i t n : nth_error ts i = Some t -> takes ts k (td_elem t) n ->
    takes ts (S k) (DRef nm (RInt (Z.of_nat i))) n
| tk_rec k nm es ns : takes_all ts k es ns -> takes ts (S k) (DRec nm es) (total ns)
with takes_all (ts : list tdef) : nat -> list delem -> list Z -> Prop :=
| tks_nil k : takes_all ts k [] []
| tks_cons k e es n ns : takes ts k e n -> takes_all ts k es ns -> takes_all ts k (e :: es) (n :: ns).

(** [port_takes D k p n]: a port refers to a type, or declares its own, without
    references. *)
Definition port_takes (D : ndef) (k : nat) (p : pdef) (n : Z) : Prop :=
  is_ref (pd_elem p) /\ takes (df_types D) k (pd_elem p) n \/ ~ is_ref (pd_elem p) /\ takes [] k (pd_elem p) n.
