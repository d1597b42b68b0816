(** What definition files say. *)
From Verif Require Import Py TypesModel TextModel SigModel AttrModel NodeModel ParserModel FilesModel SigSpec NodeSpec ParserSpec MergeSpec.

(** [file_lines text l]: the lines of a file end with LF, CR LF or CR. *)
Definition plain_line (s : str) : Prop := ~ In 10 s /\ ~ In 13 s.
Inductive file_lines : str -> list str -> Prop :=
| fl_last s : plain_line s -> file_lines s [s]
| fl_lf s r l : plain_line s -> file_lines r l -> file_lines (s ++ [10] ++ r) (s :: l)
| fl_crlf s r l : plain_line s -> file_lines r l -> file_lines (s ++ [13; 10] ++ r) (s :: l)
| fl_cr s r l : plain_line s -> hd 0 r <> 10 -> file_lines r l -> file_lines (s ++ [13] ++ r) (s :: l).

(** [file_says old text D]: what a parser that holds [old] makes of the text; the
    first line is not looked at, apart from the version if it is a header. *)
Definition file_says (old : option ndef) (text : str) (D : ndef) : Prop :=
  exists first body cs, file_lines text (first :: body) /\ (is_header first -> version12 first) /\
    reads_lines (START, old) body (cs, Some D).

(** [read_as d path D]: the file is accepted, whatever was read before, and stands
    for the definition. *)
Definition read_as (d : disk) (path : str) (D : ndef) : Prop :=
  forall W0, exists W nd, parse_file d W0 path = Ok (W, nd) /\ represents W nd D.

(** The words of a definition; those without carriage return can be written to a file
    and read again. *)
Fixpoint elem_words (e : delem) : list str :=
  match e with
  | DPrim _ _ _ _ _ => []
  | DRec _ es => (fix go l := match l with [] => [] | x :: r => opt_text (de_name x) :: elem_words x ++ go r end) es
  | DRef _ (RName s) => [s]
  | DRef _ _ => []
  end.
Definition type_words (t : tdef) : list str := opt_text (td_name t) :: opt_text (td_attr t) :: elem_words (td_elem t).
Definition port_words (p : pdef) : list str :=
  opt_text (pd_name p) :: opt_text (option_map pa_str (pd_attr p)) :: elem_words (pd_elem p).
Definition def_words (D : ndef) : list str :=
  opt_text (df_name D) :: flat_map type_words (df_types D) ++ flat_map port_words (df_provide D ++ df_require D).
Definition crless (D : ndef) : Prop := forall w, In w (def_words D) -> ~ In 13 w.

(** Types in the order of their names refer only to types before them. *)
Definition ordered (D : ndef) : Prop := forall i t, nth_error (df_types D) i = Some t -> below i (td_elem t).
