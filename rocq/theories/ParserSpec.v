(** What the lines of a definition text say. *)
From Verif Require Import Py TypesModel TextModel SigModel AttrModel NodeModel ParserModel SigSpec NodeSpec.

(** A line is its body, blanks and perhaps a comment. *)
Definition blank_char (c : Z) : Prop := c = 32 \/ c = 13 \/ c = 10.
Definition body_text (b : str) : Prop :=
  ~ In 35 b /\ (forall p c, b = p ++ [c] -> ~ blank_char c).
Definition trailing (t : str) : Prop :=
  exists blanks comment, t = blanks ++ comment /\ Forall blank_char blanks /\
    (comment = [] \/ exists c, comment = 35 :: c /\ ~ In 10 c).

(** [same_lines l l']: the same bodies, apart from empty ones. *)
Inductive same_lines : list str -> list str -> Prop :=
| sl_nil : same_lines [] []
| sl_left t l l' : trailing t -> same_lines l l' -> same_lines (t :: l) l'
| sl_right t l l' : trailing t -> same_lines l l' -> same_lines l (t :: l')
| sl_both b t t' l l' : body_text b -> trailing t -> trailing t' -> same_lines l l' ->
    same_lines ((b ++ t) :: l) ((b ++ t') :: l').

(** Text of a declaration: a letter, a quoted name and perhaps a signature and an
    attribute. *)
Definition decl_text (letter : Z) (name sig : str) (attr : option str) : str :=
  letter :: QUOTE :: name ++ QUOTE :: sig ++ match attr with Some a => 58 :: a | None => [] end.

(** [name_part s n rest]: [s] begins with the quoted name [n]; without a closing quote
    the rest of the line is lost. *)
Inductive name_part : str -> option str -> str -> Prop :=
| np_name n rest : quoteless n -> name_part (QUOTE :: n ++ QUOTE :: rest) (Some n) rest
| np_open m : quoteless m -> name_part (QUOTE :: m) None []
| np_empty : name_part [] None []
| np_none c r : c <> QUOTE -> name_part (c :: r) None (c :: r).
Inductive rest_part : str -> list (option str) -> Prop :=
| rp_nothing : rest_part [] []
| rp_sig s : s <> [] -> ~ In 58 s -> rest_part s [Some s; None]
| rp_attr s a : ~ In 58 s -> rest_part (s ++ 58 :: a) [Some s; Some a].
Definition line_letter (c : Z) : Prop := c = 43 \/ c = 45 \/ 65 <= c <= 90.

(** [line_says line parts]: the parts of a line; a line of other shape has no kind. *)
Inductive line_says : str -> option (list (option str)) -> Prop :=
| ly_blank t : trailing t -> line_says t None
| ly_other c r t : body_text (c :: r) -> trailing t -> ~ line_letter c ->
    line_says ((c :: r) ++ t) (Some [None; Some (c :: r)])
| ly_parts k more t n rest ps : k <> [] -> Forall line_letter k -> (forall c r, more = c :: r -> ~ line_letter c) ->
    body_text (k ++ more) -> trailing t -> name_part more n rest -> rest_part rest ps ->
    line_says ((k ++ more) ++ t) (Some (Some k :: n :: ps)).

(** [reads_line s line s']: a line that is accepted, and what it does; the state is the
    section and the definition so far. *)
Inductive reads_line : section * option ndef -> str -> section * option ndef -> Prop :=
| rd_blank cs D line : line_says line None -> reads_line (cs, D) line (cs, D)
| rd_node D line n more : line_says line (Some (Some [78] :: n :: more)) ->
    reads_line (START, D) line (NODE, Some (mk_ndef n [] [] []))
| rd_type cs D line n s attr D' : cs = NODE \/ cs = TYPE ->
    line_says line (Some [Some [84]; n; Some s; attr]) -> declares_type D n s attr D' ->
    reads_line (cs, Some D) line (TYPE, Some D')
| rd_provide cs D line n s attr D' : cs <> START ->
    line_says line (Some [Some [80]; n; Some s; attr]) -> declares_port true D n s attr D' ->
    reads_line (cs, Some D) line (PROVIDE, Some D')
| rd_require cs D line n s attr D' : cs <> START ->
    line_says line (Some [Some [82]; n; Some s; attr]) -> declares_port false D n s attr D' ->
    reads_line (cs, Some D) line (REQUIRE, Some D')
(* between provide ports and require ports anything else is passed over *)
| rd_dropped D line k n more : line_says line (Some (k :: n :: more)) -> k <> Some [80] -> k <> Some [82] ->
    reads_line (PROVIDE, D) line (PROVIDE, D).
Inductive reads_lines : section * option ndef -> list str -> section * option ndef -> Prop :=
| ra_nil s : reads_lines s [] s
| ra_cons s line s1 l s2 : reads_line s line s1 -> reads_lines s1 l s2 -> reads_lines s (line :: l) s2.

(** The lines of a text behind its header; a text without header is all lines. *)
Definition is_header (s : str) : Prop :=
  exists a b more, s = lit "APX/" ++ [a; 46; b] ++ more /\ 48 <= a <= 57 /\ 48 <= b <= 57.
Definition version12 (s : str) : Prop := exists more, s = lit "APX/1.2" ++ more.

(** Definitions whose text can be read back. *)
Definition tidy_attr (attr : option str) : Prop :=
  match attr with
  | Some a => ~ In 35 a /\ ~ In 10 a /\ (forall p c, a = p ++ [c] -> ~ blank_char c)
  | None => True
  end.
Record writable_def (D : ndef) : Prop := {
  wd_name : name_is plain_name (df_name D);
  wd_types : forall t, In t (df_types D) ->
    name_is (fun s => clean_name s /\ bracketed s) (td_name t) /\ tidy false (td_elem t) /\ tidy_attr (td_attr t);
  wd_ports : forall p, In p (df_provide D ++ df_require D) ->
    name_is plain_name (pd_name p) /\ tidy_attr (option_map pa_str (pd_attr p)) /\
    (is_ref (pd_elem p) -> tidy false (pd_elem p)) /\ (~ is_ref (pd_elem p) -> tidy true (pd_elem p))
}.

(** [text_body text body]: the lines of a text without its header line. *)
Definition text_body (text : str) (body : list str) : Prop :=
  exists first rest, text = join [NEWLINE] (first :: rest) /\ Forall (fun l => ~ In NEWLINE l) (first :: rest) /\
    ((version12 first /\ body = rest) \/ (~ is_header first /\ body = first :: rest)).

(** [names_said k body names]: the lines of kind [k] declare these names, in this order. *)
Inductive names_said (k : str) : list str -> list (option str) -> Prop :=
| ns_nil : names_said k [] []
| ns_skip line l ns : (forall n more, ~ line_says line (Some (Some k :: n :: more))) -> names_said k l ns ->
    names_said k (line :: l) ns
| ns_take line n more l ns : line_says line (Some (Some k :: n :: more)) -> names_said k l ns ->
    names_said k (line :: l) (n :: ns).
