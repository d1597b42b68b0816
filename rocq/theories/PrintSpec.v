(** The text of a definition. *)
From Verif Require Import Py TypesModel TextModel AttrModel NodeSpec.

(** Decimal numbers without leading zeros. *)
Inductive plain_number : Z -> str -> Prop :=
| pn_digit d : 0 <= d < 10 -> plain_number d [48 + d]
| pn_more n d s : 0 < n -> 0 <= d < 10 -> plain_number n s -> plain_number (10 * n + d) (s ++ [48 + d]).
Inductive number_text : Z -> str -> Prop :=
| nt_plain z s : plain_number z s -> number_text z s
| nt_minus z s : 0 < z -> plain_number z s -> number_text (- z) (45 :: s).

Definition letter_of (c : tcode) : str :=
  match c with
  | CU8 => lit "C" | CU16 => lit "S" | CU32 => lit "L" | CU64 => lit "U"
  | CS8 => lit "c" | CS16 => lit "s" | CS32 => lit "l" | CS64 => lit "u" | CSTR => lit "a"
  end.
Definition shown (n : option str) : str := match n with Some s => s | None => lit "None" end.
Definition quoted (s : str) : str := [34] ++ s ++ [34].

Inductive limits_text : option Z -> option Z -> str -> Prop :=
| lt_both a b s t : number_text a s -> number_text b t -> limits_text (Some a) (Some b) (lit "(" ++ s ++ lit "," ++ t ++ lit ")")
| lt_none lo hi : lo = None \/ hi = None -> limits_text lo hi [].
Inductive length_text : option Z -> str -> Prop :=
| gt_some n s : number_text n s -> length_text (Some n) (lit "[" ++ s ++ lit "]")
| gt_none : length_text None [].

(** How a reference to the type at a position is written: by number, by name, or not
    at all.  A reference that is a name already stays one. *)
Inductive style := Numbers | Names | AsIs.
Inductive ref_text (names : list (option str)) : style -> tref -> str -> Prop :=
| rt_number i s : (i < length names)%nat -> number_text (Z.of_nat i) s -> ref_text names Numbers (RInt (Z.of_nat i)) s
| rt_name i n : nth_error names i = Some n -> ref_text names Names (RInt (Z.of_nat i)) (quoted (shown n))
| rt_kept st x : ref_text names st (RName x) (quoted x).

Inductive elem_text (names : list (option str)) (st : style) : delem -> str -> Prop :=
| et_prim nm c lo hi n l a : limits_text lo hi l -> length_text n a ->
    elem_text names st (DPrim nm c lo hi n) (letter_of c ++ l ++ a)
| et_ref nm r s : ref_text names st r s -> elem_text names st (DRef nm r) (lit "T[" ++ s ++ lit "]")
| et_rec nm es s : members_text names st es s -> elem_text names st (DRec nm es) (lit "{" ++ s ++ lit "}")
with members_text (names : list (option str)) (st : style) : list delem -> str -> Prop :=
| mt_nil : members_text names st [] []
| mt_cons e es s t : elem_text names st e s -> members_text names st es t ->
    members_text names st (e :: es) (quoted (shown (de_name e)) ++ s ++ t).

Definition attr_text (a : option str) : str := match a with Some s => lit ":" ++ s | None => [] end.
Inductive type_line (names : list (option str)) (st : style) (t : tdef) : str -> Prop :=
| tl_line s : elem_text names st (td_elem t) s ->
    type_line names st t (lit "T" ++ quoted (shown (td_name t)) ++ s ++ attr_text (td_attr t)).
(** What a port declares itself is written as it is. *)
Inductive port_line (names : list (option str)) (st : style) (letter : str) (p : pdef) : str -> Prop :=
| pl_line s : (is_ref (pd_elem p) -> elem_text names st (pd_elem p) s) ->
    (~ is_ref (pd_elem p) -> elem_text names AsIs (pd_elem p) s) ->
    port_line names st letter p (letter ++ quoted (shown (pd_name p)) ++ s ++ attr_text (option_map pa_str (pd_attr p))).

(** The lines of a definition: name, types, provide ports, require ports; [st] for
    the types, [sp] for the ports. *)
Inductive def_lines (st sp : style) (D : ndef) : list str -> Prop :=
| dl_lines ts ps rs :
    Forall2 (type_line (type_names D) st) (df_types D) ts ->
    Forall2 (port_line (type_names D) sp (lit "P")) (df_provide D) ps ->
    Forall2 (port_line (type_names D) sp (lit "R")) (df_require D) rs ->
    def_lines st sp D ((lit "N" ++ quoted (shown (df_name D))) :: ts ++ ps ++ rs).
Definition text_lines (ls : list str) : str := concat (map (fun l => l ++ [10]) (lit "APX/1.2" :: ls)).
