(** What the types given to the old writer mean. *)
From Verif Require Import Py TypesModel TextModel TypesSpec SigSpec NodeSpec AutosarSpec WriterModel.

(** Integer ranges that get a code that holds them: from 0 on, or below it. *)
Definition signed_range (lo hi : Z) : Prop :=
  hi <> 0 /\
  ((Z.abs hi <= 128 /\ -128 <= lo /\ hi <= 127) \/
   (128 < Z.abs hi <= 32768 /\ -32768 <= lo /\ hi <= 32767) \/
   (32768 < Z.abs hi <= 2147483648 /\ -2147483648 <= lo /\ hi <= 2147483647) \/
   (2147483648 < Z.abs hi <= 9223372036854775808 /\ -9223372036854775808 <= lo /\ hi <= 9223372036854775807)).
Definition good_range (lo hi : Z) : Prop := lo <= hi /\ (lo = 0 /\ unsigned_ok hi \/ lo < 0 /\ signed_range lo hi).

Section types.
Variable types : str -> option wdict.

(** [means d e]: the data element [e] is for values of the type [d]. *)
Inductive means : wdict -> delem -> Prop :=
| me_bool d : wt_kind d = Some WBool -> means d (DPrim None CU8 (Some 0) (Some 1) None)
| me_int d lo hi e : wt_kind d = Some (WInt lo hi) -> holds_range lo hi e -> means d e
| me_array d ref n d' lo hi c l h : wt_kind d = Some (WArray ref n) -> types ref = Some d' ->
    wt_kind d' = Some (WInt lo hi) -> holds_range lo hi (DPrim None c l h None) ->
    means d (DPrim None c l h (Some n))
(* one byte more, for the end *)
| me_string d n : wt_kind d = Some (WString n) -> means d (DPrim None CSTR None None (Some (n + 1)))
| me_record d ms es : wt_kind d = Some (WRecord ms) -> means_members ms es -> means d (DRec None es)
with means_members : list (str * str) -> list delem -> Prop :=
| mm_nil : means_members [] []
| mm_cons name ref d e ms es : types ref = Some d -> means d e -> means_members ms es ->
    means_members ((name, ref) :: ms) (with_name name e :: es).

(** Types the writer has a text for; [depth] bounds the nesting of records. *)
Inductive fine : nat -> wdict -> Prop :=
| fn_bool k d : wt_kind d = Some WBool -> fine (S k) d
| fn_int k d lo hi : wt_kind d = Some (WInt lo hi) -> good_range lo hi -> fine (S k) d
| fn_array k d ref n d' lo hi : wt_kind d = Some (WArray ref n) -> 0 <= n -> types ref = Some d' ->
    wt_kind d' = Some (WInt lo hi) -> good_range lo hi -> fine (S k) d
| fn_string k d n : wt_kind d = Some (WString n) -> 0 <= n -> fine (S k) d
| fn_record k d ms : wt_kind d = Some (WRecord ms) -> fine_members k ms -> fine (S k) d
with fine_members : nat -> list (str * str) -> Prop :=
| fm_nil k : fine_members k []
| fm_cons k name ref d ms : clean_name name -> types ref = Some d -> fine k d -> fine_members k ms ->
    fine_members k ((name, ref) :: ms).

(** Its value table: only integers have one, under their own name. *)
Definition table_of (d : wdict) : option (list str) :=
  match wt_kind d, types (lit "/DataType/Semantics/" ++ wt_name d) with
  | Some (WInt _ _), Some s => wt_table s
  | _, _ => None
  end.
End types.

Scheme fine_mind := Induction for fine Sort Prop
  with fine_members_mind := Induction for fine_members Sort Prop.

(** Texts of a value table that stay on their line. *)
Definition line_text (s : str) : Prop := table_text s /\ plain_name s.
