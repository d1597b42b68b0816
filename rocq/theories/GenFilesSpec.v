(** Specification of the generated C files: what a compiler and a linker see. *)
From Verif Require Import Py TypesModel TextModel SigModel NodeModel NodeDataModel GenModel GenFilesModel.

(** The functions a source file defines: the lines before an opening brace in the first
    column. *)
Fixpoint defined (l : list str) : list str :=
  match l with
  | x :: (y :: _) as r => if str_eqb y [123] then x :: defined r else defined r
  | _ => []
  end.
(** The functions a header declares: the lines that end with a semicolon. *)
Definition declared (l : list str) : list str :=
  flat_map (fun x => match rev x with 59 :: r => [rev r] | _ => [] end) l.

(** The calls in the switch. *)
Definition calls (parts : list cbpart) : list cbcall :=
  flat_map (fun x => match x with PCase _ _ (Some k) => [k] | _ => [] end) parts.

(** A call [Read(&data.port)] or [Read(&data.port[0])] followed by [f(data.port)],
    [f(&data.port)] or [f(&data.port[0])] is well typed: the union has one such member, an
    array exactly if there is an index, the Read function takes a pointer to its type,
    and the callback takes the type, or a pointer to it exactly if there is a [&].  An
    array element is never handed over by value here. *)
Definition well_typed (vars : list (str * option str * option Z)) (reads : list cfun) (k : cbcall) (f : cproto) : Prop :=
  exists t n, filter (fun v => str_eqb (fst (fst v)) (cl_port k)) vars = [(cl_port k, t, n)] /\
    (cl_array k = true <-> n <> None) /\ (cl_array k = true -> cl_ref k = true) /\
    (exists r, filter (fun r => str_eqb (cf_name r) (cl_read k)) reads = [r] /\ cf_type r = t /\ cf_pointer r = true) /\
    cp_ret f = lit "void" /\ cp_star f = false /\ cp_name f = cl_func k /\ cp_params f = [(t, cl_ref k, lit "value")].

(** What has happened to a generator object so far: any number of calls of [generate],
    which succeeded or not.  [ok] restricts the callbacks they were given. *)
Inductive used (ok : option (list (str * option str)) -> Prop) : gstate -> Prop :=
| used_new : used ok new_gen
| used_again st version fuel sfx W nd name includes callbacks direct synced st' r :
    used ok st -> ok callbacks ->
    generate_files version fuel st sfx W nd name includes callbacks direct synced = (st', r) -> used ok st'.

(** Some require port takes up room in the data. *)
Definition has_input (fuel : nat) (W : world) (nd : node) : Prop :=
  Exists (fun o => exists n, packLen fuel (w_types W) (pt_elem (w_ports W o)) = Ok n /\ 0 < n) (n_require nd).

(** The name in the first line of a C function: what stands before the parenthesis,
    from the last blank or star on. *)
Fixpoint upto (c : Z) (s : str) : str := match s with [] => [] | x :: r => if x =? c then [] else x :: upto c r end.
Fixpoint last_word (acc s : str) : str :=
  match s with [] => rev acc | x :: r => if (x =? 32) || (x =? 42) then last_word [] r else last_word (x :: acc) r end.
Definition function_name (l : str) : str := last_word [] (upto 40 l).
(** No blank, star or parenthesis. *)
Definition one_word (s : str) : Prop := Forall (fun c => c <> 32 /\ c <> 40 /\ c <> 42) s.
