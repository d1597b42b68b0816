(** Lemmas about a used generator. *)
From Coq Require Import ZifyBool ZifyNat Lia Permutation.
From Verif Require Import Py PyLemmas TypesModel CompilerModel VmModel TypesSpec TypesProofs
  TextModel TextProofs SigModel AttrModel NodeModel RmfModel FileModel NodeDataModel NodeDataProofs
  GenModel GenSpec GenProofs3 GenProofs4 GenProofs5 GenTexts GenProps GenFilesModel GenFilesSpec GenFilesProofs GenFilesProps GenReuseSpec.
Ltac Zify.zify_post_hook ::= Z.div_mod_to_equations.

(** ** Lines that are not the first of the union *)

Definition other (x : str) : Prop := str_eqb x union_line = false.
Lemma other_iff x : other x <-> x <> union_line.
Proof. unfold other. destruct (str_eqb x union_line) eqn:E; [apply str_eqb_eq in E|]; split; intros H; try congruence. intros ->. rewrite (proj2 (str_eqb_eq _ _) eq_refl) in E. discriminate. Qed.
Lemma other_stmt n s : other (stmt n s).
Proof.
  apply other_iff. unfold stmt, line. rewrite app_assoc. intros E. apply (f_equal (fun l => last l 0)) in E.
  change (lit ";") with [59] in E. rewrite last_last in E. discriminate.
Qed.
Lemma other_code buf : forall s n, (3 <= n)%nat -> Forall other (stmt_lines buf n s).
Proof.
  assert (forall n x, (3 <= n)%nat -> hd_error x <> Some 117 -> other (line n x)) as L.
  { intros n x N X. apply other_iff. unfold line. destruct n as [|[|[|n]]]; try lia. cbn [repeat app]. intros E. injection E as E.
    destruct n as [|n]; cbn [repeat app] in E; [|discriminate]. subst x. apply X. reflexivity. }
  fix IH 1. intros s n N. destruct s as [a e|e b a|a e b|e b a|a e k|e a k|a k| |b|k|k body]; cbn [stmt_lines]; try (constructor; [apply other_stmt|constructor]).
  rewrite !Forall_app. split; [repeat apply Forall_cons; try apply Forall_nil; apply L; auto; discriminate|].
  split; [|repeat apply Forall_cons; try apply Forall_nil; apply L; auto; discriminate].
  assert (forall l, (fix go (l : list cstmt) : Prop := match l with [] => True | x :: r => Forall other (stmt_lines buf (n + 3) x) /\ go r end) l) as G.
  { induction l as [|x l G]; cbn; [exact Logic.I|]. split; [exact (IH x (n + 3)%nat ltac:(lia))|exact G]. }
  specialize (G body). induction body as [|x l J]; cbn [flat_map]; [constructor|]. destruct G as [G1 G2]. rewrite Forall_app. split; [exact G1|apply J, G2].
Qed.
Lemma other_fstmt buf s : Forall other (fstmt_lines buf s).
Proof. destruct s; cbn [fstmt_lines]; try (constructor; [apply other_stmt|constructor]). apply other_code. lia. Qed.
Lemma other_flat {A} (f : A -> list str) l : (forall x, Forall other (f x)) -> Forall other (flat_map f l).
Proof. intros F. induction l as [|x l IH]; cbn [flat_map]; [constructor|]. rewrite Forall_app. auto. Qed.
Lemma other_fun buf f : Forall other (fun_lines buf f).
Proof.
  rewrite fun_lines_head. cbn [app]. apply Forall_cons; [reflexivity|]. apply Forall_cons; [reflexivity|]. apply Forall_app. split.
  - apply other_flat. intros s. apply other_fstmt.
  - repeat apply Forall_cons; try apply Forall_nil; reflexivity.
Qed.
Lemma other_defines l : Forall other (map define l).
Proof. apply Forall_forall. intros x I. apply in_map_iff in I as (m & <- & _). reflexivity. Qed.
Lemma other_numbers (l : list Z) t : l <> [] -> other (line 3 (join (lit ", ") (map dec_str l) ++ t)).
Proof.
  intros N. destruct l as [|z l]; [congruence|]. apply other_iff. cbn [map].
  destruct (dec_str_chars z) as [C D]. destruct (dec_str z) as [|c r] eqn:Z; [congruence|]. inversion C as [|? ? C1 _]; subst.
  intros E. unfold line in E. cbn [repeat app] in E. injection E as E. destruct (map dec_str l) as [|y ys]; cbn [join app] in E; injection E as E _; subst c; discriminate C1.
Qed.
Lemma other_data : forall n l, Forall other (data_lines n l).
Proof.
  induction n as [|n IH]; intros l; cbn [data_lines]; [constructor|]. destruct (Nat.ltb_spec 32 (length l)) as [L|L].
  - constructor; [apply other_numbers; destruct l; [cbn in L; lia|discriminate]|apply IH].
  - destruct l as [|z l]; [constructor|]. constructor; [|constructor]. rewrite <- (app_nil_r (join _ _)). apply other_numbers. discriminate.
Qed.
Lemma other_literal l : Forall other (end_last (map (fun s => [QUOTE] ++ s ++ [QUOTE]) l)).
Proof.
  induction l as [|x l IH]; [constructor|]. cbn [map]. destruct l as [|y l]; [repeat constructor|].
  cbn [map] in *. change (end_last (([QUOTE] ++ x ++ [QUOTE]) :: ([QUOTE] ++ y ++ [QUOTE]) :: map (fun s => [QUOTE] ++ s ++ [QUOTE]) l))
    with (([QUOTE] ++ x ++ [QUOTE]) :: end_last (([QUOTE] ++ y ++ [QUOTE]) :: map (fun s => [QUOTE] ++ s ++ [QUOTE]) l)). constructor; [reflexivity|exact IH].
Qed.
Lemma other_heading x : Forall other (heading x). Proof. unfold heading. repeat constructor. Qed.
Ltac others := repeat first
  [ apply Forall_nil | apply other_heading | apply other_literal | apply other_data | apply other_defines
  | apply Forall_cons; [first [apply other_stmt | reflexivity]|]
  | apply Forall_app; split
  | match goal with |- Forall other (if ?b then _ else _) => destruct b end
  | apply other_flat; intros; apply other_fun ].
Lemma other_front version c : Forall other (source_front version c).
Proof. unfold source_front. others. Qed.

(** ** Taking the union out *)

Lemma until_app stop a x r : Forall (fun y => str_eqb y stop = false) a -> x = stop -> until stop (a ++ x :: r) = (a, x :: r).
Proof.
  intros F ->. induction F as [|y a Y F IH]; cbn [app until]; [rewrite (proj2 (str_eqb_eq _ _) eq_refl); reflexivity|].
  rewrite Y, IH. reflexivity.
Qed.
Lemma union_parts pre ms post : Forall other pre -> Forall (fun y => str_eqb y close_line = false) ms ->
  members (pre ++ union_line :: [32;32;32;123] :: ms ++ close_line :: post) = ms /\
  outside (pre ++ union_line :: [32;32;32;123] :: ms ++ close_line :: post) = pre ++ union_line :: [32;32;32;123] :: close_line :: post.
Proof.
  intros P M. unfold members, outside. rewrite (until_app union_line pre union_line _ P eq_refl). cbn [fst snd skipn firstn].
  rewrite (until_app close_line ms close_line _ M eq_refl). split; reflexivity.
Qed.

Definition member_line (v : str * option str * option Z) : str :=
  stmt 6 (opt_text (snd (fst v)) ++ lit " " ++ fst (fst v) ++ match snd v with Some n => bracket n | None => [] end).
Lemma member_line_open v : str_eqb (member_line v) close_line = false.
Proof. reflexivity. Qed.

(** The file with the notification function [Switch guard parts vars]. *)
Lemma switch_split version c fn guard parts : exists pre post, Forall other pre /\ forall vars,
  source_front version c ++ notifier_text (Some fn) (Switch guard parts vars) ++ heading "LOCAL FUNCTIONS" =
  pre ++ union_line :: [32;32;32;123] :: map member_line vars ++ close_line :: post.
Proof.
  exists (source_front version c ++ [proto_text (notify_proto fn); [123]]).
  eexists. split.
  - apply Forall_app. split; [apply other_front|]. repeat apply Forall_cons; try apply Forall_nil; reflexivity.
  - intros vars. cbn [notifier_text notifier_lines tl app]. rewrite <- !app_assoc. cbn [app].
    reflexivity.
Qed.

(** ** The call *)

Definition fits (callbacks : option (list (str * option str))) (cbs : option (list callback)) : Prop := callbacks = None <-> cbs = None.
Lemma made_fits callbacks ins cbs : made_callbacks callbacks ins = Ok cbs -> fits callbacks cbs.
Proof.
  unfold made_callbacks, fits. destruct callbacks as [m|]; intros E; [|injection E as <-; tauto].
  apply bind_ok in E as (l & _ & E). injection E as <-. split; discriminate.
Qed.
Definition all_vars (st : gstate) (cbs : option (list callback)) : list (str * option str * option Z) := by_name (g_vars (grown st cbs)).

Lemma ok_same {A} (x y : A) : @Ok A x = Ok y -> x = y. Proof. congruence. Qed.
Lemma pair_ok {A B} (a b : A) (x y : B) : (a, Ok x) = (b, Ok y) -> a = b /\ x = y. Proof. intros E. split; congruence. Qed.
Lemma write_used version st sfx W nd nm callbacks cbs fs direct synced ins outs st' L :
  g_pending st = [] -> fits callbacks cbs -> 0 < sum_lens ins ->
  write_source version (ready st cbs fs nm ins) sfx W nd nm (given callbacks) direct synced ins outs = (st', Ok L) ->
  (g_vars st' = g_vars (grown st cbs) /\ g_funs st' = g_funs st ++ fs /\ g_pending st' = []) /\
  (forall m, callbacks = Some m -> members L = map member_line (all_vars st cbs)) /\
  forall s fs', g_pending s = [] -> exists s' L', write_source version (ready s cbs fs' nm ins) sfx W nd nm (given callbacks) direct synced ins outs = (s', Ok L') /\
    outside L = outside L' /\ (callbacks = None -> L = L').
Proof.
  intros P F I E. assert (forall s, g_pending s = [] -> g_pending (grown s cbs) = match cbs with Some l => l | None => [] end) as GP.
  { intros s Ps. destruct cbs as [l|]; cbn [grown g_pending]; rewrite Ps; reflexivity. }
  unfold write_source in *. cbn [ready g_pending g_vars g_notify g_funs] in *. rewrite (GP st P) in E.
  destruct (Z.ltb_spec 0 (sum_lens ins)) as [_|?]; [|lia].
  match type of E with match ?t with _ => _ end = _ => destruct t as [c|e] eqn:T end; [|discriminate]. apply pair_ok in E as [<- <-].
  cbn [g_vars g_funs g_pending]. split; [split; [reflexivity|]; split; [reflexivity|]|].
  { destruct callbacks as [m|]; [reflexivity|]. cbn [given]. rewrite (proj1 F eq_refl). reflexivity. }
  apply bind_ok in T as (text & Et & T). apply bind_ok in T as (oi & Eoi & T). apply bind_ok in T as (ii & Eii & T).
  apply bind_ok in T as (reads & Er & T). apply bind_ok in T as (writes & Ew & T). apply bind_ok in T as (nt & Ent & T). cbn zeta in T. apply ok_same in T as <-.
  cbn [c_notifier]. unfold make_notifier in Ent.
  destruct callbacks as [m|]; cbn [given] in *.
  - apply bind_ok in Ent as (ps & Eps & Ent). apply ok_same in Ent as <-. split.
    + intros _ _. match goal with |- members (source_front ?v ?c ++ notifier_text (Some ?fn) (Switch ?g ?p _) ++ _) = _ =>
        destruct (switch_split v c fn g p) as (pre & post & O & X) end.
      rewrite X. apply union_parts; [exact O|]. apply Forall_forall. intros y J. apply in_map_iff in J as (v & <- & _). apply member_line_open.
    + intros s fs' Ps. rewrite (GP s Ps), Et, Eoi, Eii, Er, Ew. cbn [bind]. unfold make_notifier. rewrite Eps. cbn [bind].
      eexists. eexists. split; [reflexivity|]. split; [|discriminate]. cbn [c_notifier].
      match goal with |- outside (source_front ?v ?c ++ notifier_text (Some ?fn) (Switch ?g ?p _) ++ _) = outside (source_front _ ?c' ++ _) =>
        change (source_front v c') with (source_front v c); destruct (switch_split v c fn g p) as (pre & post & O & X) end.
      rewrite !X.
      rewrite !(fun vs => proj2 (union_parts pre (map member_line vs) post O ltac:(apply Forall_forall; intros y J; apply in_map_iff in J as (v & <- & _); apply member_line_open))).
      reflexivity.
  - apply ok_same in Ent as <-. split; [discriminate|]. intros s fs' Ps. rewrite (GP s Ps), Et, Eoi, Eii, Er, Ew. cbn [bind make_notifier].
    eexists. eexists. split; [reflexivity|]. split; intros; reflexivity.
Qed.
