(** Lemmas about the generated C files. *)
From Coq Require Import ZifyBool ZifyNat Lia.
From Verif Require Import Py PyLemmas TypesModel CompilerModel VmModel TypesSpec TypesProofs
  TextModel SigModel AttrModel NodeModel RmfModel FileModel NodeDataModel NodeDataProofs
  GenModel GenSpec GenProofs3 GenProofs4 GenProofs5 GenFilesModel GenFilesSpec.
Ltac Zify.zify_post_hook ::= Z.div_mod_to_equations.

(** ** Lines *)

Definition calm (x : str) : Prop := hd_error x <> Some 123.
Lemma calm_brace x : calm x -> str_eqb x [123] = false.
Proof.
  intros C. destruct (str_eqb x [123]) eqn:E; [|reflexivity]. apply str_eqb_eq in E. subst x. exfalso. apply C. reflexivity.
Qed.
Lemma defined_cons x l : (forall y, hd_error l = Some y -> calm y) -> defined (x :: l) = defined l.
Proof. intros H. destruct l as [|y l]; [reflexivity|]. cbn [defined]. rewrite calm_brace; [reflexivity|apply H; reflexivity]. Qed.
Lemma head_calm (a b : list str) y : Forall calm a -> (forall x, hd_error b = Some x -> calm x) -> hd_error (a ++ b) = Some y -> calm y.
Proof. intros F H E. destruct a as [|z a]; [apply H; exact E|]. cbn [app hd_error] in E. injection E as <-. inversion F; assumption. Qed.
Lemma defined_calm : forall a b, Forall calm a -> (forall x, hd_error b = Some x -> calm x) -> defined (a ++ b) = defined b.
Proof.
  induction a as [|x a IH]; intros b F H; [reflexivity|]. inversion F as [|? ? C F']; subst. cbn [app].
  rewrite defined_cons; [auto|]. intros y. apply head_calm; auto.
Qed.
Lemma defined_block h body rest : Forall calm body -> (forall x, hd_error rest = Some x -> calm x) ->
  defined ((h :: [123] :: body) ++ rest) = h :: defined rest.
Proof.
  intros F H. cbn [app]. change (defined (h :: [123] :: body ++ rest)) with (h :: defined ([123] :: body ++ rest)). f_equal.
  rewrite defined_cons; [apply defined_calm; auto|]. intros y. apply head_calm; auto.
Qed.

Lemma calm_line n s : calm (line (S n) s).
Proof. unfold calm, line. cbn [repeat app hd_error]. discriminate. Qed.
Lemma calm_stmt n s : calm (stmt (S n) s). Proof. apply calm_line. Qed.
Lemma calm_map_stmt n l : Forall calm (map (stmt (S n)) l).
Proof. apply Forall_forall. intros x I. apply in_map_iff in I as (s & <- & _). apply calm_stmt. Qed.
Lemma calm_code buf : forall s n, Forall calm (stmt_lines buf (S n) s).
Proof.
  fix IH 1. intros s n. destruct s as [a e|e b a|a e b|e b a|a e k|e a k|a k| |b|k|k body]; cbn [stmt_lines]; try (constructor; [apply calm_stmt|constructor]).
  rewrite !Forall_app. split; [repeat constructor; apply calm_line|]. split; [|repeat constructor; apply calm_line].
  assert (forall l, (fix go (l : list cstmt) : Prop := match l with [] => True | x :: r => Forall calm (stmt_lines buf (S n + 3) x) /\ go r end) l) as G.
  { induction l as [|x l G]; cbn; [exact I|]. split; [exact (IH x (n + 3)%nat)|exact G]. }
  specialize (G body). induction body as [|x l J]; cbn [flat_map]; [constructor|]. destruct G as [G1 G2]. rewrite Forall_app. split; [exact G1|apply J, G2].
Qed.
Lemma calm_fstmt buf s : Forall calm (fstmt_lines buf s).
Proof. destruct s; cbn [fstmt_lines]; try (constructor; [apply calm_stmt|constructor]). apply calm_code. Qed.
Lemma calm_flat {A} (f : A -> list str) l : (forall x, Forall calm (f x)) -> Forall calm (flat_map f l).
Proof. intros F. induction l as [|x l IH]; cbn [flat_map]; [constructor|]. rewrite Forall_app. auto. Qed.
Lemma calm_part x : Forall calm (part_lines x).
Proof.
  destruct x as [l n [k|]|l]; cbn [part_lines]; rewrite ?Forall_app; repeat split; repeat constructor; try apply calm_line; try apply calm_stmt.
Qed.

Definition fun_head (f : cfun) : str := proto_text (mk_cproto (lit "Std_ReturnType") false (cf_name f) [(cf_type f, cf_pointer f, lit "val")]).
Lemma fun_head_calm f : calm (fun_head f).
Proof. unfold calm. discriminate. Qed.
Lemma fun_lines_head buf f : fun_lines buf f = (fun_head f :: [123] :: flat_map (fstmt_lines buf) (cf_body f)) ++ [stmt 3 (lit "return E_OK"); lit "}"; []].
Proof.
  unfold fun_lines, fun_head, proto_text. cbn [app cp_ret cp_star cp_name cp_params map join param_text].
  f_equal. rewrite <- !app_assoc. reflexivity.
Qed.
Lemma defined_funs buf fs rest : (forall x, hd_error rest = Some x -> calm x) ->
  defined (flat_map (fun_lines buf) fs ++ rest) = map fun_head fs ++ defined rest.
Proof.
  intros H. induction fs as [|f fs IH]; [reflexivity|]. cbn [flat_map map app]. rewrite fun_lines_head, <- !app_assoc.
  rewrite defined_block.
  - f_equal. rewrite defined_calm; [exact IH| |].
    + repeat constructor; try apply calm_stmt; unfold calm; discriminate.
    + intros x X. destruct fs as [|g fs]; [apply H; exact X|]. cbn [flat_map] in X. rewrite fun_lines_head in X. cbn [app hd_error] in X. injection X as <-. apply fun_head_calm.
  - apply calm_flat. intros s. apply calm_fstmt.
  - intros x X. cbn [app hd_error] in X. injection X as <-. apply calm_stmt.
Qed.

Lemma calm_define m : calm (define m). Proof. unfold calm. discriminate. Qed.
Lemma calm_defines l : Forall calm (map define l).
Proof. apply Forall_forall. intros x I. apply in_map_iff in I as (m & <- & _). apply calm_define. Qed.
Lemma calm_data : forall n l, Forall calm (data_lines n l).
Proof.
  induction n as [|n IH]; intros l; cbn [data_lines]; [constructor|]. destruct (Nat.ltb 32 (length l)); [constructor; [apply calm_line|apply IH]|].
  destruct l; [constructor|]. constructor; [apply calm_line|constructor].
Qed.
Lemma calm_end_last l : Forall calm l -> ~ In [] l -> Forall calm (end_last l).
Proof.
  induction l as [|x l IH]; intros F N; [constructor|]. inversion F as [|? ? C F']; subst. destruct l as [|y l].
  - cbn [end_last]. constructor; [|constructor]. destruct x as [|c x]; [destruct N; left; reflexivity|]. exact C.
  - cbn [end_last]. constructor; [exact C|]. apply IH; [exact F'|]. intros I. apply N. right. exact I.
Qed.
Lemma calm_literal l : Forall calm (end_last (map (fun s => [QUOTE] ++ s ++ [QUOTE]) l)).
Proof.
  apply calm_end_last.
  - apply Forall_forall. intros x I. apply in_map_iff in I as (s & <- & _). unfold calm. discriminate.
  - intros I. apply in_map_iff in I as (s & E & _). discriminate.
Qed.

(** A piece of a file that defines the functions [hs]. *)
Definition calm_head (l : list str) : Prop := forall x, hd_error l = Some x -> calm x.
Definition seg (l hs : list str) : Prop := forall rest, calm_head rest -> calm_head (l ++ rest) /\ defined (l ++ rest) = hs ++ defined rest.
Lemma seg_nil : seg [] []. Proof. intros rest H. split; [exact H|reflexivity]. Qed.
Lemma seg_app a b ha hb : seg a ha -> seg b hb -> seg (a ++ b) (ha ++ hb).
Proof.
  intros A B rest H. destruct (B rest H) as (C1 & D1). destruct (A (b ++ rest) C1) as (C2 & D2).
  rewrite <- !app_assoc, <- D1. split; assumption.
Qed.
Lemma seg_calm l : Forall calm l -> seg l [].
Proof.
  intros F rest H. split; [intros x; apply head_calm; assumption|]. apply defined_calm; assumption.
Qed.
Lemma seg_cons x l hs : calm x -> seg l hs -> seg (x :: l) hs.
Proof. intros C. apply (seg_app [x] l [] hs). apply seg_calm. repeat constructor; exact C. Qed.
Lemma seg_skip a b hs : Forall calm a -> seg b hs -> seg (a ++ b) hs.
Proof. intros F. apply (seg_app a b [] hs). apply seg_calm. exact F. Qed.
Lemma seg_def h l hs : calm h -> seg l hs -> seg (h :: [123] :: l) (h :: hs).
Proof.
  intros C. apply (seg_app [h; [123]] l [h] hs). intros rest H. split; [intros x X; injection X as <-; exact C|].
  change (defined ([h; [123]] ++ rest)) with (h :: defined ([123] :: rest)). rewrite defined_cons; [reflexivity|exact H].
Qed.
Lemma seg_if (b : bool) l1 l2 : Forall calm l1 -> Forall calm l2 -> seg (if b then l1 else l2) [].
Proof. destruct b; intros; apply seg_calm; assumption. Qed.
Lemma seg_funs buf fs : seg (flat_map (fun_lines buf) fs) (map fun_head fs).
Proof.
  induction fs as [|f fs IH]; [exact seg_nil|]. cbn [flat_map map]. apply (seg_app _ _ [fun_head f]); [|exact IH].
  rewrite fun_lines_head. cbn [app]. apply seg_def; [apply fun_head_calm|]. apply seg_calm. rewrite Forall_app. split.
  - apply calm_flat. intros s. apply calm_fstmt.
  - repeat constructor; try apply calm_stmt; unfold calm; discriminate.
Qed.
Lemma calm_heading x : Forall calm (heading x). Proof. unfold heading. repeat constructor; unfold calm; discriminate. Qed.
Ltac calm1 := first [apply calm_stmt | apply calm_line | apply calm_define | (unfold calm; discriminate)].
Ltac calms := repeat first
  [ apply Forall_nil | apply calm_heading | apply calm_literal | apply calm_data | apply calm_defines | apply calm_map_stmt
  | apply Forall_cons; [calm1|]
  | apply Forall_app; split
  | match goal with |- Forall calm (if ?b then _ else _) => destruct b end ].

Lemma seg_front version c : seg (source_front version c)
  (map proto_text (node_protos (c_name c)) ++ map fun_head (c_reads c) ++ map fun_head (c_writes c)).
Proof.
  unfold source_front.
  repeat match goal with |- seg (?l ++ _) (map proto_text _ ++ _) =>
    lazymatch l with
    | [lit "apx_nodeData_t * ApxNode_Init_" ++ _; _] => fail
    | _ => apply seg_skip; [solve [calms]|]
    end end.
  unfold node_protos. cbn [map proto_text cp_ret cp_star cp_name cp_params app].
  change (lit "{") with [123]. rewrite <- !(app_assoc (lit "ApxNode_Init_")), <- !(app_assoc (lit "ApxNode_GetNodeData_")), <- !(app_assoc (lit "ApxNode_IsConnected_")).
  apply seg_def; [calm1|].
  do 3 (apply seg_skip; [solve [calms]|]). apply seg_cons; [calm1|]. apply seg_skip; [solve [calms]|].
  do 3 (apply seg_cons; [calm1|]). apply seg_def; [calm1|].
  do 3 (apply seg_cons; [calm1|]). apply seg_def; [calm1|].
  do 3 (apply seg_cons; [calm1|]). apply seg_app; apply seg_funs.
Qed.

(** ** The notification function *)

Lemma seg_notifier fname x : seg (notifier_text fname x)
  (match fname, x with None, _ | _, NoNotifier => [] | Some f, _ => [proto_text (notify_proto f)] end).
Proof.
  destruct fname as [f|]; [|exact seg_nil]. destruct x as [| |guard parts vars]; [exact seg_nil| |]; cbn [notifier_text notifier_lines app tl].
  - apply seg_def; [unfold calm; discriminate|]. apply seg_calm. calms.
  - apply seg_def; [unfold calm; discriminate|]. apply seg_calm.
    destruct guard as [g|]; calms;
      first [apply Forall_forall; intros y I; apply in_map_iff in I as (v & <- & _); apply calm_stmt|apply calm_flat; intros y; apply calm_part].
Qed.
Lemma notifier_same nm x : x <> NoNotifier -> notifier_text (Some (notify_name nm)) x = notifier_lines nm x.
Proof.
  intros N. destruct x as [| |guard parts vars]; [congruence| |]; cbn [notifier_text notifier_lines app tl]; f_equal;
    unfold proto_text, notify_proto, notify_name; cbn [cp_ret cp_star cp_name cp_params map param_text opt_text join];
    rewrite <- !app_assoc; reflexivity.
Qed.

Lemma defined_source version c fname :
  defined (source_front version c ++ notifier_text fname (c_notifier c) ++ heading "LOCAL FUNCTIONS") =
  map proto_text (node_protos (c_name c)) ++ map fun_head (c_reads c) ++ map fun_head (c_writes c)
  ++ match fname, c_notifier c with None, _ | _, NoNotifier => [] | Some f, _ => [proto_text (notify_proto f)] end.
Proof.
  pose proof (seg_app _ _ _ _ (seg_front version c) (seg_app _ _ _ _ (seg_notifier fname (c_notifier c)) (seg_calm _ (calm_heading "LOCAL FUNCTIONS")))) as S.
  destruct (S []) as [_ D]; [intros x X; discriminate|]. rewrite app_nil_r in D. rewrite D, <- !app_assoc. cbn [defined]. rewrite !app_nil_r. reflexivity.
Qed.

(** ** Headers *)

Lemma declared_app a b : declared (a ++ b) = declared a ++ declared b.
Proof. unfold declared. apply flat_map_app. Qed.
Lemma declared_protos l : declared (map proto_line l) = map proto_text l.
Proof.
  induction l as [|f l IH]; [reflexivity|]. cbn [map]. unfold declared in *. cbn [flat_map]. rewrite IH. unfold proto_line at 1.
  rewrite rev_app_distr.
  change (rev (lit ";") ++ rev (proto_text f)) with (59 :: rev (proto_text f)). cbv beta iota. rewrite rev_involutive. reflexivity.
Qed.
Lemma ends_not x c : c <> 59 -> match rev (x ++ [c]) with 59 :: r => [rev r] | _ => [] end = [].
Proof.
  intros N. rewrite rev_unit. destruct c as [|p|p]; try reflexivity. do 6 (destruct p as [p|p|]; try reflexivity); congruence.
Qed.
Lemma declared_one x c : c <> 59 -> declared [x ++ [c]] = [].
Proof. intros N. unfold declared. cbn [flat_map]. rewrite ends_not by exact N. reflexivity. Qed.
Lemma declared_include l : declared (map include l) = [].
Proof.
  induction l as [|x l IH]; [reflexivity|]. cbn [map]. change (include x :: map include l) with ([include x] ++ map include l). rewrite declared_app, IH, app_nil_r.
  unfold include. replace (lit "#include """ ++ x ++ lit """") with ((lit "#include """ ++ x) ++ [34]) by (rewrite <- app_assoc; reflexivity).
  apply declared_one. discriminate.
Qed.
Lemma declared_guarded g body : declared (guarded (g ++ [72]) body) = declared body.
Proof.
  unfold guarded. rewrite !declared_app.
  change [lit "#ifndef " ++ g ++ [72]; lit "#define " ++ g ++ [72]; []] with ([lit "#ifndef " ++ g ++ [72]] ++ [lit "#define " ++ g ++ [72]] ++ [[]]).
  change [[]; lit "#endif //" ++ g ++ [72]] with ([[]] ++ [lit "#endif //" ++ g ++ [72]]).
  rewrite !declared_app, !(app_assoc _ g), !declared_one by discriminate. cbn. rewrite app_nil_r. reflexivity.
Qed.
Lemma declared_cbk nm funs : declared (cbk_lines nm funs) = map proto_text funs.
Proof.
  unfold cbk_lines. change (lit "_CBK_H") with (lit "_CBK_" ++ [72]). rewrite app_assoc, declared_guarded, !declared_app, declared_protos. reflexivity.
Qed.
Lemma declared_header nm includes funs (input : bool) : declared (header_lines nm includes funs input) =
  map proto_text (node_protos nm ++ funs ++ (if input then [notify_proto (notify_name nm)] else [])).
Proof.
  unfold header_lines. change (lit "_H") with (lit "_" ++ [72]). rewrite app_assoc, declared_guarded, !declared_app, declared_include, !declared_protos.
  replace (declared (if input then [proto_line (notify_proto (notify_name nm))] else [])) with (map proto_text (if input then [notify_proto (notify_name nm)] else []))
    by (destruct input; [symmetry; apply (declared_protos [_])|reflexivity]).
  rewrite !map_app. reflexivity.
Qed.

(** ** The state *)

Definition cb_var (c : callback) : str * option str * option Z :=
  (opt_text (si_name (cb_sig c)), si_type (cb_sig c), arrayLen (si_target (cb_sig c))).
Definition grown (st : gstate) (cbs : option (list callback)) : gstate :=
  match cbs with
  | None => st
  | Some l => mk_gstate (g_vars st ++ map cb_var (filter has_func l)) (g_funs st) (g_pending st ++ l) (g_notify st)
  end.
Lemma grown_nil st : grown st (Some []) = st.
Proof. destruct st. unfold grown. cbn. rewrite !app_nil_r. reflexivity. Qed.

Lemma create_grown st m s l : create st (Some m) s = Ok l -> exists nm, si_name s = Some nm /\ l = grown st (Some [cb_of m s]).
Proof.
  unfold create. intros E. destruct (si_name s) as [nm|] eqn:N; [|discriminate]. injection E as <-. exists nm. split; [reflexivity|].
  unfold grown, cb_of, cb_var. rewrite N. cbn [filter has_func cb_func]. unfold has_func. cbn [cb_func].
  destruct (lookup (Some nm) m); cbn [map cb_sig]; rewrite ?N; reflexivity.
Qed.
Lemma grown_twice st a b : grown (grown st (Some a)) (Some b) = grown st (Some (a ++ b)).
Proof. unfold grown. cbn. rewrite filter_app, map_app, <- !app_assoc. reflexivity. Qed.

Lemma made_cons m s l x : made_callbacks (Some m) (s :: l) = Ok x <->
  exists nm r, si_name s = Some nm /\ made_callbacks (Some m) l = Ok (Some r) /\ x = Some (cb_of m s :: r).
Proof.
  unfold made_callbacks. cbn [create_callbacks]. destruct (si_name s) as [nm|] eqn:N.
  - split.
    + intros E. apply bind_ok in E as (y & E & X). apply bind_ok in E as (r & E & Y). injection Y as <-. injection X as <-. exists nm, r.
      split; [reflexivity|]. rewrite E. split; [reflexivity|]. unfold cb_of. rewrite N. reflexivity.
    + intros (nm' & r & E1 & E2 & ->). apply bind_ok in E2 as (y & E & X). injection X as ->. rewrite E. cbn [bind]. unfold cb_of. rewrite N. reflexivity.
  - split; [discriminate|]. intros (nm & r & E & _). discriminate.
Qed.

Lemma gen_ins_ok fuel types name callbacks : forall ports st W off st' W' ins,
  gen_ins fuel types name callbacks st W off ports = (st', Ok (W', ins)) <->
  gen_signals fuel Unpack types name W off ports = Ok (W', ins) /\
  exists cbs, made_callbacks callbacks ins = Ok cbs /\ st' = grown st cbs.
Proof.
  induction ports as [|o r IH]; intros st W off st' W' ins; cbn [gen_ins gen_signals].
  - split.
    + intros E. injection E as <- <- <-. split; [reflexivity|]. destruct callbacks as [m|]; [exists (Some []); rewrite grown_nil|exists None]; auto.
    + intros (E & cbs & M & ->). injection E as <- <-. destruct callbacks as [m|]; cbn in M; injection M as <-; [rewrite grown_nil|]; reflexivity.
  - destruct (gen_signal fuel Unpack types name W off o) as [[W1 s]|e] eqn:G; cbn [bind]; [|split; [discriminate|intros (E & _); discriminate]].
    destruct callbacks as [m|].
    + split.
      * intros E. destruct (create st (Some m) s) as [st1|e] eqn:C; [|discriminate]. apply create_grown in C as (nm & N & ->).
        destruct (gen_ins fuel types name (Some m) (grown st (Some [cb_of m s])) W1 (off + si_len s) r) as [st2 [[W2 l]|e]] eqn:R; [|discriminate].
        injection E as <- <- <-. apply IH in R as (R & cbs & M & ->). rewrite R. split; [reflexivity|].
        destruct cbs as [cbs|]; [|cbn in M; apply bind_ok in M as (? & _ & M); discriminate].
        exists (Some (cb_of m s :: cbs)). split; [apply made_cons; eauto|]. apply grown_twice.
      * intros (E & cbs & M & ->). apply bind_ok in E as ([W2 l] & R & E). injection E as <- <-.
        apply made_cons in M as (nm & cs & N & M & ->).
        destruct (create st (Some m) s) as [st1|e] eqn:C; [|unfold create in C; rewrite N in C; discriminate]. apply create_grown in C as (nm' & _ & ->).
        assert (gen_ins fuel types name (Some m) (grown st (Some [cb_of m s])) W1 (off + si_len s) r = (grown (grown st (Some [cb_of m s])) (Some cs), Ok (W2, l))) as -> by (apply IH; eauto).
        rewrite grown_twice. reflexivity.
    + cbn [create]. split.
      * intros E. destruct (gen_ins fuel types name None st W1 (off + si_len s) r) as [st2 [[W2 l]|e]] eqn:R; [|discriminate].
        injection E as <- <- <-. apply IH in R as (R & cbs & M & ->). rewrite R. cbn in M. injection M as <-. split; [reflexivity|]. exists None. auto.
      * intros (E & cbs & M & ->). apply bind_ok in E as ([W2 l] & R & E). injection E as <- <-. cbn in M. injection M as <-.
        assert (gen_ins fuel types name None st W1 (off + si_len s) r = (st, Ok (W2, l))) as -> by (apply IH; split; [exact R|]; exists None; auto).
        reflexivity.
Qed.

Lemma signals_nonneg fuel op name W : forall ports off sigs, signals fuel op name W off ports sigs -> Forall (fun s => 0 <= si_len s) sigs.
Proof.
  induction ports as [|o r IH]; intros off [|s l] G; cbn [signals] in *; try contradiction; [constructor|].
  destruct G as [G1 G2]. constructor; [|exact (IH _ _ G2)]. rewrite <- (sg_initlen _ _ _ _ _ _ _ G1). unfold len. lia.
Qed.
Lemma chained_later a l s : Forall (fun s => 0 <= si_len s) l -> chained a l -> In s l -> a <= si_offset s.
Proof.
  intros F. revert a. induction F as [|x l A B IH]; intros a C I; [destruct I|]. destruct C as [E C]. destruct I as [<-|I]; [lia|].
  specialize (IH _ C I). lia.
Qed.
Lemma by_offset_id l : forall a, chained a (map cb_sig l) -> Forall (fun s => 0 <= si_len s) (map cb_sig l) -> by_offset l = l.
Proof.
  induction l as [|c l IH]; intros a C F; [reflexivity|]. cbn [map] in *. destruct C as [E C]. inversion F as [|? ? F1 F2]; subst.
  unfold by_offset. cbn [fold_right]. fold (by_offset l). rewrite (IH _ C F2). destruct l as [|d l]; [reflexivity|].
  cbn [insert_offset]. destruct (Z.ltb_spec (si_offset (cb_sig d)) (si_offset (cb_sig c))) as [L|L]; [|reflexivity].
  pose proof (chained_later _ _ (cb_sig d) F2 C (or_introl eq_refl)). lia.
Qed.
Lemma cb_sigs m l : map cb_sig (map (cb_of m) l) = l.
Proof. rewrite map_map. cbn. apply map_id. Qed.
Lemma sum_nonneg l : Forall (fun s => 0 <= si_len s) l -> 0 <= sum_lens l.
Proof. induction 1 as [|s l A B IH]; cbn [sum_lens]; lia. Qed.

Lemma target_complex H e d : resolve_data_element H e = Ok d -> exists b, isComplexType H d = Ok b.
Proof.
  intros R. apply resolve_not_ref in R. unfold isComplexType, resolve_data_element. destruct d; try discriminate; cbn; eauto.
Qed.
Lemma signals_complex fuel op name W : forall ports off sigs, signals fuel op name W off ports sigs ->
  Forall (fun s => exists b, isComplexType (w_types W) (si_target s) = Ok b) sigs.
Proof.
  induction ports as [|o r IH]; intros off [|s l] G; cbn [signals] in *; try contradiction; [constructor|].
  destruct G as [G1 G2]. constructor; [|exact (IH _ _ G2)]. exact (target_complex _ _ _ (sg_target _ _ _ _ _ _ _ G1)).
Qed.
Lemma add_functions_ok H l : Forall (fun c => exists b, isComplexType H (si_target (cb_sig c)) = Ok b) l -> snd (add_functions H l) = None.
Proof.
  induction 1 as [|c l (b & A) B IH]; [reflexivity|]. cbn [add_functions]. destruct (cb_func c); [|exact IH]. rewrite A.
  destruct (add_functions H l). exact IH.
Qed.

(** ** A whole call *)

Definition given (callbacks : option (list (str * option str))) : bool := match callbacks with Some _ => true | None => false end.
Definition ready (st : gstate) (cbs : option (list callback)) (fs : list cproto) (nm : str) (ins : list siginfo) : gstate :=
  mk_gstate (g_vars (grown st cbs)) (g_funs st ++ fs) (g_pending (grown st cbs)) (if 0 <? sum_lens ins then Some (notify_name nm) else g_notify st).

Lemma files_ok version fuel st sfx W nd name includes callbacks direct synced st' W' nd' f :
  generate_files version fuel st sfx W nd name includes callbacks direct synced = (st', Ok (W', nd', f)) <->
  exists nm W1 W2 ins outs cbs fs,
    (match name with Some s => Some s | None => n_name nd end) = Some nm /\ finalize true false W nd = Ok (W1, nd') /\
    gen_signals fuel Unpack (n_types nd') nm W1 0 (n_require nd') = Ok (W2, ins) /\ made_callbacks callbacks ins = Ok cbs /\
    gen_signals fuel Pack (n_types nd') nm W2 0 (n_provide nd') = Ok (W', outs) /\
    add_functions (w_types W') (by_offset (g_pending (grown st cbs))) = (fs, None) /\
    write_source version (ready st cbs fs nm ins) sfx W' nd' nm (given callbacks) direct synced ins outs = (st', Ok (f_source f)) /\
    f = mk_cfiles (if given callbacks then Some (cbk_lines nm (g_funs st ++ fs)) else None)
          (header_lines nm includes (map signal_proto (ins ++ outs)) (0 <? sum_lens ins)) (f_source f).
Proof.
  assert (forall cbs, g_funs (grown st cbs) = g_funs st) as GF by (intros [l|]; reflexivity).
  assert (forall cbs, g_notify (grown st cbs) = g_notify st) as GN by (intros [l|]; reflexivity).
  unfold generate_files. split.
  - intros E.
    destruct (match name, n_name nd with Some s, _ => Ok s | None, Some s => Ok s | None, None => Err TypeError end) as [nm|e] eqn:En; cbn [bind] in E; [|discriminate].
    destruct (finalize true false W nd) as [[W1 nd1]|e] eqn:Ef; cbn [bind] in E; [|discriminate].
    destruct (gen_ins fuel (n_types nd1) nm callbacks st W1 0 (n_require nd1)) as [st1 [[W2 ins]|e]] eqn:Ei; [|discriminate].
    destruct (gen_signals fuel Pack (n_types nd1) nm W2 0 (n_provide nd1)) as [[W3 outs]|e] eqn:Eo; [|discriminate].
    apply gen_ins_ok in Ei as (Ei & cbs & Ec & ->).
    destruct (add_functions (w_types W3) (by_offset (g_pending (grown st cbs)))) as [fs failed] eqn:Ea. destruct failed as [e|]; [discriminate|].
    cbn [g_vars g_funs g_pending g_notify] in E. fold (given callbacks) in E. rewrite GF, GN in E.
    match type of E with (let (_, _) := ?t in _) = _ => destruct t as [st2 [src|e]] eqn:Ew end; [|discriminate].
    injection E as <- <- <- <-. exists nm, W1, W2, ins, outs, cbs, fs. cbn [f_source].
    split; [destruct name, (n_name nd); try discriminate; congruence|]. do 6 (split; [first [assumption|reflexivity]|]). reflexivity.
  - intros (nm & W1 & W2 & ins & outs & cbs & fs & En & Ef & Ei & Ec & Eo & Ea & Ew & Ef').
    replace (match name, n_name nd with Some s, _ => Ok s | None, Some s => Ok s | None, None => Err TypeError end) with (Ok nm)
      by (destruct name, (n_name nd); congruence).
    cbn [bind]. rewrite Ef. cbn [bind].
    assert (gen_ins fuel (n_types nd') nm callbacks st W1 0 (n_require nd') = (grown st cbs, Ok (W2, ins))) as -> by (apply gen_ins_ok; eauto).
    rewrite Eo, Ea. cbn [g_vars g_funs g_pending g_notify]. fold (given callbacks). rewrite GF, GN.
    fold (ready st cbs fs nm ins). rewrite Ew. rewrite <- Ef'. reflexivity.
Qed.

(** What is known about the signals and the callbacks. *)
Lemma made_sorted fuel name W ports callbacks ins cbs : signals fuel Unpack name W 0 ports ins -> made_callbacks callbacks ins = Ok cbs ->
  forall l, cbs = Some l -> by_offset l = l /\ map cb_sig l = ins /\ exists m, callbacks = Some m /\ l = map (cb_of m) ins.
Proof.
  intros G M l ->. destruct callbacks as [m|]; [|discriminate]. cbn in M. apply bind_ok in M as (x & M & E). injection E as ->.
  apply create_callbacks_inv in M as [-> _]. rewrite cb_sigs. split; [|eauto].
  apply (by_offset_id _ 0); rewrite cb_sigs; [exact (signals_chained _ _ _ _ _ _ _ G)|exact (signals_nonneg _ _ _ _ _ _ _ G)].
Qed.

Lemma gen_files_signals fuel types nm W1 W2 W' ins outs rs ps :
  gen_signals fuel Unpack types nm W1 0 rs = Ok (W2, ins) -> gen_signals fuel Pack types nm W2 0 ps = Ok (W', outs) ->
  same_world W1 W' /\ signals fuel Unpack nm W' 0 rs ins /\ signals fuel Pack nm W' 0 ps outs.
Proof.
  intros Ei Eo. apply gen_signals_inv in Ei as [S1 G1]. apply gen_signals_inv in Eo as [S2 G2].
  split; [exact (same_world_trans _ _ _ S1 S2)|]. split.
  - exact (signals_same _ _ _ _ _ (same_world_trans _ _ _ S1 S2) _ _ _ G1).
  - exact (signals_same _ _ _ _ _ S2 _ _ _ G2).
Qed.

Lemma make_notifier_fresh fuel nm W' ports callbacks ins cbs : signals fuel Unpack nm W' 0 ports ins -> made_callbacks callbacks ins = Ok cbs ->
  make_notifier (w_types W') (if 0 <? sum_lens ins then Some (notify_name nm) else None) (given callbacks) (by_offset (g_pending (grown new_gen cbs))) (g_vars (grown new_gen cbs)) =
  gen_notifier (w_types W') (sum_lens ins) cbs.
Proof.
  intros G M. pose proof (sum_nonneg _ (signals_nonneg _ _ _ _ _ _ _ G)) as P. unfold make_notifier, gen_notifier.
  destruct (Z.ltb_spec 0 (sum_lens ins)) as [L|L]; destruct (Z.eqb_spec (sum_lens ins) 0) as [Z0|Z0]; try lia; [|reflexivity].
  destruct cbs as [l|].
  - destruct (made_sorted _ _ _ _ _ _ _ G M l eq_refl) as (B & _ & m & -> & _). cbn [given grown g_pending g_vars app new_gen]. rewrite B. reflexivity.
  - destruct callbacks as [m|]; [cbn in M; apply bind_ok in M as (? & _ & M); discriminate|]. reflexivity.
Qed.

(** The part of [generate] after the ports. *)
Definition generate_tail (sfx : str) (W : world) (nd : node) (nm : str) (hc : bool) (cbs : option (list callback)) (direct : list str) (synced : bool)
    (ins outs : list siginfo) : res cfile :=
  do text <- context_dumps false W [nd];
  do outinit <- init_table outs;
  do ininit <- init_table ins;
  do reads <- gen_funcs (w_types W) sfx Unpack direct ins ins;
  do writes <- gen_funcs (w_types W) sfx Pack direct outs outs;
  do notifier <- gen_notifier (w_types W) (sum_lens ins) cbs;
  let cbl := match cbs with Some l => l | None => [] end in
  Ok (mk_cfile nm (n_name nd) hc synced
        (len text + 1) (sum_lens ins) (sum_lens outs)
        (map (fun c => (cb_len_define c, si_len (cb_sig c))) (by_len cbl))
        (map (fun c => (cb_offset_define c, si_offset (cb_sig c))) cbl)
        ininit outinit (map literal_line (split_on NEWLINE text)) reads writes notifier).

Lemma generate_ok fuel sfx W nd name callbacks direct synced W' nd' c :
  generate fuel sfx W nd name callbacks direct synced = Ok (W', nd', c) <->
  exists nm W1 W2 ins outs cbs,
    (match name with Some s => Some s | None => n_name nd end) = Some nm /\ finalize true false W nd = Ok (W1, nd') /\
    gen_signals fuel Unpack (n_types nd') nm W1 0 (n_require nd') = Ok (W2, ins) /\ made_callbacks callbacks ins = Ok cbs /\
    gen_signals fuel Pack (n_types nd') nm W2 0 (n_provide nd') = Ok (W', outs) /\
    generate_tail sfx W' nd' nm (given callbacks) cbs direct synced ins outs = Ok c.
Proof.
  unfold generate. split.
  - intros E. apply bind_ok in E as (nm & En & E). apply bind_ok in E as ([W1 nd1] & Ef & E).
    apply bind_ok in E as ([W2 ins] & Ei & E). apply bind_ok in E as (cbs & Ec & E).
    apply bind_ok in E as ([W3 outs] & Eo & E). apply bind_ok in E as (text & Et & E).
    apply bind_ok in E as (oi & Eoi & E). apply bind_ok in E as (ii & Eii & E).
    apply bind_ok in E as (reads & Er & E). apply bind_ok in E as (writes & Ew & E).
    apply bind_ok in E as (nt & Ent & E). injection E as <- <- <-.
    exists nm, W1, W2, ins, outs, cbs. split; [destruct name, (n_name nd); try discriminate; congruence|].
    do 4 (split; [assumption|]). unfold generate_tail. rewrite Et, Eoi, Eii, Er, Ew, Ent. reflexivity.
  - intros (nm & W1 & W2 & ins & outs & cbs & En & Ef & Ei & Ec & Eo & Et).
    replace (match name, n_name nd with Some s, _ => Ok s | None, Some s => Ok s | None, None => Err TypeError end) with (Ok nm)
      by (destruct name, (n_name nd); congruence).
    cbn [bind]. rewrite Ef. cbn [bind]. rewrite Ei. cbn [bind]. fold (made_callbacks callbacks ins). rewrite Ec. cbn [bind]. rewrite Eo. cbn [bind].
    unfold generate_tail in Et. apply bind_ok in Et as (text & Et & E).
    apply bind_ok in E as (oi & Eoi & E). apply bind_ok in E as (ii & Eii & E).
    apply bind_ok in E as (reads & Er & E). apply bind_ok in E as (writes & Ew & E).
    apply bind_ok in E as (nt & Ent & E). rewrite Et, Eoi, Eii, Er, Ew, Ent. cbn [bind]. injection E as <-. reflexivity.
Qed.

Lemma fresh_list fuel nm W ports callbacks ins cbs : signals fuel Unpack nm W 0 ports ins -> made_callbacks callbacks ins = Ok cbs ->
  (if given callbacks then g_pending (grown new_gen cbs) else []) = (match cbs with Some l => l | None => [] end) /\
  by_offset (if given callbacks then g_pending (grown new_gen cbs) else []) = (match cbs with Some l => l | None => [] end).
Proof.
  intros G M. destruct cbs as [l|].
  - destruct (made_sorted _ _ _ _ _ _ _ G M l eq_refl) as (B & _ & m & -> & _). cbn [given grown g_pending new_gen app]. rewrite B. auto.
  - destruct callbacks as [m|]; [cbn in M; apply bind_ok in M as (? & _ & M); discriminate|auto].
Qed.

Lemma write_fresh version fuel sfx W nd nm callbacks cbs fs direct synced ins outs L :
  signals fuel Unpack nm W 0 (n_require nd) ins -> made_callbacks callbacks ins = Ok cbs ->
  (exists st', write_source version (ready new_gen cbs fs nm ins) sfx W nd nm (given callbacks) direct synced ins outs = (st', Ok L)) <->
  (exists c, generate_tail sfx W nd nm (given callbacks) cbs direct synced ins outs = Ok c /\ L = source_lines version c).
Proof.
  intros Gi M. destruct (fresh_list _ _ _ _ _ _ _ Gi M) as [F1 F2]. pose proof (make_notifier_fresh _ _ _ _ _ _ _ Gi M) as F3.
  pose proof (sum_nonneg _ (signals_nonneg _ _ _ _ _ _ _ Gi)) as P.
  unfold write_source. cbn [ready g_pending g_vars g_notify g_funs new_gen]. cbn zeta. rewrite F3, F2, F1.
  fold (generate_tail sfx W nd nm (given callbacks) cbs direct synced ins outs).
  destruct (generate_tail sfx W nd nm (given callbacks) cbs direct synced ins outs) as [c|e] eqn:T.
  - assert (notifier_text (if 0 <? sum_lens ins then Some (notify_name nm) else None) (c_notifier c) = notifier_lines (c_name c) (c_notifier c)) as N.
    { unfold generate_tail in T. apply bind_ok in T as (text & _ & T).
      apply bind_ok in T as (oi & Eoi & T). apply bind_ok in T as (ii & Eii & T).
      apply bind_ok in T as (reads & Er & T). apply bind_ok in T as (writes & Ew & T).
      apply bind_ok in T as (nt & Ent & T). injection T as <-. cbn [c_name c_notifier]. unfold gen_notifier in Ent.
      destruct (Z.ltb_spec 0 (sum_lens ins)) as [Q|Q]; destruct (Z.eqb_spec (sum_lens ins) 0) as [Z0|Z0]; try lia.
      - apply notifier_same. destruct cbs as [l|]; [apply bind_ok in Ent as (ps & _ & Ent)|]; injection Ent as <-; discriminate.
      - injection Ent as <-. reflexivity. }
    rewrite N. fold (source_lines version c). split.
    + intros (st' & E). injection E as _ <-. eauto.
    + intros (c' & E & ->). injection E as <-. eauto.
  - split; [intros (st' & E)|intros (c & E & _)]; discriminate.
Qed.
Lemma add_functions_fresh fuel nm W ports callbacks ins cbs : signals fuel Unpack nm W 0 ports ins -> made_callbacks callbacks ins = Ok cbs ->
  snd (add_functions (w_types W) (by_offset (g_pending (grown new_gen cbs)))) = None.
Proof.
  intros G M. destruct cbs as [l|]; [|reflexivity]. destruct (made_sorted _ _ _ _ _ _ _ G M l eq_refl) as (B & S & _). cbn [grown g_pending new_gen app]. rewrite B.
  apply add_functions_ok. pose proof (signals_complex _ _ _ _ _ _ _ G) as F. rewrite <- S in F. rewrite Forall_map in F. exact F.
Qed.
