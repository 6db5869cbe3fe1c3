(** C107, continued: from the text of a program to the text on stderr. *)
From Coq Require Import Reals ZArith Lia Permutation.
From Verif Require Import Base Dec Num Sexpr_Model Dispatch_Model Dispatch_Spec Data_Model Scale_Model Units_Model Color_Model Geo_Model Svg_Model Format_Model Cmd_Model Style_Model
  Plist_Model Plist_Spec Plist_Proofs Plist_Props Plot_Model Eval_Model Eval_Spec Eval_Proofs Eval_Props4 Demo Eval_Examples Whole_Props Say_Model Say_Model2 Say_Spec Say_Proofs Say_Props Say_Props2.
From Verif Require PlistSay_Model PlistSay_Proofs.

(** What a program sets for the page as a whole; everything else is for the elements. *)
Definition page_commands : list str := map s_ ["class"; "size"; "dpi"; "font"; "font-size"]%string.
Definition tree_name (t : ptree) : str := match t with Prop_ n _ | Block n _ => n end.
Definition element (t : ptree) : Prop := ~ In (tree_name t) page_commands.
(** The tool is to draw this program. *)
Definition to_draw (opts : list opt) (png : bool) : Prop :=
  existsb is_help opts = false /\ existsb is_version opts = false /\ existsb is_font_load opts = false /\ forallb known_opt opts = true /\ wants opts png.

Lemma element_unknown W U t : element t -> exists args, tree_expr t = EList (ELit (tree_name t) :: args) /\ assoc (tree_name t) (eval_table_said W U) = None.
Proof.
  intro E. exists (match t with Prop_ _ a => map val_expr a | Block _ i => map tree_expr i end). split; [now destruct t|].
  destruct (assoc (tree_name t) (eval_table_said W U)) eqn:A; [|reflexivity]. exfalso. apply E.
  change page_commands with (map fst (eval_table_said W U)). apply assoc_in. congruence.
Qed.
Lemma skip_elements W U pre l u t s : Forall element pre -> exists u' t', walkx_said (eval_table_said W U) true (map tree_expr pre ++ l) u t s = walkx_said (eval_table_said W U) true l u' t' s.
Proof.
  intro F. revert u t. induction F as [|x r E F IH]; intros u t; [now exists u, t|]. destruct (element_unknown W U x E) as (args & Q & A). cbn [map app]. rewrite Q. cbn [walkx_said value_of]. rewrite A. apply IH.
Qed.
Lemma draws W U version fonts stdin o opts png path text :
  to_draw opts png -> program_text W stdin path text -> exists E, layer_create W (Ret fonts) [] = Ret E /\
  forall m p, eval_text_said W U E text = Says m p -> main_said W U version (Ret fonts) stdin o opts [path] = Ret (failure, error_print m).
Proof.
  intros (Hh & Hv & Hf & K & Wf) PT. eexists. split; [reflexivity|]. set (E := mk_env _ _ _ _ _ _ _). intros m p S.
  unfold main_said. rewrite flags0_ok, K. unfold cli_run_said, flags_of. cbn [fl_version fl_help fl_export fl_fonts]. rewrite Hv, Hh.
  assert (C : exists fmt, choose_format (flags_of opts) = Ret fmt).
  { unfold choose_format, flags_of. cbn [fl_format fl_export]. unfold wants in Wf. destruct (last_opt is_format opts) as [[|c f]|]; cbn [or_else]; [eauto| |eauto].
    destruct png; rewrite Wf; eexists; reflexivity. }
  destruct C as [fmt C]. unfold flags_of in C. rewrite Hv, Hh in C. rewrite C.
  assert (FL : map opt_arg (filter is_font_load opts) = []).
  { clear - Hf. induction opts as [|x r IH]; [reflexivity|]. cbn [existsb] in Hf. apply orb_false_iff in Hf as [Hx Hr]. cbn [filter]. rewrite Hx. now apply IH. }
  rewrite FL. change (layer_create W (Ret fonts) []) with (@Ret env E). cbn [open_message step].
  destruct PT as [[-> <-]|[NP RF]].
  - change (str_eqb (s_ "-") (s_ "-")) with true. cbv iota. now rewrite S.
  - destruct (str_eqb_spec path (s_ "-")) as [Q|_]; [congruence|]. rewrite RF. now rewrite S.
Qed.
Lemma read_said W U E xs text : trees_text xs text -> eval_text_said W U E text = eval_exprs_said W U E (map tree_expr xs).
Proof.
  intro TT. unfold eval_text_said. pose proof (PlistSay_Proofs.said_same text) as Q. rewrite (C16_reads_tree _ _ TT) in Q.
  destruct (PlistSay_Model.plist_parse_said text) as [o m]. cbn [fst] in Q. rewrite Q. reflexivity.
Qed.
(** C107. A program that asks for a paper size that does not exist, after any elements and before
    anything: the tool ends with a failure, writes nothing, and says on stderr which name was given
    and which names there are. *)
Theorem C107_wrong_size : forall (W : world) (U : unsaid) (version : str) (fonts : font) (stdin : str) (o : os) (opts : list opt) (png : bool) (path text : str)
    (pre post : list ptree) (name : str),
  to_draw opts png -> program_text W stdin path text -> trees_text (pre ++ Prop_ (s_ "size") [VLit name] :: post) text ->
  Forall element pre -> Permutation (u_sizes U) (map fst paper_sizes) -> ~ In name (u_sizes U) ->
  exists m, main_said W U version (Ret fonts) stdin o opts [path] = Ret (failure, s_ "ERROR: " ++ m ++ [c_nl]) /\ names_values m name (u_sizes U).
Proof.
  intros W U version fonts stdin o opts png path text pre post name T PT TT F P N.
  destruct (draws W U version fonts stdin o opts png path text T PT) as (E & LC & D). clear LC.
  assert (A : assoc name paper_sizes = None).
  { destruct (assoc name paper_sizes) eqn:A; [|reflexivity]. exfalso. apply N. rewrite (in_perm _ _ P), <- assoc_in. congruence. }
  eexists. split.
  - refine (D _ _ _). rewrite (read_said W U E _ _ TT). unfold eval_exprs_said, run_collect_said.
    rewrite map_app. change (map tree_expr (Prop_ (s_ "size") [VLit name] :: post)) with (EList [ELit (s_ "size"); ELit name] :: map tree_expr post). destruct (skip_elements W U pre (EList [ELit (s_ "size"); ELit name] :: map tree_expr post) [] [] (E, s_ "plot") F) as (u & t & Q).
    rewrite Q. clear Q. cbn [walkx_said value_of]. change (assoc (s_ "size") (eval_table_said W U)) with
      (Some (fun e (s : env * str) => rbind (ended_said (layer_resize_cmd_said (w_d W) (w_stod W) (u_sizes U) (e_layer (fst s)) e)) (fun v => Good (with_layer v (fst s), snd s)))).
    cbv beta iota. cbn [tl layer_resize_cmd_said node_text]. unfold layer_resize_paper_said. rewrite A. reflexivity.
  - exact (invalid_value_says (A := unit) name (u_sizes U) _ _ _ eq_refl eq_refl).
Qed.
Print Assumptions C107_wrong_size.
(** C107. A program that asks for a module that does not exist is told its name. *)
Theorem C107_wrong_module : forall (W : world) (U : unsaid) (version : str) (fonts : font) (stdin : str) (o : os) (opts : list opt) (png : bool) (path text : str)
    (pre post : list ptree) (name : str),
  to_draw opts png -> program_text W stdin path text -> trees_text (pre ++ Prop_ (s_ "class") [VLit name] :: post) text ->
  Forall element pre -> Forall element post -> name <> [] -> ~ In name [s_ "draw"; s_ "plot"] ->
  main_said W U version (Ret fonts) stdin o opts [path] = Ret (failure, s_ "ERROR: Invalid module '" ++ name ++ s_ "'" ++ [c_nl]).
Proof.
  intros W U version fonts stdin o opts png path text pre post name T PT TT F1 F2 N0 N.
  destruct (draws W U version fonts stdin o opts png path text T PT) as (E & LC & D). clear LC.
  assert (A : assoc name (modules W) = None).
  { destruct (assoc name (modules W)) eqn:A; [|reflexivity]. exfalso. apply N. change [s_ "draw"; s_ "plot"] with (map fst (modules W)). apply assoc_in. congruence. }
  replace (s_ "ERROR: Invalid module '" ++ name ++ s_ "'" ++ [c_nl]) with (error_print (s_ "Invalid module '" ++ name ++ s_ "'"))
    by (unfold error_print; rewrite <- !app_assoc; reflexivity).
  apply (D _ []). rewrite (read_said W U E _ _ TT). unfold eval_exprs_said, run_collect_said.
  rewrite map_app. change (map tree_expr (Prop_ (s_ "class") [VLit name] :: post)) with (EList [ELit (s_ "class"); ELit name] :: map tree_expr post). destruct (skip_elements W U pre (EList [ELit (s_ "class"); ELit name] :: map tree_expr post) [] [] (E, s_ "plot") F1) as (u & t & Q).
  rewrite Q. clear Q. cbn [walkx_said value_of]. change (assoc (s_ "class") (eval_table_said W U)) with
    (Some (fun e (s : env * str) => rbind (expr_to_string_said e) (fun v => Good (fst s, v)))).
  cbv beta iota. cbn [tl expr_to_string_said value_of rbind].
  destruct (skip_elements W U post [] u t (fst (E, s_ "plot"), name) F2) as (u' & t' & Q). rewrite app_nil_r in Q. rewrite Q. cbn [walkx_said rbind fst].
  destruct name as [|c n]; [congruence|]. now rewrite A.
Qed.
Print Assumptions C107_wrong_module.
(** C107, refuted: the message does not say in which command the fault is, although the commands
    around it are recorded: two programs with the fault in different commands are told the same. *)
Theorem C107_place_refuted : forall (W : world) (U : unsaid) (E : env) (r : list expr), w_stod W (s_ "x") = None -> exists m p1 p2,
  eval_exprs_said W U E (EList [ELit (s_ "font-size"); ELit (s_ "x")] :: r) = Says m p1 /\
  eval_exprs_said W U E (EList [ELit (s_ "size"); ELit (s_ "x"); ELit (s_ "1px")] :: r) = Says m p2 /\ p1 <> p2.
Proof.
  intros W U E r H. eexists. eexists. eexists. split; [|split].
  - unfold eval_exprs_said, run_collect_said. cbn [walkx_said value_of]. change (assoc (s_ "font-size") (eval_table_said W U)) with
      (Some (fun e (s : env * str) => rbind (ended_said (layer_set_font_size_cmd_said (w_d W) (w_stod W) (e_layer (fst s)) e)) (fun v => Good (with_layer v (fst s), snd s)))).
    cbv beta iota. cbn [tl layer_set_font_size_cmd_said]. unfold measure_read_said. cbn [value_of]. unfold parse_measure_said. rewrite H. reflexivity.
  - unfold eval_exprs_said, run_collect_said. cbn [walkx_said value_of]. change (assoc (s_ "size") (eval_table_said W U)) with
      (Some (fun e (s : env * str) => rbind (ended_said (layer_resize_cmd_said (w_d W) (w_stod W) (u_sizes U) (e_layer (fst s)) e)) (fun v => Good (with_layer v (fst s), snd s)))).
    cbv beta iota. cbn [tl layer_resize_cmd_said]. unfold measure_read_said. cbn [value_of]. unfold parse_measure_said. rewrite H. reflexivity.
  - discriminate.
Qed.
Print Assumptions C107_place_refuted.

Definition wrong_program : str := s_ "lines { x: 1; } size: A9;".
Definition wrong_world : world :=
  mk_world (w_d chart_world) (w_f chart_world) (w_stod chart_world) (w_show chart_world) (w_is_number chart_world)
    (fun p => if str_eqb p (s_ "in.clp") then Some wrong_program else None) (w_strftime chart_world) (w_sort_stops chart_world) (w_sort_cw chart_world)
    (w_font_load chart_world) (w_text chart_world) (w_measure chart_world) (w_fuel chart_world).
Definition wrong_unsaid : unsaid := mk_unsaid (fun _ => []) [] (fun _ _ => []) [] (fun _ => []) [] [] (map fst paper_sizes).
Example C107_wrong_size_case : exists m,
  main_said wrong_world wrong_unsaid (s_ "1") (Ret []) [] (mk_os (fun _ => true) (fun _ n => Some n) (fun n => n)) [Short "e" (s_ "out.svg")] [s_ "in.clp"] =
    Ret (failure, s_ "ERROR: " ++ m ++ [c_nl]) /\ names_values m (s_ "A9") (map fst paper_sizes).
Proof.
  apply (C107_wrong_size wrong_world wrong_unsaid (s_ "1") [] [] _ [Short "e" (s_ "out.svg")] false (s_ "in.clp") wrong_program
    [Block (s_ "lines") [Prop_ (s_ "x") [VLit (s_ "1")]]] [] (s_ "A9")).
  - repeat split.
  - right. split; [discriminate|reflexivity].
  - unfold wrong_program. cbn [app].
    apply (ts_cons _ (s_ "lines { x: 1; }") _ (s_ " size: A9;") []); [constructor| |].
    + apply (tt_block (s_ "lines") (s_ "lines") (s_ " ") _ (s_ " x: 1; ")); [constructor; apply word_check; [discriminate|reflexivity]|repeat constructor|].
      apply (ts_cons _ (s_ "x: 1;") [] (s_ " ") (s_ " ")); [repeat constructor| |repeat constructor].
      apply (tt_prop (s_ "x") (s_ "x") [] _ (s_ " 1")); [constructor; apply word_check; [discriminate|reflexivity]|constructor|].
      apply (at_one _ (s_ "1") (s_ " ") []); [repeat constructor|constructor|now apply a_word].
    + apply (ts_cons _ (s_ "size: A9;") [] [] (s_ " ")); [repeat constructor| |repeat constructor].
      apply (tt_prop (s_ "size") (s_ "size") [] _ (s_ " A9")); [constructor; apply word_check; [discriminate|reflexivity]|constructor|].
      apply (at_one _ (s_ "A9") (s_ " ") []); [repeat constructor|constructor|now apply a_word].
  - constructor; [|constructor]. intro H. cbn in H. decompose [or] H; (discriminate || contradiction).
  - apply Permutation_refl.
  - intro H. cbn in H. decompose [or] H; (discriminate || contradiction).
Qed.
