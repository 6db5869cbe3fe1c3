(** Claim C114: a program that keeps to the features that cannot go wrong always ends in a
    defined way: with a picture, with an error or with an exception that the tool reports. *)
From Coq Require Import Reals Lra Lia.
From Verif Require Import Base Num Sexpr_Model Dispatch_Model Data_Model Scale_Model
  Units_Model Color_Model Color_Props Geo_Model Svg_Model Plist_Model Plist_Spec Plist_Proofs Cmd_Model Cmd_Spec Cmd_Proofs Style_Model Plot_Model
  Axis_Model Eval_Model Eval_Spec Eval_Proofs Safe_Spec Safe_Proofs Ends_Spec Ends_Proofs Ends_Proofs4.
Local Open Scope R_scope.

Lemma okl_incl W cat e l : (forall x, In x l -> In x e) -> okl W cat e -> okl W cat l.
Proof.
  intros I (A & B & C & P). assert (S : forall w, In w (flat_map atoms l) -> In w (flat_map atoms e)).
  { intros w H. apply in_flat_map in H. destruct H as (x & H & X). apply in_flat_map. eauto. }
  split; [auto|]. split; [rewrite Forall_forall in *; auto|]. split; [intro H; apply C, S, H|].
  intros m k a H. apply P. apply in_flat_map in H. destruct H as (x & H & X). apply in_flat_map. eauto.
Qed.
Lemma modest_okl W e : modest W e -> okl W (says e "categorical") e.
Proof.
  intros [M1 M2 MT M3 M4]. split; [|split; [exact M2|now split]]. intros w H. split; [|now apply M4]. intros [B|[-> B]]; [exact (M1 w H B)|]. exact (M3 H B).
Qed.
Lemma says_dec e w : says e w \/ ~ says e w.
Proof. unfold says. destruct (in_dec (list_eq_dec ascii_dec) (s_ w) (flat_map atoms e)); [now left|now right]. Qed.

Theorem C114_plot : forall (W : world) (E : env) (e : list expr),
  tame W -> counts W -> modest W e -> defined (plot_eval W E e).
Proof.
  intros W E e T CW M. apply (plot_eval_def W E T CW (says e "categorical") (says_dec e "categorical")). now apply modest_okl.
Qed.
Print Assumptions C114_plot.
Theorem C114_draw : forall (W : world) (E : env) (e : list expr), tame W -> defined (draw_eval W E e).
Proof. intros. now apply draw_eval_def. Qed.
Print Assumptions C114_draw.

Lemma s_eval W : tame W -> safe_table (eval_table W).
Proof.
  intro T. unfold eval_table. cbv zeta. tbl.
  - apply safe_upd. apply d_string.
  - apply safe_updf. intros a l. apply def_ended. unfold layer_resize_cmd. destruct a as [|x [|y [|z a]]]; cbn [snd]; try apply def_err.
    + unfold layer_resize_paper. destruct (assoc _ _) as [[? ?]|]; cbn [snd]; [apply def_ret|apply def_err].
    + destruct (measure_read _ _ [x; y]); cbn [snd]; try apply def_err. destruct (measure_read _ _ [y]); cbn [snd]; first [apply def_err|apply def_ret].
  - apply safe_updf. intros a l. apply def_ended. unfold layer_set_dpi_cmd. destruct a as [|x [|y a]]; cbn [snd]; try apply def_err.
    destruct (expr_to_float64 _ _); cbn [snd]; first [apply def_err|apply def_ret].
  - apply safe_updf. intros a l. unfold set_font_cmd. destruct a as [|x [|y a]]; try apply def_err. now apply d_font.
  - apply safe_updf. intros a l. apply def_ended. unfold layer_set_font_size_cmd. destruct a as [|x [|y a]]; cbn [snd]; try apply def_err.
    destruct (measure_read _ _ _); cbn [snd]; first [apply def_err|apply def_ret].
Qed.
Lemma rest_some W e : has_command e -> rest (eval_table W) e [] [] <> [].
Proof.
  intros (x & I & K) N. destruct (rest_nil (eval_table W) e [] N) as [_ F]. rewrite filter_ext_knows in F.
  assert (X : In x (content e)) by (apply filter_In; now rewrite K). rewrite F in X. exact X.
Qed.
Theorem C114_commands : forall (W : world) (E : env) (e : list expr),
  tame W -> counts W -> modest W e -> has_command e -> defined (eval_exprs W E e).
Proof.
  intros W E e T CW M HC. unfold eval_exprs, run_collect. rewrite collect_is.
  assert (D : defined (options (eval_table W) e (E, s_ "plot"))).
  { unfold options. apply def_bind; [|intros [s r] _; apply def_ret]. apply collect_defined. now apply s_eval. }
  destruct (options (eval_table W) e (E, s_ "plot")) as [[E1 name]| | | |]; cbn [bind]; try apply def_err; try apply def_throw; try (destruct D; congruence).
  destruct name as [|c name]; [apply def_err|]. pose proof (rest_some W e HC) as R.
  assert (O : okl W (says e "categorical") (rest (eval_table W) e [] [])).
  { eapply okl_incl; [|now apply modest_okl]. intros x I. apply rest_from in I. cbn [In] in I. tauto. }
  destruct (rest (eval_table W) e [] []) as [|x r]; [congruence|]. unfold modules. cbn [assoc].
  destruct (str_eqb (c :: name) (s_ "draw")); [apply def_bind; [now apply draw_eval_def|intros; apply def_ret]|].
  destruct (str_eqb (c :: name) (s_ "plot")); [|apply def_err].
  apply def_bind; [|intros; apply def_ret]. exact (plot_eval_def W E1 T CW _ (says_dec e "categorical") _ O).
Qed.
Print Assumptions C114_commands.

(** What the tool does with a program text. *)
Theorem C114_text : forall (W : world) (E : env) (input : str),
  tame W -> counts W ->
  (forall e, plist_parse input = Ret e -> modest W e /\ has_command e) -> defined (eval_text W E input).
Proof.
  intros W E input T CW M. unfold eval_text. apply def_bind.
  - destruct (plist_total input) as [[e ->]| ->]; [apply def_ret|apply def_err].
  - intros e Q. destruct (M e Q) as [M1 M2]. now apply C114_commands.
Qed.
Print Assumptions C114_text.

Lemma parse_all_def f l : defined (parse_all f l).
Proof.
  induction l as [|v l IH]; cbn [parse_all]; [apply def_ret|]. apply def_bind; [|intros [b c] _; apply def_bind; [exact IH|intros; apply def_ret]].
  destruct (C39_total f v black) as [[r ->]| ->]; [apply def_ret|apply def_throw].
Qed.
Lemma layer_def W defaults fonts : tame W -> defined defaults -> defined (layer_create W defaults fonts).
Proof.
  intros T D. unfold layer_create. apply def_bind; [unfold color_palette_default; destruct (assoc _ _); [apply parse_all_def|apply def_err]|].
  intros pal _. apply def_bind; [exact D|]. intros f _. apply def_bind; [|intros; apply def_ret].
  revert f. induction fonts as [|n fonts IH]; intro f; [apply def_ret|]. apply def_bind; [apply T|]. intros; apply IH.
Qed.
Lemma flags_def l : forall f, defined (flags_parse l f).
Proof. induction l as [|o l IH]; intro f; cbn [flags_parse]; [apply def_ret|]. destruct (find_flag o); [apply IH|apply def_err]. Qed.

(** The tool ends with a status, whatever the options and the files are, unless the evaluation has
    succeeded and a number of the picture cannot be printed. *)
Theorem C114_tool : forall (W : world) (version : str) (defaults : outcome font) (stdin : str) (o : os) (opts : list opt) (args : list str),
  tame W -> counts W -> defined defaults ->
  (forall text e, program_text W stdin args = Some text -> plist_parse text = Ret e -> modest W e /\ has_command e) ->
  (exists r, main_ W version defaults stdin o opts args = Ret r) \/
  (exists fonts E0 text E l,
     layer_create W defaults fonts = Ret E0 /\ program_text W stdin args = Some text /\ eval_text W E0 text = Ret (E, l) /\
     ~ defined (svg_of W version E l)).
Proof.
  intros W version defaults stdin o opts args T CW D M.
  unfold main_. pose proof (flags_def opts flags0) as F.
  destruct (flags_parse opts flags0) as [f| | | |]; [|left; eexists; reflexivity|left; eexists; reflexivity|destruct F; congruence|destruct F; congruence]; cbn [bind].
  unfold cli_run. destruct (fl_version f); [left; eexists; reflexivity|]. destruct (fl_help f); [left; eexists; reflexivity|].
  destruct args as [|path [|x args]]; [left; eexists; reflexivity| |left; eexists; reflexivity].
  assert (DF : defined (choose_format f)).
  { unfold choose_format. destruct (fl_format f); [apply def_ret|]. destruct (str_eqb _ _); [apply def_ret|]. destruct (str_eqb _ _); [apply def_ret|apply def_err]. }
  destruct (choose_format f) as [fmt| | | |]; [|left; eexists; reflexivity|left; eexists; reflexivity|destruct DF; congruence|destruct DF; congruence]; cbn [bind].
  pose proof (layer_def W defaults (fl_fonts f) T D) as DL.
  destruct (layer_create W defaults (fl_fonts f)) as [E0| | | |] eqn:L; [|left; eexists; reflexivity|left; eexists; reflexivity|destruct DL; congruence|destruct DL; congruence]; cbn [bind].
  assert (I : (if str_eqb path (s_ "-") then Ret stdin else match w_read_file W path with Some t => Ret t | None => Err end) =
    match program_text W stdin [path] with Some t => Ret t | None => Err end).
  { unfold program_text. destruct (str_eqb path (s_ "-")); reflexivity. }
  rewrite I. destruct (program_text W stdin [path]) as [text|] eqn:P; cbn [bind]; [|left; eexists; reflexivity].
  assert (DE : defined (eval_text W E0 text)) by (apply C114_text; auto; intros e Q; exact (M text e eq_refl Q)).
  destruct (eval_text W E0 text) as [[E l]| | | |] eqn:EV; [|left; eexists; reflexivity|left; eexists; reflexivity|destruct DE; congruence|destruct DE; congruence]; cbn [bind].
  destruct (fl_export f) as [|c target]; [left; eexists; reflexivity|]. destruct fmt.
  - assert (DD : defined (svg_of W version E l) \/ ~ defined (svg_of W version E l)).
    { destruct (svg_of W version E l); [left; apply def_ret|left; apply def_err|left; apply def_throw|right; intros [U V]; congruence..]. }
    destruct DD as [DD|DD]; [|right; now exists (fl_fonts f), E0, text, E, l].
    left. destruct (svg_of W version E l) as [t| | | |]; cbn [bind]; [match goal with |- context [str_eqb ?a ?b] => destruct (str_eqb a b) end; eexists; reflexivity|eexists; reflexivity|eexists; reflexivity|destruct DD; congruence|destruct DD; congruence].
  - left. cbn [bind]. match goal with |- context [str_eqb ?a ?b] => destruct (str_eqb a b) end; eexists; reflexivity.
Qed.
Print Assumptions C114_tool.
