(** C116: the order of options that are about different things does not matter. *)
From Coq Require Import Reals Lra Permutation.
From Verif Require Import Base Num Sexpr_Model Dispatch_Model Data_Model Scale_Model Units_Model Color_Model Svg_Model Legend_Model Plist_Model Cmd_Model Cmd_Spec Cmd_Proofs
  Style_Model Plot_Model Axis_Model Eval_Model Eval_Spec Eval_Proofs Eval_Props Demo Eval_Examples
  Order_Spec Order_Proofs Order_Proofs5 Order_Proofs7.
Local Open Scope string_scope.
Local Open Scope list_scope.

(** Two programs that differ only in the order of settings, plot options and options of commands
    about different things give the same page with the same picture, or neither gives any. *)
Theorem C116_program : forall (W : world) (E : env) (e e' : list expr) (r : env * list draw_command),
  same_program e e' -> class_of e (s_ "plot") -> eval_exprs W E e = Ret r <-> eval_exprs W E e' = Ret r.
Proof. intros W E e e' r S C. now apply eval_same_program. Qed.
Print Assumptions C116_program.

(** The same for the texts that the programs are written in. *)
Theorem C116_text : forall (W : world) (E : env) (t t' : str) (e e' : list expr) (r : env * list draw_command),
  plist_parse t = Ret e -> plist_parse t' = Ret e' -> same_program e e' -> class_of e (s_ "plot") ->
  eval_text W E t = Ret r <-> eval_text W E t' = Ret r.
Proof. intros W E t t' e e' r P P' S C. unfold eval_text. rewrite P, P'. cbn [bind]. now apply C116_program. Qed.
Print Assumptions C116_text.

(** Options of a command that are all about different things can be given in any order. *)
Theorem C116_any_order : forall (W : world) (E : env) (c : string) (T : topics) (o o' : list expr) (x x' : expr) (l r : list expr) (v : env * list draw_command),
  In (c, T) commands -> all_apart T o -> Permutation o o' -> option_of x = Some (s_ c, o) -> option_of x' = Some (s_ c, o') ->
  class_of (l ++ x :: r) (s_ "plot") -> eval_exprs W E (l ++ x :: r) = Ret v <-> eval_exprs W E (l ++ x' :: r) = Ret v.
Proof.
  intros W E c T o o' x x' l r v I A P O O' C. apply C116_program; [|exact C]. apply sp_command. eapply sm_options; eauto. now apply any_order.
Qed.
Print Assumptions C116_any_order.

(** Settings of the page can stand before or after the rest of the program. *)
Theorem C116_settings_first : forall (W : world) (E : env) (a b : list expr) (v : env * list draw_command),
  Forall of_page a -> Forall (fun x => ~ of_page x) b -> class_of (a ++ b) (s_ "plot") ->
  eval_exprs W E (a ++ b) = Ret v <-> eval_exprs W E (b ++ a) = Ret v.
Proof.
  intros W E a b v A B C. apply C116_program; [|exact C]. clear C.
  assert (X : forall l x b r, of_page x -> Forall (fun x => ~ of_page x) b -> same_program (l ++ x :: b ++ r) (l ++ b ++ x :: r)).
  { intros l x c. revert l. induction c as [|y c IH]; intros l r Px F; [apply sp_same|]. inversion F; subst. cbn [app].
    eapply sp_trans; [apply sp_page; assumption|]. specialize (IH (l ++ [y]) r Px ltac:(assumption)). rewrite <- !app_assoc in IH. exact IH. }
  induction A as [|x a Px A IH]; [rewrite app_nil_r; apply sp_same|].
  assert (Y : forall l p q, same_program p q -> same_program (l ++ p) (l ++ q)).
  { clear. intros l p q H. induction H as [|m x y r P N|m x y r Ap|m x y r Ap|m x x' r C|p q _ IH|p q r _ IH1 _ IH2]; rewrite ?app_assoc.
    - apply sp_same.
    - now apply sp_page.
    - now apply sp_pages.
    - now apply sp_plot.
    - now apply sp_command.
    - now apply sp_sym.
    - eapply sp_trans; eauto. }
  cbn [app]. eapply sp_trans; [apply (Y [x] (a ++ b) (b ++ a) IH)|]. apply (X [] x b a Px B).
Qed.
Print Assumptions C116_settings_first.

(** What is drawn by a command and the range it takes do not depend on such an order, on every plot. *)
Theorem C116_elements : forall (W : world) (E : env) (p : plot) (e e' : list expr),
  (reordered about_lines e e' -> forall v, lines_draw W E p e = Ret v <-> lines_draw W E p e' = Ret v) /\
  (reordered about_points e e' -> forall v, points_draw W E p e = Ret v <-> points_draw W E p e' = Ret v) /\
  (reordered about_bars e e' -> forall v, bars_draw W E p e = Ret v <-> bars_draw W E p e' = Ret v) /\
  (reordered about_areas e e' -> forall v, areas_draw W E p e = Ret v <-> areas_draw W E p e' = Ret v) /\
  (reordered about_errorbars e e' -> forall v, errorbars_draw W E p e = Ret v <-> errorbars_draw W E p e' = Ret v) /\
  (reordered about_labels_ e e' -> forall v, labels_draw W E p e = Ret v <-> labels_draw W E p e' = Ret v) /\
  (reordered about_vectors e e' -> forall v, vectors_draw W E p e = Ret v <-> vectors_draw W E p e' = Ret v) /\
  (reordered about_rectangles e e' -> forall v, rectangles_draw W E p e = Ret v <-> rectangles_draw W E p e' = Ret v) /\
  (reordered about_polygons e e' -> forall v, polygons_draw W E p e = Ret v <-> polygons_draw W E p e' = Ret v).
Proof.
  intros W E p e e'. split; [|split; [|split; [|split; [|split; [|split; [|split; [|split]]]]]]]; intro R.
  - apply (lines_cmd W E p _ _ R).
  - apply (points_cmd W E p _ _ R).
  - apply (bars_cmd W E p _ _ R).
  - apply (areas_cmd W E p _ _ R).
  - apply (errorbars_cmd W E p _ _ R).
  - apply (labels_cmd W E p _ _ R).
  - apply (vectors_cmd W E p _ _ R).
  - apply (rectangles_cmd W E p _ _ R).
  - apply (polygons_cmd W E p _ _ R).
Qed.
Print Assumptions C116_elements.

(** Different names are not enough: color fills too, and takes the place of a fill before it. *)
Definition red : expr := w1 "color" ["#ff0000"].
Definition blue : expr := w1 "fill" ["#0000ff"].
Definition background_with (o : list expr) : expr := EList (ELit (s_ "background") :: o).
Ltac number := repeat match goal with |- context [IZR ?x] => lazymatch x with read_digits ?a ?b ?c => let z := eval vm_compute in x in change x with z end end.
Theorem C116_names_refuted : exists (W : world) (E : env) (v : env * list draw_command),
  eval_exprs W E [background_with [red; blue]] = Ret v /\ eval_exprs W E [background_with [blue; red]] <> Ret v.
Proof.
  pose (g := fun v : env * list draw_command => map (fun c => map c_r (fills (dc_style c))) (snd v)).
  assert (A : exists v, eval_exprs demo demo_env [background_with [red; blue]] = Ret v /\ g v = [[Fin 0]]).
  { eexists. split; [reflexivity|]. unfold g. cbn -[xeq Z.mul Z.add]. destruct (xeq _ _); cbn; destruct (Req_EM_T 255 0); try lra; do 3 f_equal; unfold exact; number; lra. }
  assert (B : exists v, eval_exprs demo demo_env [background_with [blue; red]] = Ret v /\ g v = [[Fin 1]]).
  { eexists. split; [reflexivity|]. unfold g. cbn -[xeq Z.mul Z.add]. destruct (xeq _ _); cbn; destruct (Req_EM_T 255 0); try lra; do 3 f_equal; unfold exact; number; lra. }
  destruct A as (v & A & A'), B as (w & B & B'). exists demo, demo_env, v. split; [exact A|]. rewrite B. intro K. injection K as ->. rewrite A' in B'.
  injection B'. lra.
Qed.
Print Assumptions C116_names_refuted.
(** scale-x: categorical takes the place of a scale-x-padding before it. *)
Theorem C116_padding_refuted : forall (W : world) (E : env) (n : str) (p : plot),
  plot_prepare W E [EList [ELit (s_ "scale-x-padding"); ELit n]; w1 "scale-x" ["categorical"]] plot0 = Ret p ->
  s_padding (p_sx p) = Fin (1 / 2).
Proof.
  intros W E n p. change (plot_prepare W E) with (options (prepare_table W E)). rewrite options_cons. cbn [option_of].
  change (assoc (s_ "scale-x-padding") (prepare_table W E)) with (Some (updf p_sx (fun e s => let* v := rd_float W e in Ret (with_padding v s)) set_sx)).
  cbv iota beta. intro H. apply bind_ret in H. destruct H as (q & _ & H). rewrite options_cons in H. cbn [option_of w1] in H.
  change (assoc (s_ "scale-x") (prepare_table W E)) with (Some (updf p_sx (rd_kind W) set_sx)) in H. cbv iota beta in H.
  apply bind_ret in H. destruct H as (t & H & K). injection K as <-. unfold updf in H. apply bind_ret in H. destruct H as (s & H & K). injection K as <-.
  cbn in H. injection H as <-. reflexivity.
Qed.
Print Assumptions C116_padding_refuted.

(** A plot written in two orders, and what becomes of it. *)
Example C116_case : same_program
  [w1 "size" ["300"; "200"]; w1 "limit-x" ["0"; "10"]; w1 "limit-y" ["0"; "5"]; background_with [w1 "stroke-color" ["#ff0000"]; blue]]
  [w1 "limit-y" ["0"; "5"]; w1 "limit-x" ["0"; "10"]; background_with [blue; w1 "stroke-color" ["#ff0000"]]; w1 "size" ["300"; "200"]].
Proof.
  assert (P : of_page (w1 "size" ["300"; "200"])) by (exists (s_ "size"); do 2 eexists; split; reflexivity).
  assert (N : forall x, is_setting x = false -> ~ of_page x) by (intros x H K; apply of_page_is in K; congruence).
  eapply sp_trans; [apply (sp_page []); [exact P|apply N; reflexivity]|]. cbn [app].
  eapply sp_trans; [apply (sp_page [_]); [exact P|apply N; reflexivity]|]. cbn [app].
  eapply sp_trans; [apply (sp_page [_; _] _ _ []); [exact P|apply N; reflexivity]|]. cbn [app].
  eapply sp_trans; [apply (sp_plot [] (w1 "limit-x" ["0"; "10"]) (w1 "limit-y" ["0"; "5"]))|].
  { do 6 eexists. split; [reflexivity|]. split; [reflexivity|]. split; [vm_compute; reflexivity|]. split; [vm_compute; reflexivity|].
    intros t I J. cbn [In] in I, J. repeat match goal with H : _ \/ _ |- _ => destruct H as [H|H] end; congruence || contradiction. }
  cbn [app]. apply (sp_command [_; _] _ _ [_]). eapply sm_options; [reflexivity|reflexivity|do 12 right; left; reflexivity|].
  apply (ro_swap _ [] _ _ []). do 6 eexists. split; [reflexivity|]. split; [reflexivity|]. split; [vm_compute; reflexivity|]. split; [vm_compute; reflexivity|].
  intros t I J. cbn [In] in I, J. repeat match goal with H : _ \/ _ |- _ => destruct H as [H|H] end; congruence || contradiction.
Qed.
Example C116_value : exists v,
  eval_exprs demo demo_env [w1 "size" ["300"; "200"]; w1 "limit-x" ["0"; "10"]; w1 "limit-y" ["0"; "5"]; background_with [w1 "stroke-color" ["#ff0000"]; blue]] = Ret v /\ length (snd v) = 1%nat.
Proof. eexists. split; reflexivity. Qed.
(** The options of a legend and of its item. *)
Example C116_legend_case : same_command
  (EList [ELit (s_ "legend"); EList [ELit (s_ "item"); w1 "label" ["a"]; w1 "marker-shape" ["circle"]]])
  (EList [ELit (s_ "legend"); EList [ELit (s_ "item"); w1 "marker-shape" ["circle"]; w1 "label" ["a"]]]).
Proof.
  eapply (sm_item _ _ _ _ [] []); [reflexivity|reflexivity|reflexivity|reflexivity|]. apply (ro_swap _ [] _ _ []). do 6 eexists.
  split; [reflexivity|]. split; [reflexivity|]. split; [vm_compute; reflexivity|]. split; [vm_compute; reflexivity|].
  intros t I J. cbn [In] in I, J. repeat match goal with H : _ \/ _ |- _ => destruct H as [H|H] end; congruence || contradiction.
Qed.
