(** A plot with two elements meets the hypotheses of C71 and C83. *)
From Coq Require Import Reals Lra.
From Verif Require Import Base Num Num_Facts Sexpr_Model Dispatch_Model Dispatch_Spec Data_Model Data_Spec Data_Proofs Scale_Model Scale_Spec Scale_Proofs Scale_Proofs2 Scale_Proofs4
  Units_Model Color_Model Geo_Model Svg_Model Geojson_Model Cmd_Model Cmd_Spec Cmd_Proofs Style_Model Plot_Model Plot_Spec Plot_Proofs Plot_Parts Plot_Loops Plot_Props Plot_Inline Plot_Props5
  Axis_Model Eval_Model Range_Spec Range_Proofs Range_Draw Range_Props Range_Props2 Range_Props3 Demo.
Local Open Scope R_scope.

Definition dl : list expr := [inline "data-x" [s_ "1"; s_ "3"]; inline "data-y" [s_ "2"; s_ "6"]].
Definition dp : list expr := [inline "data-x" [s_ "0"; s_ "10"]; inline "data-y" [s_ "0"; s_ "10"]].
(** (lines (data-x (list 1 3)) (data-y (list 2 6))) (points (data-x (list 0 10)) (data-y (list 0 10))) *)
Definition two : list expr := [EList (ELit (s_ "lines") :: dl); EList (ELit (s_ "points") :: dp)].
Definition two_plot : plot := fitted_plot [1; 3; 0; 10] [2; 6; 0; 10].

Lemma points_refitted W E p tx ty xs ys : Forall2 (reads W) tx xs -> Forall2 (reads W) ty ys -> length xs = length ys ->
  s_kind (p_sx p) <> Categorical -> s_kind (p_sy p) <> Categorical ->
  points_autorange W E p [inline "data-x" tx; inline "data-y" ty] =
  Ret (mk_plot (fit_all (p_sx p) (map Fin xs)) (fit_all (p_sy p) (map Fin ys)) (p_margins p) (p_stack p)).
Proof.
  intros Fx Fy L Kx Ky. pose proof (inlined_holds W _ _ Fx) as Hx. pose proof (inlined_holds W _ _ Fy) as Hy.
  unfold points_autorange, points_configure.
  replace (run (points_table W E) [inline "data-x" tx; inline "data-y" ty] (points0 W E p)) with
    (Ret (set_p_src (mk_src [] [] [EList (ELit (s_ "list") :: map ELit tx)] [EList (ELit (s_ "list") :: map ELit ty)]) (points0 W E p)))
    by reflexivity.
  cbn [bind]. set (c := set_p_src _ _). rewrite (points_inlined W (p_src c) tx ty eq_refl). cbn [bind fst snd].
  rewrite (holds_len W _ _ Hx), (holds_len W _ _ Hy), L, Nat.eqb_refl. cbn [negb].
  change (colors_of W (p_marks c)) with (Ret (@nil color)). change (sizes_of W (p_marks c)) with (Ret (@nil xr)).
  cbn [bind fst snd]. unfold fit_x, fit_y. rewrite (fit_inlined _ tx xs (p_sx p) Kx Fx). cbn [bind p_sy p_sx p_margins p_stack].
  rewrite (fit_inlined _ ty ys (p_sy p) Ky Fy). reflexivity.
Qed.
Lemma r1 : Forall2 (reads demo) [s_ "1"; s_ "3"] [1; 3]. Proof. demo_numbers. Qed.
Lemma r2 : Forall2 (reads demo) [s_ "2"; s_ "6"] [2; 6]. Proof. demo_numbers. Qed.
Lemma r3 : Forall2 (reads demo) [s_ "0"; s_ "10"] [0; 10]. Proof. demo_numbers. Qed.
Lemma two_prepared : plot_prepare demo demo_env two plot0 = Ret two_plot.
Proof.
  change (plot_prepare demo demo_env) with (options (prepare_table demo demo_env)). unfold two. rewrite options_cons.
  change (option_of (EList (ELit (s_ "lines") :: dl))) with (Some (s_ "lines", dl)). cbv iota beta.
  change (assoc (s_ "lines") (prepare_table demo demo_env)) with (Some (ranges (lines_autorange demo demo_env))). cbv iota beta.
  unfold ranges, dl. rewrite (lines_fitted demo demo_env _ _ [1; 3] [2; 6] r1 r2 eq_refl ltac:(discriminate)). cbn [bind]. rewrite options_cons.
  change (option_of (EList (ELit (s_ "points") :: dp))) with (Some (s_ "points", dp)). cbv iota beta.
  change (assoc (s_ "points") (prepare_table demo demo_env)) with (Some (ranges (points_autorange demo demo_env))). cbv iota beta.
  unfold ranges, dp. rewrite (points_refitted demo demo_env (fitted_plot [1; 3] [2; 6]) _ _ [0; 10] [0; 10] r3 r3 eq_refl ltac:(cbn; discriminate) ltac:(cbn; discriminate)).
  reflexivity.
Qed.
Lemma demo_page : page_width demo demo_env = Fin 1600 /\ page_height demo demo_env = Fin 800.
Proof. unfold page_width, page_height, layer_get_width, layer_get_height, device_size. cbn. unfold exact. split; f_equal; lra. Qed.
Lemma two_clip : plot_clip demo demo_env two_plot = rect 0 0 1600 800.
Proof. apply fitted_clip; try apply demo_exact; try apply demo_page; lra. Qed.
Lemma two_x : linear_over (p_sx two_plot) 0 10.
Proof. apply fitted_over; [split; [cbn; tauto|intros x; cbn; intros [<-|[<-|[<-|[<-|[]]]]]; lra]..|lra]. Qed.
Lemma two_y : linear_over (p_sy two_plot) 0 10.
Proof. apply fitted_over; [split; [cbn; tauto|intros x; cbn; intros [<-|[<-|[<-|[<-|[]]]]]; lra]..|lra]. Qed.
Lemma two_evaluates : exists out, plot_eval demo demo_env two = Ret out.
Proof.
  unfold plot_eval. rewrite two_prepared. cbn [bind]. change (plot_draw demo demo_env) with (options (draw_table demo demo_env)).
  unfold two. rewrite options_cons.
  change (option_of (EList (ELit (s_ "lines") :: dl))) with (Some (s_ "lines", dl)). cbv iota beta.
  change (assoc (s_ "lines") (draw_table demo demo_env)) with (Some (shows (lines_draw demo demo_env))). cbv iota beta.
  unfold shows, dl. cbn [fst snd].
  rewrite (C70_inline demo demo_env two_plot _ _ [1; 3] [2; 6] 0 10 0 10 0 0 1600 800 demo_exact r1 r2 eq_refl ltac:(discriminate) two_x two_y two_clip).
  cbn [bind]. rewrite options_cons.
  change (option_of (EList (ELit (s_ "points") :: dp))) with (Some (s_ "points", dp)). cbv iota beta.
  change (assoc (s_ "points") (draw_table demo demo_env)) with (Some (shows (points_draw demo demo_env))). cbv iota beta.
  unfold shows, dp. cbn [fst snd].
  rewrite (C72_inline demo demo_env two_plot _ _ [0; 10] [0; 10] 0 10 0 10 0 0 1600 800 demo_exact r3 r3 eq_refl two_x two_y two_clip).
  cbn [bind]. rewrite options_nil. cbn [bind]. eexists. reflexivity.
Qed.
Lemma two_numeric ax : numeric_axis demo ax two scale0.
Proof.
  intros pre post s Q. unfold two in Q.
  assert (pre = [] \/ pre = [EList (ELit (s_ "lines") :: dl)] \/ pre = two) as [->|[->| ->]].
  { destruct pre as [|a [|b [|c pre]]]; [now left|right|right|exfalso; discriminate Q]; injection Q; intros; subst; [now left|now right]. }
  all: destruct ax; intro H; injection H as <-; discriminate.
Qed.
Example C71_inside_example :
  (exists out, plot_eval demo demo_env ([] ++ EList (ELit (s_ "lines") :: dl) :: [EList (ELit (s_ "points") :: dp)]) = Ret out) /\
  numeric_axis demo X two scale0 /\ numeric_axis demo Y two scale0 /\
  element_scale demo "x" two scale0 = Ret scale0 /\ element_scale demo "y" two scale0 = Ret scale0 /\ free_axis scale0 0 /\
  plot_data demo X two = Ret (map Fin [1; 3; 0; 10]) /\ plot_data demo Y two = Ret (map Fin [2; 6; 0; 10]) /\
  (forall k, In k (map fst (scale_options demo "x" ++ scale_options demo "y")) -> last_args k dl = None) /\
  load_lines demo (source_of dl) = Ret ((inlined [s_ "1"; s_ "3"], inlined [s_ "2"; s_ "6"]), []) /\
  holds demo (inlined [s_ "1"; s_ "3"]) [1; 3] /\ holds demo (inlined [s_ "2"; s_ "6"]) [2; 6].
Proof.
  assert (D : forall ax, plot_data demo ax two = Ret (of ax (map Fin [1; 3; 0; 10]) (map Fin [2; 6; 0; 10]))).
  { intro ax. change two with ([EList (ELit (s_ "lines") :: dl); EList (ELit (s_ "points") :: dp)]). cbn [plot_data option_of].
    replace (assoc (s_ "lines") (element_data demo ax)) with (Some (fun a => let* (b, _) := load_lines demo (source_of a) in numbers demo (of ax (fst b) (snd b)))) by (destruct ax; reflexivity).
    replace (assoc (s_ "points") (element_data demo ax)) with (Some (points_data demo ax)) by (destruct ax; reflexivity). cbv iota beta.
    change (load_lines demo (source_of dl)) with (Ret ((inlined [s_ "1"; s_ "3"], inlined [s_ "2"; s_ "6"]), @nil nat)). unfold points_data.
    change (load_points demo (source_of dp) empty empty) with (Ret (inlined [s_ "0"; s_ "10"], inlined [s_ "0"; s_ "10"])).
    cbn [bind fst snd]. destruct ax; cbn [of].
    - rewrite (numbers_holds demo _ _ (inlined_holds demo _ _ r1)), (numbers_holds demo _ _ (inlined_holds demo _ _ r3)). reflexivity.
    - rewrite (numbers_holds demo _ _ (inlined_holds demo _ _ r2)), (numbers_holds demo _ _ (inlined_holds demo _ _ r3)). reflexivity. }
  split; [exact two_evaluates|]. split; [apply two_numeric|]. split; [apply two_numeric|]. do 2 (split; [reflexivity|]). split; [repeat split|].
  split; [exact (D X)|]. split; [exact (D Y)|]. split.
  { intros k I. cbn [scale_options map fst app In] in I. repeat destruct I as [<-|I]; try reflexivity. destruct I. }
  split; [reflexivity|]. split; apply inlined_holds; [exact r1|exact r2].
Qed.
