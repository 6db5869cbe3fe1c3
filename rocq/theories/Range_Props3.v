(** C71: points and bars as whole programs, where the automatic range fails, and an example. *)
From Coq Require Import Reals Lra.
From Verif Require Import Base Num Num_Facts Sexpr_Model Dispatch_Model Dispatch_Spec Data_Model Data_Spec Data_Proofs Scale_Model Scale_Spec Scale_Proofs Scale_Proofs2 Scale_Proofs4
  Units_Model Color_Model Geo_Model Svg_Model Geojson_Model Cmd_Model Cmd_Spec Cmd_Proofs Style_Model Plot_Model Plot_Spec Plot_Proofs Plot_Parts Plot_Loops Plot_Props Plot_Inline Plot_Props5
  Axis_Model Eval_Model Range_Spec Range_Proofs Range_Draw Range_Props Range_Props2 Demo.
Local Open Scope R_scope.

Lemma fitted_clip W E xs ys w h : exact_world W -> page_width W E = Fin w -> page_height W E = Fin h -> 0 <= w -> 0 <= h ->
  plot_clip W E (fitted_plot xs ys) = rect 0 0 w h.
Proof.
  intros Ex Pw Ph Nw Nh. unfold plot_clip, fitted_plot. cbn [p_stack p_margins]. unfold layout_margin_box, rect. cbn [rx ry rw rh]. rewrite Pw, Ph.
  destruct Ex as [-> _]. unfold xsub, xneg, xadd, xmax, xlt, exact. repeat destruct Rlt_dec; f_equal; f_equal; lra.
Qed.
Lemma fitted_inverted vs : s_inverted (fit_all scale0 (map Fin vs)) = false.
Proof. now destruct (fit_all_fields scale0 (map Fin vs)) as (_ & _ & _ & _ & _ & _ & I & _). Qed.
Ltac fit_both Fx Fy tx ty xs ys := cbn [bind fst snd]; unfold fit_x, fit_y;
  rewrite (fit_inlined _ tx xs (p_sx plot0) ltac:(discriminate) Fx); cbn [bind p_sy p_sx plot0 p_margins p_stack];
  try (rewrite (fit_inlined _ ty ys scale0 ltac:(discriminate) Fy); cbn [bind p_sy p_sx plot0 p_margins p_stack]).

Lemma vectors_fitted W E tx ty tdx tdy xs ys : Forall2 (reads W) tx xs -> Forall2 (reads W) ty ys -> length xs = length ys ->
  vectors_autorange W E plot0 [inline "data-x" tx; inline "data-y" ty; inline "data-dx" tdx; inline "data-dy" tdy] = Ret (fitted_plot xs ys).
Proof.
  intros Fx Fy L. pose proof (inlined_holds W _ _ Fx) as Hx. pose proof (inlined_holds W _ _ Fy) as Hy.
  unfold vectors_autorange, vectors_configure.
  match goal with |- context [run _ _ ?s0] =>
    replace (run (vectors_table W E) [inline "data-x" tx; inline "data-y" ty; inline "data-dx" tdx; inline "data-dy" tdy] s0) with
    (Ret (set_v_dy (inlined tdy) (set_v_dx (inlined tdx)
      (set_v_src (mk_src [] [] [EList (ELit (s_ "list") :: map ELit tx)] [EList (ELit (s_ "list") :: map ELit ty)]) s0))))
    by reflexivity end.
  cbn [bind]. set (c := set_v_dy _ _). rewrite (points_inlined W (v_src c) tx ty eq_refl). cbn [bind fst snd].
  rewrite (holds_len W _ _ Hx), (holds_len W _ _ Hy), L, Nat.eqb_refl. cbn [negb].
  change (colors_of W (v_marks c)) with (Ret (@nil color)). change (sizes_of W (v_marks c)) with (Ret (@nil xr)).
  fit_both Fx Fy tx ty xs ys. reflexivity.
Qed.
Lemma points_fitted W E tx ty xs ys : Forall2 (reads W) tx xs -> Forall2 (reads W) ty ys -> length xs = length ys ->
  points_autorange W E plot0 [inline "data-x" tx; inline "data-y" ty] = Ret (fitted_plot xs ys).
Proof.
  intros Fx Fy L. pose proof (inlined_holds W _ _ Fx) as Hx. pose proof (inlined_holds W _ _ Fy) as Hy.
  unfold points_autorange, points_configure.
  replace (run (points_table W E) [inline "data-x" tx; inline "data-y" ty] (points0 W E plot0)) with
    (Ret (set_p_src (mk_src [] [] [EList (ELit (s_ "list") :: map ELit tx)] [EList (ELit (s_ "list") :: map ELit ty)]) (points0 W E plot0)))
    by reflexivity.
  cbn [bind]. set (c := set_p_src _ _). rewrite (points_inlined W (p_src c) tx ty eq_refl). cbn [bind fst snd].
  rewrite (holds_len W _ _ Hx), (holds_len W _ _ Hy), L, Nat.eqb_refl. cbn [negb].
  change (colors_of W (p_marks c)) with (Ret (@nil color)). change (sizes_of W (p_marks c)) with (Ret (@nil xr)).
  fit_both Fx Fy tx ty xs ys. reflexivity.
Qed.
Lemma fit_nothing W s : s_kind s <> Categorical -> fit_data W s empty = Ret s.
Proof. intro K. unfold fit_data, fit_buf. destruct (s_kind s); try congruence; reflexivity. Qed.
Lemma bars_fitted W E tx ty xs ys : Forall2 (reads W) tx xs -> Forall2 (reads W) ty ys -> length xs = length ys ->
  bars_autorange W E plot0 [inline "data-x" tx; inline "data-y" ty] = Ret (fitted_plot xs ys).
Proof.
  intros Fx Fy L. pose proof (inlined_holds W _ _ Fx) as Hx. pose proof (inlined_holds W _ _ Fy) as Hy.
  unfold bars_autorange, bars_configure.
  replace (run (bars_table W E) [inline "data-x" tx; inline "data-y" ty] (bars0 W E plot0)) with
    (Ret (set_b_y (inlined ty) (set_b_x (inlined tx) (bars0 W E plot0)))) by reflexivity.
  cbn [bind]. set (c := set_b_y _ _). change (b_x c) with (inlined tx). change (b_y c) with (inlined ty).
  rewrite (holds_len W _ _ Hx), (holds_len W _ _ Hy), L, Nat.eqb_refl. cbn [negb].
  change (databuf_len xr (b_xlow c)) with 0%nat. change (databuf_len xr (b_ylow c)) with 0%nat. cbn [Nat.eqb negb andb bind].
  change (b_x c) with (inlined tx). change (b_y c) with (inlined ty). change (b_xlow c) with empty. change (b_ylow c) with empty.
  fit_both Fx Fy tx ty xs ys.
  rewrite (fit_nothing W (fit_all scale0 (map Fin xs))) by (rewrite fit_kind; discriminate). cbn [bind p_sy p_sx p_margins p_stack].
  rewrite (fit_inlined W ty ys scale0 ltac:(discriminate) Fy). cbn [bind p_sy p_sx p_margins p_stack].
  rewrite (fit_nothing W (fit_all scale0 (map Fin ys))) by (rewrite fit_kind; discriminate). reflexivity.
Qed.

(** C71. The program (points (data-x (list ...)) (data-y (list ...))). *)
Theorem C71_points_program : forall (W : world) (E : env) (tx ty : list str) (xs ys : list R) (lx ux ly uy w h : R),
  exact_world W -> Forall2 (reads W) tx xs -> Forall2 (reads W) ty ys -> length xs = length ys ->
  least lx xs -> greatest ux xs -> least ly ys -> greatest uy ys -> lx < ux -> ly < uy ->
  page_width W E = Fin w -> page_height W E = Fin h -> 0 <= w -> 0 <= h ->
  plot_eval W E [EList [ELit (s_ "points"); inline "data-x" tx; inline "data-y" ty]] =
  Ret (map (fun q => shape_of (add_circle exact [] (vec ((fst q - lx) / (ux - lx) * w) ((snd q - ly) / (uy - ly) * h)) (xmul exact (pt W E 4) (Fin (1 / 2))))
                       stroke0 (solid (e_fg E)) None) (combine xs ys)).
Proof.
  intros W E tx ty xs ys lx ux ly uy w h Ex Fx Fy L Lx Ux Ly Uy Dx Dy Pw Ph Nw Nh.
  rewrite (single W E (s_ "points") _ (points_autorange W E) (points_draw W E) eq_refl eq_refl eq_refl).
  rewrite (points_fitted W E tx ty xs ys Fx Fy L). cbn [bind].
  rewrite (C72_inline W E (fitted_plot xs ys) tx ty xs ys lx ux ly uy 0 0 w h Ex Fx Fy L (fitted_over xs lx ux Lx Ux Dx) (fitted_over ys ly uy Ly Uy Dy)
             (fitted_clip W E xs ys w h Ex Pw Ph Nw Nh)).
  f_equal. apply map_ext. intros [x y]. unfold on_page, fitted_plot. cbn [p_sx p_sy fst snd]. rewrite !fitted_inverted. unfold unit_pos.
  now rewrite !Rplus_0_l.
Qed.
Print Assumptions C71_points_program.

(** C71. The program (bars (data-x (list ...)) (data-y (list ...))): the range of y is that of the
    numbers alone. If all numbers are positive, all bars start at the least number, so that the
    bar of the least number has no height and the heights do not show the ratios. *)
Theorem C71_bars_program_refuted : forall (W : world) (E : env) (tx ty : list str) (xs ys : list R) (lx ux ly uy w h width : R),
  exact_world W -> Forall2 (reads W) tx xs -> Forall2 (reads W) ty ys -> length xs = length ys ->
  least lx xs -> greatest ux xs -> least ly ys -> greatest uy ys -> lx < ux -> 0 < ly < uy ->
  page_width W E = Fin w -> page_height W E = Fin h -> 0 <= w -> 0 <= h -> pt W E 10 = Fin width ->
  plot_eval W E [EList [ELit (s_ "bars"); inline "data-x" tx; inline "data-y" ty]] =
  Ret (map (fun q => let x := (fst q - lx) / (ux - lx) * w in let y := (snd q - ly) / (uy - ly) * h in
                     shape_of (outline [vec (x - width / 2) 0; vec (x - width / 2) y; vec (x + width / 2) y; vec (x + width / 2) 0])
                       (stroke_with (Fin 0) (e_fg E)) (solid (e_fg E)) None) (combine xs ys)).
Proof.
  intros W E tx ty xs ys lx ux ly uy w h width Ex Fx Fy L Lx Ux Ly Uy Dx Dy Pw Ph Nw Nh P10.
  rewrite (single W E (s_ "bars") _ (bars_autorange W E) (bars_draw W E) eq_refl eq_refl eq_refl).
  rewrite (bars_fitted W E tx ty xs ys Fx Fy L). cbn [bind].
  rewrite (C73_inline W E (fitted_plot xs ys) tx ty xs ys lx ux ly uy 0 0 w h width Ex Fx Fy L (fitted_over xs lx ux Lx Ux Dx) (fitted_over ys ly uy Ly Uy ltac:(lra))
             (fitted_clip W E xs ys w h Ex Pw Ph Nw Nh) P10).
  f_equal. apply map_ext. intros [x y]. unfold fitted_plot. cbn [p_sx p_sy fst snd]. rewrite !fitted_inverted. unfold unit_pos. cbv zeta.
  destruct (Rlt_dec 0 ly); [|lra]. rewrite !Rplus_0_l. replace ((ly - ly) / (uy - ly) * h) with 0 by (field; lra). reflexivity.
Qed.
Print Assumptions C71_bars_program_refuted.

(** C71 fails for data that is constant on an axis: every position is not a number. *)
Theorem C71_constant_refuted : forall (W : world) (E : env) (ax : axis_) (e : list expr) (p : plot) (s : scale) (v : R) (n : nat),
  plot_prepare W E e plot0 = Ret p -> numeric_axis W ax e scale0 ->
  element_scale W (name ax) e scale0 = Ret s -> free_axis s 0 ->
  plot_data W ax e = Ret (map Fin (repeat v (S n))) ->
  scale_translate exact exact (scale_of ax p) (Fin v) = Ret NaN /\
  (is32 v -> scale_translate rnd64 rnd32 (scale_of ax p) (Fin v) = Ret NaN).
Proof.
  intros W E ax e p s v n H N S (K & A & B & C) D. change (plot_prepare W E) with (options (prepare_table W E)) in H.
  destruct (prepare_data W E ax e plot0 p scale0 [] H ltac:(destruct ax; reflexivity) N) as (_ & _ & s' & vs' & B1 & B2 & B3).
  rewrite S in B1. injection B1 as <-. rewrite D in B2. injection B2 as <-. cbn [app] in B3. rewrite B3.
  apply option_scale in S as [S1 S2]. assert (U : unfitted s 0) by (repeat split; assumption).
  assert (G : forall d f, f (d v) = v -> d 0 = 0 -> scale_translate d f (fit_all s (map Fin (repeat v (Datatypes.S n)))) (Fin v) = Ret NaN).
  { intros d f Q Z. unfold scale_translate. rewrite fit_kind, K. unfold translate_linear.
    destruct (fit_bounds d f s 0 (repeat v (Datatypes.S n)) U ltac:(discriminate)) as (lo & hi & (I & _) & (J & _) & -> & ->).
    apply repeat_spec in I, J. subst. rewrite Rminus_0_r, Rplus_0_r, Q. unfold xsub, xneg, xadd.
    replace (v + - v) with 0 by lra. rewrite Z. unfold xdiv. destruct Req_EM_T; [|lra]. unfold xsign_inf.
    repeat destruct Rlt_dec; try lra. destruct (s_inverted _); reflexivity. }
  split; [apply G; reflexivity|]. intro I. apply G; [now rewrite rnd64_id, rnd32_id by auto using is32_is64|].
  unfold rnd64. apply Flocq.Core.Generic_fmt.round_0. typeclasses eauto.
Qed.
Print Assumptions C71_constant_refuted.

(** C71 fails for the tips of vectors: only where they start is in the range. *)
Theorem C71_vectors_refuted : exists (tx ty tdx tdy : list str) (out : list draw_command) (from tip : vec2) (c : color) (rest : list draw_command),
  plot_eval demo demo_env [EList [ELit (s_ "vectors"); inline "data-x" tx; inline "data-y" ty; inline "data-dx" tdx; inline "data-dy" tdy]] = Ret out /\
  page_width demo demo_env = Fin 1600 /\ out = rest ++ arrow exact from tip (pt demo demo_env 1) c /\ tip = vec 2400 800.
Proof.
  assert (Pw : page_width demo demo_env = Fin 1600 /\ page_height demo demo_env = Fin 800).
  { unfold page_width, page_height, layer_get_width, layer_get_height, device_size. cbn. unfold exact. split; f_equal; lra. }
  destruct Pw as [Pw Ph].
  set (t1 := [s_ "0"; s_ "10"]). set (t2 := [s_ "0"; s_ "5"]). set (t3 := [s_ "0"; s_ "0"]).
  assert (F1 : Forall2 (reads demo) t1 [0; 10]) by demo_numbers.
  assert (F2 : Forall2 (reads demo) t2 [0; 5]) by demo_numbers.
  assert (F3 : Forall2 (reads demo) t3 [0; 0]) by demo_numbers.
  assert (Le : least 0 [0; 10]) by (split; [now left|intros x [<-|[<-|[]]]; lra]).
  assert (Gr : greatest 10 [0; 10]) by (split; [right; now left|intros x [<-|[<-|[]]]; lra]).
  pose proof (fitted_over [0; 10] 0 10 Le Gr ltac:(lra)) as Lin.
  exists t1, t1, t2, t3. eexists. exists (vec 1600 800), (vec 2400 800), black. eexists.
  rewrite (single demo demo_env (s_ "vectors") _ (vectors_autorange demo demo_env) (vectors_draw demo demo_env) eq_refl eq_refl eq_refl).
  rewrite (vectors_fitted demo demo_env t1 t1 t2 t3 [0; 10] [0; 10] F1 F1 eq_refl). cbn [bind].
  rewrite (C76_inline demo demo_env (fitted_plot [0; 10] [0; 10]) t1 t1 t2 t3 [0; 10] [0; 10] [0; 5] [0; 0] 0 10 0 10 0 0 1600 800 demo_exact F1 F1 F2 F3
             eq_refl eq_refl eq_refl Lin Lin (fitted_inverted _) (fitted_inverted _) (fitted_clip demo demo_env _ _ 1600 800 demo_exact Pw Ph ltac:(lra) ltac:(lra))).
  split; [reflexivity|]. split; [exact Pw|]. split; [|reflexivity]. cbn [combine flat_map]. rewrite app_nil_r. f_equal.
  unfold on_page, fitted_plot. cbn [p_sx p_sy fst snd]. rewrite !fitted_inverted. unfold unit_pos.
  replace (vec (0 + (10 - 0) / (10 - 0) * 1600) (0 + (10 - 0) / (10 - 0) * 800)) with (vec 1600 800) by (unfold vec; f_equal; f_equal; lra).
  replace (vec (0 + (10 + 5 - 0) / (10 - 0) * 1600) (0 + (10 + 0 - 0) / (10 - 0) * 800)) with (vec 2400 800) by (unfold vec; f_equal; f_equal; lra).
  reflexivity.
Qed.
Print Assumptions C71_vectors_refuted.

(** The program (lines (data-x (list 1 3)) (data-y (list 2 6))) on a page of 1600 x 800: the line
    runs from one corner to the opposite one. *)
Example C71_example :
  plot_eval demo demo_env [EList [ELit (s_ "lines"); inline "data-x" [s_ "1"; s_ "3"]; inline "data-y" [s_ "2"; s_ "6"]]] =
  Ret [shape_of [MoveTo (vec 0 0); LineTo (vec 1600 800)] (stroke_with (Fin 4) black) fill0 None].
Proof.
  rewrite (C71_program demo demo_env [s_ "1"; s_ "3"] [s_ "2"; s_ "6"] [1; 3] [2; 6] 1 3 2 6 1600 800 demo_exact ltac:(demo_numbers) ltac:(demo_numbers) eq_refl).
  - rewrite demo_pt. cbn [combine map polyline fst snd e_fg demo_env].
    replace (15 / 10 / 72 * 192) with 4 by lra.
    replace (vec ((1 - 1) / (3 - 1) * 1600) ((2 - 2) / (6 - 2) * 800)) with (vec 0 0) by (unfold vec; f_equal; f_equal; lra).
    replace (vec ((3 - 1) / (3 - 1) * 1600) ((6 - 2) / (6 - 2) * 800)) with (vec 1600 800) by (unfold vec; f_equal; f_equal; lra). reflexivity.
  - split; [now left|intros x [<-|[<-|[]]]; lra]. - split; [right; now left|intros x [<-|[<-|[]]]; lra].
  - split; [now left|intros x [<-|[<-|[]]]; lra]. - split; [right; now left|intros x [<-|[<-|[]]]; lra].
  - lra. - lra.
  - unfold page_width, layer_get_width, device_size. cbn. unfold exact. f_equal; lra.
  - unfold page_height, layer_get_height, device_size. cbn. unfold exact. f_equal; lra.
  - lra. - lra.
Qed.
