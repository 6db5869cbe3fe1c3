(** Concrete cases that meet the hypotheses of C70-C79: a plot on a page of 1600 x 800 pixels
    with both axes from 0 to 10. *)
From Coq Require Import Reals Lra.
From Verif Require Import Base Num Sexpr_Model Dispatch_Model Dispatch_Spec Data_Model Data_Spec Data_Proofs Scale_Model Scale_Spec Scale_Proofs Scale_Proofs4
  Units_Model Color_Model Geo_Model Svg_Model Geojson_Model Cmd_Model Cmd_Spec Cmd_Proofs Style_Model Plot_Model Plot_Spec Plot_Proofs Plot_Parts Plot_Loops
  Plot_Inline Plot_Props2 Plot_Props3 Plot_Props4 Plot_Props5 Demo.
Local Open Scope R_scope.

Lemma demo_on_page a b : on_page ten ten 0 10 0 10 0 0 1600 800 (a, b) = vec (a * 160) (b * 80).
Proof. unfold on_page, unit_pos, vec. cbn [s_inverted ten fst snd]. f_equal; f_equal; field. Qed.
Lemma vec_eq a b a' b' : a = a' -> b = b' -> vec a b = vec a' b'. Proof. congruence. Qed.

Definition d1 : list str := [s_ "1"; s_ "3"].
Definition d2 : list str := [s_ "2"; s_ "6"].
Lemma reads1 : Forall2 (reads demo) d1 [1; 3]. Proof. demo_numbers. Qed.
Lemma reads2 : Forall2 (reads demo) d2 [2; 6]. Proof. demo_numbers. Qed.

(** (lines (data-x (list 1 3)) (data-y (list 2 6))) *)
Example C70_example : lines_draw demo demo_env demo_plot [inline "data-x" d1; inline "data-y" d2] =
  Ret [shape_of [MoveTo (vec 160 160); LineTo (vec 480 480)] (stroke_with (Fin 4) black) fill0 None].
Proof.
  rewrite (C70_inline demo demo_env demo_plot d1 d2 [1; 3] [2; 6] 0 10 0 10 0 0 1600 800
             demo_exact reads1 reads2 eq_refl ltac:(discriminate) demo_linear demo_linear demo_clip).
  rewrite demo_pt. cbn [combine map polyline p_sx p_sy demo_plot e_fg demo_env]. rewrite !demo_on_page.
  rewrite (vec_eq (1 * 160) (2 * 80) 160 160), (vec_eq (3 * 160) (6 * 80) 480 480) by lra.
  replace (15 / 10 / 72 * 192) with 4 by lra. reflexivity.
Qed.

(** (points (data-x (list 1 3)) (data-y (list 2 6))) *)
Example C72_example : points_draw demo demo_env demo_plot [inline "data-x" d1; inline "data-y" d2] =
  Ret [shape_of (add_circle exact [] (vec 160 160) (Fin (16 / 3))) stroke0 (solid black) None;
       shape_of (add_circle exact [] (vec 480 480) (Fin (16 / 3))) stroke0 (solid black) None].
Proof.
  rewrite (C72_inline demo demo_env demo_plot d1 d2 [1; 3] [2; 6] 0 10 0 10 0 0 1600 800
             demo_exact reads1 reads2 eq_refl demo_linear demo_linear demo_clip).
  rewrite demo_pt. cbn [combine map p_sx p_sy demo_plot e_fg demo_env]. rewrite !demo_on_page.
  rewrite (vec_eq (1 * 160) (2 * 80) 160 160), (vec_eq (3 * 160) (6 * 80) 480 480) by lra.
  replace (xmul exact (Fin (4 / 72 * 192)) (Fin (1 / 2))) with (Fin (16 / 3)) by (cbn; unfold exact; f_equal; lra). reflexivity.
Qed.

(** (bars (data-x (list 1 3)) (data-y (list 2 6))) *)
Example C73_example : exists out, bars_draw demo demo_env demo_plot [inline "data-x" d1; inline "data-y" d2] = Ret out /\
  length out = 2%nat /\
  nth_error out 0 = Some (shape_of (outline [vec (440 / 3) 0; vec (440 / 3) 160; vec (520 / 3) 160; vec (520 / 3) 0])
                            (stroke_with (Fin 0) black) (solid black) None).
Proof.
  rewrite (C73_inline demo demo_env demo_plot d1 d2 [1; 3] [2; 6] 0 10 0 10 0 0 1600 800 (80 / 3)
             demo_exact reads1 reads2 eq_refl demo_linear demo_linear demo_clip).
  2: { rewrite demo_pt. f_equal. lra. }
  eexists. split; [reflexivity|]. split; [reflexivity|]. cbn [nth_error map combine fst snd p_sx p_sy demo_plot s_inverted ten e_fg demo_env].
  unfold unit_pos. destruct (Rlt_dec 0 0); [lra|]. destruct (Rlt_dec 10 0); [lra|].
  f_equal. f_equal.
  assert (H : forall a b c e a' b' c' e', a = a' -> b = b' -> c = c' -> e = e' ->
    outline [vec a b; vec a c; vec e c; vec e b] = outline [vec a' b'; vec a' c'; vec e' c'; vec e' b']) by congruence.
  apply H; field.
Qed.

(** (areas (data-x (list 1 3)) (data-y (list 2 6))) *)
Example C74_example : exists rest, areas_draw demo demo_env demo_plot [inline "data-x" d1; inline "data-y" d2] =
  Ret (shape_of (outline [vec 160 160; vec 480 480; vec 480 0; vec 160 0]) stroke0 (solid black) None :: rest).
Proof.
  rewrite (C74_inline demo demo_env demo_plot d1 d2 [1; 3] [2; 6] 0 10 0 10 0 0 1600 800
             demo_exact reads1 reads2 eq_refl demo_linear demo_linear ltac:(lra) demo_clip).
  cbn [combine map rev app p_sx p_sy demo_plot e_fg demo_env]. rewrite !demo_on_page.
  rewrite (vec_eq (1 * 160) (2 * 80) 160 160), (vec_eq (3 * 160) (6 * 80) 480 480), (vec_eq (1 * 160) (0 * 80) 160 0), (vec_eq (3 * 160) (0 * 80) 480 0) by lra.
  eexists. reflexivity.
Qed.

(** (errorbars (data-x (list 1 3)) (data-y-low (list 1 3)) (data-y-high (list 2 6))): the first bar. *)
Example C75_example : exists rest, errorbars_draw demo demo_env demo_plot [inline "data-x" d1; inline "data-y-low" d1; inline "data-y-high" d2] =
  Ret (segment (vec 160 80) (vec 160 160) (Fin (8 / 3)) black :: segment (vec 152 80) (vec 168 80) (Fin (8 / 3)) black ::
       segment (vec 152 160) (vec 168 160) (Fin (8 / 3)) black :: rest).
Proof.
  rewrite (C75_inline demo demo_env demo_plot d1 d1 d2 [1; 3] [1; 3] [2; 6] 0 10 0 10 0 0 1600 800
             demo_exact reads1 reads1 reads2 eq_refl eq_refl ltac:(discriminate) demo_linear demo_linear demo_clip).
  rewrite !demo_pt. cbn [combine map flat_map p_sx p_sy demo_plot e_fg demo_env]. rewrite !demo_on_page.
  rewrite (C75_caps_exact (1 * 160) (1 * 80) (2 * 80)) by lra. eexists. cbn [app].
  rewrite (vec_eq (1 * 160) (1 * 80) 160 80), (vec_eq (1 * 160) (2 * 80) 160 160) by lra.
  replace (1 * 160 - 6 / 72 * 192 / 2) with 152 by lra. replace (1 * 160 + 6 / 72 * 192 / 2) with 168 by lra.
  replace (1 * 80) with 80 by lra. replace (2 * 80) with 160 by lra. replace (1 / 72 * 192) with (8 / 3) by lra. reflexivity.
Qed.

(** (vectors (data-x (list 1 3)) (data-y (list 2 6)) (data-dx (list 2 6)) (data-dy (list 1 3))) *)
Example C76_example : vectors_draw demo demo_env demo_plot [inline "data-x" d1; inline "data-y" d2; inline "data-dx" d2; inline "data-dy" d1] =
  Ret (arrow exact (vec 160 160) (vec 480 240) (Fin (8 / 3)) black ++ arrow exact (vec 480 480) (vec 1440 720) (Fin (8 / 3)) black).
Proof.
  rewrite (C76_inline demo demo_env demo_plot d1 d2 d2 d1 [1; 3] [2; 6] [2; 6] [1; 3] 0 10 0 10 0 0 1600 800
             demo_exact reads1 reads2 reads2 reads1 eq_refl eq_refl eq_refl demo_linear demo_linear eq_refl eq_refl demo_clip).
  rewrite !demo_pt. cbn [combine map flat_map p_sx p_sy demo_plot e_fg demo_env]. rewrite !demo_on_page, app_nil_r.
  rewrite (vec_eq (1 * 160) (2 * 80) 160 160), (vec_eq (3 * 160) (6 * 80) 480 480), (vec_eq ((1 + 2) * 160) ((2 + 1) * 80) 480 240),
    (vec_eq ((3 + 6) * 160) ((6 + 3) * 80) 1440 720) by lra.
  replace (1 / 72 * 192) with (8 / 3) by lra. reflexivity.
Qed.

(** (rectangles (data-x (list 1 3)) (data-y (list 2 6)) (data-size-x (list 2 6)) (data-size-y (list 1 3))) *)
Example C77_example : exists rest, rectangles_draw demo demo_env demo_plot [inline "data-x" d1; inline "data-y" d2; inline "data-size-x" d2; inline "data-size-y" d1] =
  Ret (shape_of (outline [vec 320 200; vec 320 120; vec 0 120; vec 0 200]) stroke0 (solid black) (Some false) :: rest).
Proof.
  rewrite (C77_inline demo demo_env demo_plot d1 d2 d2 d1 [1; 3] [2; 6] [2; 6] [1; 3] 0 10 0 10 0 0 1600 800
             demo_exact reads1 reads2 reads2 reads1 eq_refl eq_refl eq_refl demo_linear demo_linear eq_refl eq_refl demo_clip).
  cbn [combine map flat_map p_sx p_sy demo_plot e_fg demo_env]. eexists. f_equal. f_equal. f_equal. rewrite !demo_on_page.
  assert (H : forall a b c e a' b' c' e', a = a' -> b = b' -> c = c' -> e = e' ->
    outline [vec a b; vec a c; vec e c; vec e b] = outline [vec a' b'; vec a' c'; vec e' c'; vec e' b']) by congruence.
  apply H; field.
Qed.

(** (labels (data-x (list 1 3)) (data-y (list 2 6)) (labels a b)): text at both points, the
    first one, of height 2, is 2 below the upper end. *)
Definition two_labels : list expr := [inline "data-x" d1; inline "data-y" d2; EList [ELit (s_ "labels"); ELit (s_ "a"); ELit (s_ "b")]].
Example C79_example : labels_draw demo demo_env demo_plot two_labels =
  Ret (text_shapes (mk_compound [black] [] [] []) [[MoveTo (vec 160 (640 - 352 / 15))]] ++
       text_shapes (mk_compound [black] [] [] []) [[MoveTo (vec 480 (320 - 352 / 15))]]).
Proof.
  unfold labels_draw.
  replace (labels_configure demo demo_env demo_plot two_labels) with
    (Ret (mk_labels (mk_src [] [] [EList (ELit (s_ "list") :: map ELit d1)] [EList (ELit (s_ "list") :: map ELit d2)]) ten ten
            (mk_lbl [s_ "a"; s_ "b"] [] (Fin (11 / 72 * 192)) black (Fin 0)), (inlined d1, inlined d2))).
  2: { unfold labels_configure. cbn.
       assert (L : lbl0 demo demo_env = mk_lbl [] [] (Fin (11 / 72 * 192)) black (Fin 0)).
       { unfold lbl0, page_font_size, layer_get_font_size, device_size. cbn. unfold unit_from_pt, xdiv. cbn. destruct Req_EM_T; [lra|reflexivity]. }
       rewrite L. reflexivity. }
  cbn [bind fst snd t_sx t_sy t_lbl]. rewrite demo_clip.
  rewrite (to_unit_linear demo ten _ [1; 3] 0 10 demo_exact (inlined_holds _ _ _ reads1) demo_linear). cbn [bind].
  rewrite (to_unit_linear demo ten _ [2; 6] 0 10 demo_exact (inlined_holds _ _ _ reads2) demo_linear). cbn [bind].
  unfold draw_labels, with_index. cbn [lb_text length seq combine map draw_each at_ nth_error bind fst snd].
  unfold unit_pos, nonzero_or. cbn [lb_pad s_inverted ten]. unfold xeq. destruct Req_EM_T; [|lra].
  unfold draw_text_. cbn. unfold exact.
  replace (0 + (1 - 0) / (10 - 0) * 1600) with 160 by field. replace (0 + (3 - 0) / (10 - 0) * 1600) with 480 by field.
  replace (0 + (1 + - ((2 - 0) / (10 - 0))) * 800 + - (8 / 10 * (11 / 72 * 192))) with (640 - 352 / 15) by field.
  replace (0 + (1 + - ((6 - 0) / (10 - 0))) * 800 + - (8 / 10 * (11 / 72 * 192))) with (320 - 352 / 15) by field. reflexivity.
Qed.

(** (polygons (data (geojson p.json))) with the triangle (0, 0), (4, 0), (4, 6) on a fresh plot:
    the axes are fitted to it. *)
Definition triangle : list vec2 := [vec 0 0; vec 4 0; vec 4 6; vec 0 0].
Lemma triangle_loads : load_polys demo [EList [ELit (s_ "geojson"); EVal (s_ "p.json")]] [] = Ret [(triangle, [])].
Proof. vm_compute. reflexivity. Qed.
Ltac decide_lt := repeat (match goal with |- context [Rlt_dec ?a ?b] => destruct (Rlt_dec a b); try lra end; cbn).
Lemma fit_linear vs lo hi : fit_values (map Fin vs) scale0 = mk_scale Linear None None (Fin 10) false (Fin 0) (Some (Fin lo)) (Some (Fin hi)) [] [] ->
  lo < hi -> linear_over (fit_values (map Fin vs) scale0) lo hi.
Proof. intros -> L. split; [reflexivity|]. unfold scale_min, scale_max. cbn. unfold exact. repeat split; try (f_equal; lra). Qed.
Lemma fit_x_triangle : fit_values (map vx triangle) scale0 = mk_scale Linear None None (Fin 10) false (Fin 0) (Some (Fin 0)) (Some (Fin 4)) [] [].
Proof. unfold fit_values, triangle, vec. cbn [map vx fold_left]. unfold fit. cbn. decide_lt. reflexivity. Qed.
Lemma fit_y_triangle : fit_values (map vy triangle) scale0 = mk_scale Linear None None (Fin 10) false (Fin 0) (Some (Fin 0)) (Some (Fin 6)) [] [].
Proof. unfold fit_values, triangle, vec. cbn [map vy fold_left]. unfold fit. cbn. decide_lt. reflexivity. Qed.
Example C78_example : exists p1, polygons_draw demo demo_env (mk_plot scale0 scale0 (Fin 0, Fin 0, Fin 0, Fin 0) [])
    [EList [ELit (s_ "data"); EList [ELit (s_ "geojson"); EVal (s_ "p.json")]]] =
  Ret (p1, [shape_of (outline [vec 0 0; vec 1600 0; vec 1600 800; vec 0 0]) (stroke_with (Fin (8 / 3)) black) fill0 None]).
Proof.
  set (p := mk_plot scale0 scale0 _ _). unfold polygons_draw, polys_configure.
  replace (run (polys_table demo demo_env) [EList [ELit (s_ "data"); EList [ELit (s_ "geojson"); EVal (s_ "p.json")]]] (polys0 demo demo_env p))
    with (let* v := load_polys demo [EList [ELit (s_ "geojson"); EVal (s_ "p.json")]] [] in Ret (set_g_polys v (polys0 demo demo_env p))).
  2: { reflexivity. }
  rewrite triangle_loads. cbn [bind]. set (c := set_g_polys _ _). change (g_polys c) with [(triangle, @nil (list vec2))].
  change (g_sx c) with scale0. change (g_sy c) with scale0. change (p_sx p) with scale0. change (p_sy p) with scale0.
  unfold boundary_points. cbn [flat_map fst]. rewrite !app_nil_r, fit_x_triangle, fit_y_triangle. cbn [bind].
  set (sx := mk_scale _ _ _ _ _ _ _ (Some (Fin 4)) _ _). set (sy := mk_scale _ _ _ _ _ _ _ (Some (Fin 6)) _ _).
  eexists.
  change (plot_clip demo demo_env p) with (plot_clip demo demo_env demo_plot). rewrite demo_clip.
  set (c1 := set_g_sy _ _). change (g_polys c1) with [(triangle, @nil (list vec2))]. change (g_sx c1) with sx. change (g_sy c1) with sy.
  assert (LX : linear_over sx 0 4) by (repeat split; try lra; unfold scale_min, scale_max; cbn; unfold exact; f_equal; lra).
  assert (LY : linear_over sy 0 6) by (repeat split; try lra; unfold scale_min, scale_max; cbn; unfold exact; f_equal; lra).
  assert (K : forall x y, 0 <= x <= 4 -> 0 <= y <= 6 ->
    (let* u := scale_translate exact exact sx (Fin x) in let* v := scale_translate exact exact sy (Fin y) in
     Ret (mk_vec2 (xadd exact (xmul exact (clamp01 u) (Fin 1600)) (Fin 0)) (xadd exact (xmul exact (clamp01 v) (Fin 800)) (Fin 0)))) =
    Ret (vec (x * 400) (y * 800 / 6))).
  { intros x y Hx Hy. destruct (C78_corner_exact sx sy 0 4 0 6 0 0 1600 800 x y LX LY Hx Hy) as (u & v & -> & -> & G). cbn [bind].
    unfold limited in G. cbn [fst snd rw rh rx ry rect] in G. rewrite G. unfold on_page, unit_pos. cbn [s_inverted sx sy fst snd]. f_equal. apply vec_eq; field. }
  change (w_d demo) with exact. change (w_f demo) with exact. unfold triangle. cbn [forM fst snd vx vy vec rw rh rx ry rect].
  rewrite !K by lra. cbn [bind map]. change (g_stroke c1) with (stroke_with (pt demo demo_env 1) black). rewrite demo_pt. change (g_fill c1) with fill0.
  rewrite (vec_eq (0 * 400) (0 * 800 / 6) 0 0), (vec_eq (4 * 400) (0 * 800 / 6) 1600 0), (vec_eq (4 * 400) (6 * 800 / 6) 1600 800) by lra.
  replace (1 / 72 * 192) with (8 / 3) by lra. reflexivity.
Qed.
