(** C72-C77 for data that is written in the program: what exactly is drawn for any numbers on
    linear axes, calculating without rounding. See C70_inline for lines. *)
From Coq Require Import Reals Lra.
From Verif Require Import Base Num Sexpr_Model Dispatch_Model Dispatch_Spec Data_Model Data_Spec Data_Proofs Scale_Model Scale_Spec Scale_Proofs Scale_Proofs4
  Units_Model Color_Model Geo_Model Svg_Model Geojson_Model Cmd_Model Cmd_Spec Cmd_Proofs Style_Model Plot_Model Plot_Spec Plot_Proofs Plot_Parts Plot_Loops Plot_Inline Plot_Props2.
Local Open Scope R_scope.

(** C72 for data in the program: one disk of 4pt diameter around each point. *)
Theorem C72_inline : forall (W : world) (E : env) (p : plot) (tx ty : list str) (xs ys : list R) (ax bx ay by_ x0 y0 w h : R),
  exact_world W -> Forall2 (reads W) tx xs -> Forall2 (reads W) ty ys -> length xs = length ys ->
  linear_over (p_sx p) ax bx -> linear_over (p_sy p) ay by_ -> plot_clip W E p = rect x0 y0 w h ->
  points_draw W E p [inline "data-x" tx; inline "data-y" ty] =
  Ret (map (fun q => shape_of (add_circle exact [] (on_page (p_sx p) (p_sy p) ax bx ay by_ x0 y0 w h q) (xmul exact (pt W E 4) (Fin (1 / 2))))
                       stroke0 (solid (e_fg E)) None) (combine xs ys)).
Proof. intros. now apply points_inline. Qed.
Print Assumptions C72_inline.

(** C73 for data in the program: a bar of 10pt around each x, from zero, or the end of the axis
    that is nearer to zero, to y. *)
Theorem C73_inline : forall (W : world) (E : env) (p : plot) (tx ty : list str) (xs ys : list R) (ax bx ay by_ x0 y0 w h width : R),
  exact_world W -> Forall2 (reads W) tx xs -> Forall2 (reads W) ty ys -> length xs = length ys ->
  linear_over (p_sx p) ax bx -> linear_over (p_sy p) ay by_ -> plot_clip W E p = rect x0 y0 w h -> pt W E 10 = Fin width ->
  let posx v := x0 + unit_pos (s_inverted (p_sx p)) ax bx v * w in
  let posy v := y0 + unit_pos (s_inverted (p_sy p)) ay by_ v * h in
  let zero := if Rlt_dec 0 ay then ay else if Rlt_dec by_ 0 then by_ else 0 in
  bars_draw W E p [inline "data-x" tx; inline "data-y" ty] =
  Ret (map (fun q => shape_of (outline [vec (posx (fst q) - width / 2) (posy zero); vec (posx (fst q) - width / 2) (posy (snd q));
                                        vec (posx (fst q) + width / 2) (posy (snd q)); vec (posx (fst q) + width / 2) (posy zero)])
                       (stroke_with (Fin 0) (e_fg E)) (solid (e_fg E)) None) (combine xs ys)).
Proof.
  intros W E p tx ty xs ys ax bx ay by_ x0 y0 w h width X Fx Fy L Lx Ly C PW posx posy zero.
  rewrite (bars_inline W E p tx ty xs ys ax bx ay by_ x0 y0 w h X Fx Fy L Lx Ly C). f_equal. apply map_ext. intros [x y].
  assert (Z : clamp01 (Fin (unit_pos (s_inverted (p_sy p)) ay by_ 0)) = Fin (unit_pos (s_inverted (p_sy p)) ay by_ zero)).
  { destruct Ly as (_ & _ & _ & Lt). unfold zero, unit_pos, clamp01, xmin, xmax, xlt.
    assert (I : 0 < / (by_ - ay)) by (apply Rinv_0_lt_compat; lra).
    assert (D : (by_ - ay) / (by_ - ay) = 1) by (field; lra).
    assert (D0 : forall t, 0 < t -> 0 < t / (by_ - ay)) by (intros; unfold Rdiv; now apply Rmult_lt_0_compat).
    pose proof (D0 (by_ - ay) ltac:(lra)) as D1.
    destruct (Rlt_dec 0 ay) as [A|A]; [|destruct (Rlt_dec by_ 0) as [B|B]].
    - pose proof (D0 ay A) as D2. assert (E1 : (0 - ay) / (by_ - ay) = - (ay / (by_ - ay))) by (field; lra).
      assert (E2 : (ay - ay) / (by_ - ay) = 0) by (field; lra). rewrite E1, E2.
      destruct (s_inverted (p_sy p)); repeat (match goal with |- context [Rlt_dec ?a ?b] => destruct (Rlt_dec a b) end; try lra); f_equal; lra.
    - pose proof (D0 (0 - by_) ltac:(lra)) as D2.
      assert (E1 : (0 - ay) / (by_ - ay) = 1 + (0 - by_) / (by_ - ay)) by (field; lra). rewrite E1, D.
      destruct (s_inverted (p_sy p)); repeat (match goal with |- context [Rlt_dec ?a ?b] => destruct (Rlt_dec a b) end; try lra); f_equal; lra.
    - assert (P : 0 <= (0 - ay) / (by_ - ay)) by (unfold Rdiv; apply Rmult_le_pos; lra).
      assert (Q : 0 <= (by_ - 0) / (by_ - ay)) by (unfold Rdiv; apply Rmult_le_pos; lra).
      assert (E1 : (by_ - 0) / (by_ - ay) = 1 - (0 - ay) / (by_ - ay)) by (field; lra). rewrite E1 in Q.
      destruct (s_inverted (p_sy p)); repeat (match goal with |- context [Rlt_dec ?a ?b] => destruct (Rlt_dec a b) end; try lra); f_equal; lra. }
  cbn [fst snd] in *. rewrite Z, PW, (proj1 (C73_corners_exact x0 y0 w h _ _ _ 0 width)). cbv zeta.
  fold (posy zero) (posy y). replace (x0 + _ * w + 0) with (posx x) by (unfold posx; lra). reflexivity.
Qed.
Print Assumptions C73_inline.

(** C74 for data in the program: the area between the line through the points and the line at zero. *)
Theorem C74_inline : forall (W : world) (E : env) (p : plot) (tx ty : list str) (xs ys : list R) (ax bx ay by_ x0 y0 w h : R),
  exact_world W -> Forall2 (reads W) tx xs -> Forall2 (reads W) ty ys -> length xs = length ys ->
  linear_over (p_sx p) ax bx -> linear_over (p_sy p) ay by_ -> ay <= 0 <= by_ -> plot_clip W E p = rect x0 y0 w h ->
  let page := on_page (p_sx p) (p_sy p) ax bx ay by_ x0 y0 w h in
  let high := map page (combine xs ys) in
  let base := map (fun x => page (x, 0)) xs in
  areas_draw W E p [inline "data-x" tx; inline "data-y" ty] =
  Ret [shape_of (outline (high ++ rev base)) stroke0 (solid (e_fg E)) None;
       shape_of (polyline high) (stroke_with (Fin 0) (e_fg E)) fill0 None;
       shape_of (polyline (rev base)) (stroke_with (Fin 0) (e_fg E)) fill0 None].
Proof.
  intros W E p tx ty xs ys ax bx ay by_ x0 y0 w h X Fx Fy L Lx Ly Z C page high base.
  rewrite (areas_inline W E p tx ty xs ys ax bx ay by_ x0 y0 w h X Fx Fy L Lx Ly C).
  assert (B : map (fun v => spot exact (rect x0 y0 w h) (Fin (unit_pos (s_inverted (p_sx p)) ax bx v), clamp01 (Fin (unit_pos (s_inverted (p_sy p)) ay by_ 0)))) xs = base).
  { unfold base. apply map_ext. intro x. unfold page, on_page, spot, vec.
    assert (K : clamp01 (Fin (unit_pos (s_inverted (p_sy p)) ay by_ 0)) = Fin (unit_pos (s_inverted (p_sy p)) ay by_ 0)).
    { destruct Ly as (_ & _ & _ & Lt). pose proof (Rinv_0_lt_compat (by_ - ay) ltac:(lra)).
      assert (P : 0 <= (0 - ay) / (by_ - ay)) by (unfold Rdiv; apply Rmult_le_pos; lra).
      assert (Q : 0 <= (by_ - 0) / (by_ - ay)) by (unfold Rdiv; apply Rmult_le_pos; lra).
      assert (E1 : (by_ - 0) / (by_ - ay) = 1 - (0 - ay) / (by_ - ay)) by (field; lra). rewrite E1 in Q.
      unfold unit_pos, clamp01, xmin, xmax, xlt.
      destruct (s_inverted (p_sy p)); repeat (match goal with |- context [Rlt_dec ?a ?b] => destruct (Rlt_dec a b) end; try lra); f_equal; lra. }
    cbn [fst snd] in *. rewrite K. reflexivity. }
  cbv zeta. cbn [fst snd] in *. rewrite B. reflexivity.
Qed.
Print Assumptions C74_inline.

(** C75 for data in the program: a bar from low to high at each x, 1pt thick, with caps of 6pt. *)
Theorem C75_inline : forall (W : world) (E : env) (p : plot) (tx tl th : list str) (xs lows highs : list R) (ax bx ay by_ x0 y0 w h : R),
  exact_world W -> Forall2 (reads W) tx xs -> Forall2 (reads W) tl lows -> Forall2 (reads W) th highs ->
  length lows = length xs -> length highs = length xs -> xs <> [] ->
  linear_over (p_sx p) ax bx -> linear_over (p_sy p) ay by_ -> plot_clip W E p = rect x0 y0 w h ->
  let page := on_page (p_sx p) (p_sy p) ax bx ay by_ x0 y0 w h in
  errorbars_draw W E p [inline "data-x" tx; inline "data-y-low" tl; inline "data-y-high" th] =
  Ret (flat_map (fun q => let '(x, (lo, hi)) := q in error_bar exact (page (x, lo)) (page (x, hi)) (pt W E 6) (pt W E 1) (e_fg E))
         (combine xs (combine lows highs))).
Proof. intros. now apply errorbars_inline with (ys := xs). Qed.
Print Assumptions C75_inline.

(** C76 for data in the program, axes not inverted. *)
Theorem C76_inline : forall (W : world) (E : env) (p : plot) (tx ty tdx tdy : list str) (xs ys dxs dys : list R) (ax bx ay by_ x0 y0 w h : R),
  exact_world W -> Forall2 (reads W) tx xs -> Forall2 (reads W) ty ys -> Forall2 (reads W) tdx dxs -> Forall2 (reads W) tdy dys ->
  length xs = length ys -> length dxs = length xs -> length dys = length xs ->
  linear_over (p_sx p) ax bx -> linear_over (p_sy p) ay by_ -> s_inverted (p_sx p) = false -> s_inverted (p_sy p) = false ->
  plot_clip W E p = rect x0 y0 w h ->
  let page := on_page (p_sx p) (p_sy p) ax bx ay by_ x0 y0 w h in
  vectors_draw W E p [inline "data-x" tx; inline "data-y" ty; inline "data-dx" tdx; inline "data-dy" tdy] =
  Ret (flat_map (fun q => let '((x, y), (dx, dy)) := q in arrow exact (page (x, y)) (page (x + dx, y + dy)) (pt W E 1) (e_fg E))
         (combine (combine xs ys) (combine dxs dys))).
Proof. intros. now apply vectors_inline. Qed.
Print Assumptions C76_inline.

Lemma box_exact cx cy lw lh : box_around exact (vec cx cy) (Fin lw) (Fin lh) =
  outline [vec (cx + lw / 2) (cy + lh / 2); vec (cx + lw / 2) (cy - lh / 2); vec (cx - lw / 2) (cy - lh / 2); vec (cx - lw / 2) (cy + lh / 2)].
Proof. unfold box_around, xdiv. destruct Req_EM_T; [lra|]. unfold vec, exact. reflexivity. Qed.

(** C77 for data in the program: the box of a point spans from x - dx/2 to x + dx/2 and from
    y - dy/2 to y + dy/2. *)
Theorem C77_inline : forall (W : world) (E : env) (p : plot) (tx ty tdx tdy : list str) (xs ys dxs dys : list R) (ax bx ay by_ x0 y0 w h : R),
  exact_world W -> Forall2 (reads W) tx xs -> Forall2 (reads W) ty ys -> Forall2 (reads W) tdx dxs -> Forall2 (reads W) tdy dys ->
  length xs = length ys -> length dxs = length xs -> length dys = length xs ->
  linear_over (p_sx p) ax bx -> linear_over (p_sy p) ay by_ -> s_inverted (p_sx p) = false -> s_inverted (p_sy p) = false ->
  plot_clip W E p = rect x0 y0 w h ->
  let page := on_page (p_sx p) (p_sy p) ax bx ay by_ x0 y0 w h in
  rectangles_draw W E p [inline "data-x" tx; inline "data-y" ty; inline "data-size-x" tdx; inline "data-size-y" tdy] =
  Ret (map (fun q => let '((x, y), (dx, dy)) := q in
              shape_of (outline [page (x + dx / 2, y + dy / 2); page (x + dx / 2, y - dy / 2);
                                 page (x - dx / 2, y - dy / 2); page (x - dx / 2, y + dy / 2)]) stroke0 (solid (e_fg E)) (Some false))
         (combine (combine xs ys) (combine dxs dys))).
Proof.
  intros W E p tx ty tdx tdy xs ys dxs dys ax bx ay by_ x0 y0 w h X Fx Fy Fdx Fdy L Ldx Ldy Lx Ly Ix Iy C page.
  rewrite (rectangles_inline W E p tx ty xs ys ax bx ay by_ x0 y0 w h X Fx Fy L Lx Ly C tdx tdy dxs dys Fdx Fdy Ldx Ldy).
  f_equal. apply map_ext. intros [[x y] [dx dy]]. f_equal. destruct Lx as (_ & _ & _ & Lx), Ly as (_ & _ & _ & Ly).
  unfold page, on_page, unit_pos. rewrite Ix, Iy. cbn [fst snd]. rewrite box_exact.
  assert (H : forall a b c e a' b' c' e', a = a' -> b = b' -> c = c' -> e = e' ->
    outline [vec a b; vec a c; vec e c; vec e b] = outline [vec a' b'; vec a' c'; vec e' c'; vec e' b']) by congruence.
  apply H; field; lra.
Qed.
Print Assumptions C77_inline.

(** C72 fails for the option shapes (a list of marker shapes to be used in turn): whatever it is
    given, nothing is drawn. *)
Theorem C72_shapes_refuted : forall (W : world) (E : env) (p : plot) (e : list expr) (out : list draw_command),
  last_args (s_ "shapes") e <> None -> points_draw W E p e <> Ret out.
Proof.
  intros W E p e out N H. unfold points_draw, points_configure in H.
  destruct (run (points_table W E) e (points0 W E p)) as [c| | | |] eqn:R; try discriminate.
  apply points_parts in R as (_ & _ & _ & _ & _ & _ & Z & _). congruence.
Qed.
Print Assumptions C72_shapes_refuted.
