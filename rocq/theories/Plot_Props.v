(** Properties of the plot elements: C70 and following. *)
From Coq Require Import Reals Lra.
From Verif Require Import Base Num Sexpr_Model Dispatch_Model Dispatch_Spec Data_Model Data_Spec Data_Proofs Scale_Model Scale_Spec Scale_Proofs Scale_Proofs4
  Units_Model Color_Model Geo_Model Svg_Model Geojson_Model Cmd_Model Cmd_Spec Cmd_Proofs Style_Model Plot_Model Plot_Spec Plot_Proofs Plot_Parts Plot_Loops.
Local Open Scope R_scope.

(* ------------------------------------------------------------------ C70 *)
(** C70. A lines element draws its data: with the positions xs, ys that the element's scales give
    the two columns, the drawn paths pass through all points (x_i, y_i) of the plot area in the
    order of the data, one path per group; markers and labels follow. *)
Theorem C70_lines : forall (W : world) (E : env) (p : plot) (e : list expr) (out : list draw_command),
  lines_draw W E p e = Ret out ->
  exists sx sy stroke msize mshape mcolor lb bx by_ groups xs ys paths marks texts,
    element_scale W "x" e (p_sx p) = Ret sx /\ element_scale W "y" e (p_sy p) = Ret sy /\
    options (stroke_options W E) e (stroke_with (pt W E (15 / 10)) (e_fg E)) = Ret stroke /\
    setting "marker-size" (rd_size W E) e (Fin 0) = Ret msize /\
    setting "marker-shape" (marker_configure W) e Disk = Ret mshape /\
    options (color_options W E ["color"; "marker-color"]%string) e (e_fg E) = Ret mcolor /\
    options (label_options W E (rd_size W E)) e (plain_labels W E) = Ret lb /\
    load_lines W (source_of e) = Ret ((bx, by_), groups) /\
    to_unit W sx bx = Ret xs /\ to_unit W sy by_ = Ret ys /\
    length xs = databuf_len xr bx /\ length ys = length xs /\ (0 < length xs)%nat /\
    let clip := plot_clip W E p in
    out = map (fun q => shape_of q stroke fill0 None) paths ++ marks ++ texts /\
    length paths = S (length groups) /\
    Forall (fun q => open_line (vertices q) q) paths /\
    concat (map vertices paths) = map (spot (w_d W) clip) (combine xs ys) /\
    (if xlt (Fin 0) msize
     then drawn (fun _ q => draw_marker W E mshape (spot (w_d W) clip q) msize mcolor) (combine xs ys) marks
     else marks = []) /\
    let pad := nonzero_or (lb_pad lb) (unit_from_em (w_d W) (k W (4 / 10)) (lb_size lb)) in
    labels_beside W E lb HCenter VBottom
      (map (fun q => let v := spot (w_d W) clip q in
                     mk_vec2 (vx v) (xadd (w_d W) (xadd (w_d W) (vy v) msize) pad)) (combine xs ys)) texts.
Proof.
  intros W E p e out H. unfold lines_draw in H. inv_bind H. destruct v as [[c b] groups].
  unfold lines_configure in A. inv_bind A. rename v into c1. inv_bind A. destruct v as [b1 g1].
  destruct (databuf_len xr (fst b1) =? databuf_len xr (snd b1))%nat eqn:Leq; cbn [negb] in A; [|discriminate].
  destruct (databuf_len xr (fst b1) =? 0)%nat eqn:Lz; [discriminate|]. injection A as -> -> ->.
  apply Nat.eqb_eq in Leq. apply Nat.eqb_neq in Lz.
  destruct (lines_parts W E e p c A0) as (X & Y & Sr & St & Ms & Mk & Lb & Mc). rewrite Sr in A1.
  inv_bind H. rename v into xs. inv_bind H. rename v into ys. cbv zeta in H.
  inv_bind H. rename v into ls, A3 into HL. inv_bind H. rename v into ms, A3 into HM. inv_bind H. rename v into ts, A3 into HT.
  injection H as <-. rename A into HX, A2 into HY.
  pose proof (to_unit_length W _ _ _ HX) as LX. pose proof (to_unit_length W _ _ _ HY) as LY.
  assert (LXY : length xs = length ys) by lia.
  set (P := map (spot (w_d W) (plot_clip W E p)) (combine xs ys)).
  assert (LP : length P = length xs) by (unfold P; rewrite map_length; now apply combine_len).
  assert (G : forall i, (i < length P)%nat ->
      (let* x := at_ xs i in let* y := at_ ys i in Ret (place_pt W (plot_clip W E p) x y)) = Ret (nth i P (mk_vec2 NaN NaN))).
  { intros i I. rewrite LP in I.
    destruct (nth_error xs i) as [x|] eqn:NX; [|apply nth_error_None in NX; lia].
    destruct (nth_error ys i) as [y|] eqn:NY; [|apply nth_error_None in NY; lia].
    unfold at_. rewrite NX, NY. cbn [bind]. f_equal. symmetry. apply nth_error_nth.
    unfold P. rewrite nth_error_map. rewrite (proj2 (nth_combine xs ys i x y)) by auto. reflexivity. }
  pose proof (load_lines_starts W _ _ _ A1) as ST. rewrite <- LX, <- LY in ST.
  unfold group_ends, group_points in HL.
  destruct (groups_drawn P (mk_vec2 NaN NaN) _ (fun pts => draw_path_ (polyline pts) (l_stroke c) fill0)
             G groups 0%nat _ ls ST ltac:(lia) HL) as (parts & LPa & -> & C).
  exists (l_sx c), (l_sy c), (l_stroke c), (l_msize c), (l_marker c), (l_mcolor c), (l_lbl c), (fst b), (snd b), groups,
    xs, ys, (map polyline parts), ms, ts.
  split; [exact X|]. split; [exact Y|]. split; [exact St|]. split; [exact Ms|]. split; [exact Mk|]. split; [exact Mc|]. split; [exact Lb|].
  split; [rewrite A1; now destruct b|]. split; [exact HX|]. split; [exact HY|]. split; [exact LX|]. split; [lia|].
  split; [lia|]. cbv zeta. split.
  { f_equal. clear. induction parts as [|q parts IH]; cbn [flat_map map]; [reflexivity|]. rewrite IH. reflexivity. }
  split; [now rewrite map_length|]. split.
  { apply Forall_forall. intros q I. apply in_map_iff in I as (l & <- & _). rewrite vertices_polyline. apply polyline_open. }
  split.
  { rewrite map_map. rewrite (map_ext _ (fun l => l)) by apply vertices_polyline. rewrite map_id, C.
    rewrite Nat.sub_0_r, Nat.min_l by lia. rewrite <- LP. apply map_nth_seq. }
  split.
  { destruct (xlt (Fin 0) (l_msize c)); [|injection HM as <-; reflexivity].
    rewrite (loop2 xs ys (fun _ x y => draw_marker W E (l_marker c) (place_pt W (plot_clip W E p) x y) (l_msize c) (l_mcolor c)) LXY) in HM.
    apply (draw_each_drawn (fun _ q => draw_marker W E (l_marker c) (spot (w_d W) (plot_clip W E p) q) (l_msize c) (l_mcolor c))).
    rewrite <- HM. apply draw_each_ext. clear. induction (numbered (combine xs ys)) as [|[i [x y]] l IH]; constructor; auto. }
  apply (draw_labels_ok W E (l_lbl c) xs ys (fun _ x y => mk_vec2 (px_ W (plot_clip W E p) x)
           (xadd (w_d W) (xadd (w_d W) (py_ W (plot_clip W E p) y) (l_msize c))
              (nonzero_or (lb_pad (l_lbl c)) (unit_from_em (w_d W) (k W (4 / 10)) (lb_size (l_lbl c))))))) in HT; [|exact LXY].
  rewrite <- (numbered_map (combine xs ys)) at 1. rewrite map_map. exact HT.
Qed.
Print Assumptions C70_lines.

(** Without rounding, for numbers on linear axes: the drawn lines pass exactly through the points
    of the page that belong to the data. *)
Theorem C70_lines_exact : forall (W : world) (E : env) (p : plot) (e : list expr) (out : list draw_command)
    (sx sy : scale) (ax bx ay by_ x0 y0 w h : R) (cx cy : databuf xr) (groups : list nat) (xs ys : list R),
  exact_world W -> lines_draw W E p e = Ret out ->
  element_scale W "x" e (p_sx p) = Ret sx -> element_scale W "y" e (p_sy p) = Ret sy ->
  linear_over sx ax bx -> linear_over sy ay by_ -> plot_clip W E p = rect x0 y0 w h ->
  load_lines W (source_of e) = Ret ((cx, cy), groups) -> holds W cx xs -> holds W cy ys ->
  length xs = length ys /\ (0 < length xs)%nat /\
  exists stroke paths rest, out = map (fun q => shape_of q stroke fill0 None) paths ++ rest /\
    length paths = S (length groups) /\
    Forall (fun q => open_line (vertices q) q) paths /\
    concat (map vertices paths) = map (on_page sx sy ax bx ay by_ x0 y0 w h) (combine xs ys).
Proof.
  intros W E p e out sx sy ax bx ay by_ x0 y0 w h cx cy groups xs ys X H Sx Sy Lx Ly C Ld Hx Hy.
  destruct (C70_lines W E p e out H) as (sx' & sy' & stroke & msize & mshape & mcolor & lb & bx' & by' & groups' & us & vs & paths & marks & texts
    & X1 & X2 & X3 & X4 & X5 & X6 & X7 & X8 & X9 & X10 & X11 & X12 & X13 & X14 & X15 & X16 & X17 & _).
  rewrite Sx in X1. injection X1 as <-. rewrite Sy in X2. injection X2 as <-. rewrite Ld in X8. injection X8 as <- <- <-.
  rewrite (to_unit_linear W sx cx xs ax bx X Hx Lx) in X9. injection X9 as <-.
  rewrite (to_unit_linear W sy cy ys ay by_ X Hy Ly) in X10. injection X10 as <-.
  rewrite !map_length in *. split; [congruence|]. split; [assumption|].
  exists stroke, paths, (marks ++ texts). split; [exact X14|]. split; [exact X15|]. split; [exact X16|].
  rewrite X17, C. destruct X as [-> _]. apply spots_on_page.
Qed.
Print Assumptions C70_lines_exact.

(* ------------------------------------------------------------------ C72 *)
(** C72. A points element draws one mark per data point, in order, at the place of the point,
    with the colours and sizes of the data in turn. *)
Theorem C72_points : forall (W : world) (E : env) (p : plot) (e : list expr) (out : list draw_command),
  points_draw W E p e = Ret out ->
  exists sx sy mk shape lb bx by_ cols szs xs ys marks texts,
    element_scale W "x" e (p_sx p) = Ret sx /\ element_scale W "y" e (p_sy p) = Ret sy /\
    options (mark_options W E) e (plain_marks E (pt W E 4)) = Ret mk /\
    setting "shape" (marker_configure W) e Disk = Ret shape /\
    options (label_options W E (rd_size W E) ++ font_options W) e (plain_labels W E) = Ret lb /\
    load_points W (source_of e) empty empty = Ret (bx, by_) /\
    colors_read W mk cols /\ sizes_read W mk szs /\
    to_unit W sx bx = Ret xs /\ to_unit W sy by_ = Ret ys /\
    length xs = databuf_len xr bx /\ length ys = length xs /\
    let clip := plot_clip W E p in
    out = marks ++ texts /\
    drawn (fun i q => draw_marker W E shape (spot (w_d W) clip q) (turn szs i (m_size mk)) (turn cols i (m_color mk)))
      (combine xs ys) marks /\
    let pad i := xadd (w_d W) (xmul (w_d W) (turn szs i (Fin 0)) (Fin (1 / 2)))
                   (nonzero_or (lb_pad lb) (xmul (w_d W) (lb_size lb) (k W (2 / 10)))) in
    labels_beside W E lb HCenter VBottom
      (map (fun iq => let v := spot (w_d W) clip (snd iq) in mk_vec2 (vx v) (xadd (w_d W) (vy v) (pad (fst iq))))
         (numbered (combine xs ys))) texts.
Proof.
  intros W E p e out H. unfold points_draw in H. inv_bind H. destruct v as [[[c b] cols] szs].
  unfold points_configure in A. inv_bind A. rename v into c1. inv_bind A. rename v into b1.
  destruct (databuf_len xr (fst b1) =? databuf_len xr (snd b1))%nat eqn:Leq; cbn [negb] in A; [|discriminate].
  apply Nat.eqb_eq in Leq. inv_bind A. rename A2 into HC. inv_bind A. rename A2 into HS. injection A as -> -> -> ->.
  destruct (points_parts W E e p c A0) as (X & Y & Sr & Mk & Sh & Ss & _ & Lb). rewrite Sr in A1.
  cbv zeta in H. inv_bind H. rename v into xs, A into HX. inv_bind H. rename v into ys, A into HY.
  inv_bind H. rename v into ms, A into HM. inv_bind H. rename v into ts, A into HT. injection H as <-.
  pose proof (to_unit_length W _ _ _ HX) as LX. pose proof (to_unit_length W _ _ _ HY) as LY.
  assert (LXY : length xs = length ys) by lia.
  exists (p_sx_ c), (p_sy_ c), (p_marks c), (p_shape c), (p_lbl c), (fst b), (snd b), cols, szs, xs, ys, ms, ts.
  split; [exact X|]. split; [exact Y|]. split; [exact Mk|]. split; [exact Sh|]. split; [exact Lb|].
  split; [rewrite A1; now destruct b|]. split; [now apply colors_read_of|]. split; [now apply sizes_read_of|].
  split; [exact HX|]. split; [exact HY|]. split; [exact LX|]. split; [lia|]. cbv zeta. split; [reflexivity|]. split.
  - apply (loop_drawn _ _ _ _ _ HM).
    + symmetry. now apply combine_len.
    + intros i [x y] N. apply nth_combine in N as [Nx Ny]. rewrite (at_some _ _ _ Nx), (at_some _ _ _ Ny). cbn [bind].
      rewrite Ss, !cycle_turn. unfold turn at 1. cbn [length]. now destruct (i mod 0).
  - apply (draw_labels_ok W E (p_lbl c) xs ys (fun i x y => mk_vec2 (px_ W (plot_clip W E p) x)
      (xadd (w_d W) (py_ W (plot_clip W E p) y)
         (xadd (w_d W) (half_ W (cycle szs i (Fin 0))) (nonzero_or (lb_pad (p_lbl c)) (xmul (w_d W) (lb_size (p_lbl c)) (k W (2 / 10)))))))) in HT;
      [|exact LXY].
    erewrite map_ext; [exact HT|]. intros [i [x y]]. cbn [fst snd]. rewrite cycle_turn. reflexivity.
Qed.
Print Assumptions C72_points.
