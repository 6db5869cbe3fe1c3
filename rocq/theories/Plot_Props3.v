(** Properties of error bars, vectors, rectangles, polygons and labels: C75 to C78. *)
From Coq Require Import Reals Lra.
From Verif Require Import Base Num Sexpr_Model Dispatch_Model Dispatch_Spec Data_Model Data_Spec Data_Proofs Scale_Model Scale_Spec Scale_Proofs Scale_Proofs4
  Units_Model Color_Model Geo_Model Svg_Model Geojson_Model Cmd_Model Cmd_Spec Cmd_Proofs Style_Model Plot_Model Plot_Spec Plot_Proofs Plot_Parts Plot_Loops.
Local Open Scope R_scope.

(* ------------------------------------------------------------------ C75 *)
(** C75. An errorbars element either has x, y-low and y-high, all of the same length, or y, x-low
    and x-high. In the first case it draws one bar per data point, from low to high at x. *)
Theorem C75_errorbars_partial : forall (W : world) (E : env) (p : plot) (e : list expr) (out : list draw_command),
  errorbars_draw W E p e = Ret out ->
  exists sx sy width stroke mk cols bx bxl bxh by_ byl byh,
    element_scale W "x" e (p_sx p) = Ret sx /\ element_scale W "y" e (p_sy p) = Ret sy /\
    setting "width" (rd_size W E) e (pt W E 6) = Ret width /\
    setting "stroke-width" (rd_size W E) e (pt W E 1) = Ret stroke /\
    options (bar_color_options W E) e (plain_marks E (Fin 0)) = Ret mk /\ colors_read W mk cols /\
    column W ["data-x"]%string e = Ret bx /\ column W ["data-x-low"]%string e = Ret bxl /\ column W ["data-x-high"]%string e = Ret bxh /\
    column W ["data-y"]%string e = Ret by_ /\ column W ["data-y-low"]%string e = Ret byl /\ column W ["data-y-high"]%string e = Ret byh /\
    let clip := plot_clip W E p in
    let n := databuf_len xr in
    ((0 < n bx /\ n by_ = 0 /\ n byl = n bx /\ n byh = n bx)%nat /\
     (exists xs lows highs, to_unit W sx bx = Ret xs /\ to_unit W sy byl = Ret lows /\ to_unit W sy byh = Ret highs /\
       drawn (fun i q => let '(x, (lo, hi)) := q in
                Ret (error_bar (w_d W) (spot (w_d W) clip (x, lo)) (spot (w_d W) clip (x, hi)) width stroke (turn cols i (m_color mk))))
         (combine xs (combine lows highs)) out) \/
     (0 < n by_ /\ n bx = 0 /\ n bxl = n by_ /\ n bxh = n by_)%nat /\
     exists ys lows highs, to_unit W sy by_ = Ret ys /\ to_unit W sx bxl = Ret lows /\ to_unit W sx bxh = Ret highs /\
       drawn (fun i q => let '(y, (lo, hi)) := q in
                Ret (error_bar (w_d W) (spot (w_d W) clip (lo, y))
                       (mk_vec2 (vx (spot (w_d W) clip (hi, y))) (xadd (w_d W) (rx clip) (xmul (w_d W) y (rh clip))))
                       width stroke (turn cols i (m_color mk))))
         (combine ys (combine lows highs)) out).
Proof.
  intros W E p e out H. unfold errorbars_draw in H. inv_bind H. destruct v as [c cols].
  unfold err_configure in A. inv_bind A. rename v into c1. cbv zeta in A.
  set (n := databuf_len xr) in *.
  set (vert := ((0 <? n (e_x c1)) && (0 <? n (e_ylow c1)) && (0 <? n (e_yhigh c1)) && (n (e_y c1) =? 0))%nat) in A.
  set (horiz := ((0 <? n (e_y c1)) && (0 <? n (e_xlow c1)) && (0 <? n (e_xhigh c1)) && (n (e_x c1) =? 0))%nat) in A.
  destruct (vert && (negb (n (e_x c1) =? n (e_ylow c1))%nat || negb (n (e_x c1) =? n (e_yhigh c1))%nat)) eqn:V; [discriminate|].
  destruct (horiz && (negb (n (e_y c1) =? n (e_xlow c1))%nat || negb (n (e_y c1) =? n (e_xhigh c1))%nat)) eqn:Hz; [discriminate|].
  destruct (negb (vert || horiz)) eqn:VH; [discriminate|]. inv_bind A. rename A1 into HC. injection A as -> ->.
  destruct (err_parts W E e p c A0) as (X & Y & Cx & Cy & Cxl & Cxh & Cyl & Cyh & Wi & Sw & Mk).
  cbv zeta in H. inv_bind H. rename v into xs, A into HX. inv_bind H. rename v into xl, A into HXL. inv_bind H. rename v into xh, A into HXH.
  inv_bind H. rename v into ys, A into HY. inv_bind H. rename v into yl, A into HYL. inv_bind H. rename v into yh, A into HYH.
  inv_bind H. rename v into vs, A into HV. inv_bind H. rename v into hs, A into HH. injection H as <-.
  pose proof (to_unit_length W _ _ _ HX) as LX. pose proof (to_unit_length W _ _ _ HXL) as LXL. pose proof (to_unit_length W _ _ _ HXH) as LXH.
  pose proof (to_unit_length W _ _ _ HY) as LY. pose proof (to_unit_length W _ _ _ HYL) as LYL. pose proof (to_unit_length W _ _ _ HYH) as LYH.
  exists (e_sx c), (e_sy c), (e_barw c), (e_strokew c), (e_marks c), cols, (e_x c), (e_xlow c), (e_xhigh c), (e_y c), (e_ylow c), (e_yhigh c).
  split; [exact X|]. split; [exact Y|]. split; [exact Wi|]. split; [exact Sw|]. split; [exact Mk|]. split; [now apply colors_read_of|].
  do 6 (split; [assumption|]). cbv zeta. apply negb_false_iff, orb_true_iff in VH as [T|T]; rewrite T in *.
  - left. unfold vert in T. rewrite !andb_true_iff, !Nat.ltb_lt, Nat.eqb_eq in T. destruct T as [[[T1 T2] T3] T4].
    cbn [andb] in V. apply orb_false_iff in V as [V1 V2]. apply negb_false_iff, Nat.eqb_eq in V1, V2.
    split; [lia|]. exists xs, yl, yh. split; [exact HX|]. split; [exact HYL|]. split; [exact HYH|].
    fold n in LX, LY, LYL, LYH, LXL, LXH. unfold min3 in HH. replace (length ys) with 0%nat in HH by lia. cbn in HH. injection HH as <-.
    rewrite app_nil_r. apply (loop_drawn _ _ _ _ _ HV).
    + unfold min3. rewrite combine_length, combine_length. lia.
    + intros i [x [lo hi]] N. apply nth_combine3 in N as (Nx & Ny & Nl).
      rewrite (at_some _ _ _ Nx), (at_some _ _ _ Ny), (at_some _ _ _ Nl), cycle_turn. reflexivity.
  - right. unfold horiz in T. rewrite !andb_true_iff, !Nat.ltb_lt, Nat.eqb_eq in T. destruct T as [[[T1 T2] T3] T4].
    cbn [andb] in Hz. apply orb_false_iff in Hz as [V1 V2]. apply negb_false_iff, Nat.eqb_eq in V1, V2.
    split; [lia|]. exists ys, xl, xh. split; [exact HY|]. split; [exact HXL|]. split; [exact HXH|].
    fold n in LX, LY, LYL, LYH, LXL, LXH. unfold min3 in HV. replace (length xs) with 0%nat in HV by lia. cbn in HV. injection HV as <-.
    cbn [app]. apply (loop_drawn _ _ _ _ _ HH).
    + unfold min3. rewrite combine_length, combine_length. lia.
    + intros i [x [lo hi]] N. apply nth_combine3 in N as (Nx & Ny & Nl).
      rewrite (at_some _ _ _ Nx), (at_some _ _ _ Ny), (at_some _ _ _ Nl), cycle_turn. reflexivity.
Qed.
Print Assumptions C75_errorbars_partial.

(** The caps of a vertical bar lie across its ends, centred, and have the given width. *)
Theorem C75_caps_exact : forall (x lo hi width : R) (stroke : xr) (c : color), lo < hi ->
  error_bar exact (vec x lo) (vec x hi) (Fin width) stroke c =
  [segment (vec x lo) (vec x hi) stroke c;
   segment (vec (x - width / 2) lo) (vec (x + width / 2) lo) stroke c;
   segment (vec (x - width / 2) hi) (vec (x + width / 2) hi) stroke c].
Proof.
  intros x lo hi width stroke c L.
  assert (N : normalize exact (vsub exact (vec x hi) (vec x lo)) = vec 0 1).
  { unfold normalize, magnitude, vsub, vec, xsub, xadd, xmul, xneg, exact, xsqrt. cbn [vx vy].
    destruct Rlt_dec as [C|_]; [exfalso; nra|].
    replace (sqrt _) with (hi - lo).
    2: { symmetry. transitivity (sqrt ((hi - lo) * (hi - lo))); [f_equal; lra|]. apply sqrt_square. lra. }
    unfold xdiv. destruct Req_EM_T; [lra|]. f_equal; f_equal; unfold Rdiv; [rewrite Rplus_opp_r; lra|field; lra]. }
  unfold error_bar. rewrite N. unfold vec, vadd, vmul, xadd, xmul, exact. cbn [vx vy].
  repeat (f_equal; try lra).
Qed.
Print Assumptions C75_caps_exact.

(** A bar of length zero has no caps at numbers. *)
Theorem C75_zero_refuted : forall (x y width : R) (stroke : xr) (c : color),
  error_bar exact (vec x y) (vec x y) (Fin width) stroke c =
  [segment (vec x y) (vec x y) stroke c;
   segment (mk_vec2 NaN NaN) (mk_vec2 NaN NaN) stroke c; segment (mk_vec2 NaN NaN) (mk_vec2 NaN NaN) stroke c].
Proof.
  intros x y width stroke c.
  assert (N : normalize exact (vsub exact (vec x y) (vec x y)) = mk_vec2 NaN NaN).
  { unfold normalize, magnitude, vsub, vec, xsub, xadd, xmul, xneg, exact, xsqrt. cbn [vx vy].
    destruct Rlt_dec as [C|_]; [exfalso; nra|]. replace (sqrt _) with 0.
    2: { symmetry. transitivity (sqrt 0); [f_equal; lra|]. apply sqrt_0. }
    unfold xdiv. destruct Req_EM_T; [|lra]. unfold xsign_inf. rewrite Rplus_opp_r, Rplus_opp_r.
    destruct Rlt_dec; [lra|]. reflexivity. }
  unfold error_bar. rewrite N. reflexivity.
Qed.
Print Assumptions C75_zero_refuted.

(** C75 fails for horizontal bars: the two ends of a bar for one value of y are at different
    heights unless the plot area starts at the diagonal of the page. *)
Theorem C75_horizontal_refuted : forall (x0 y0 w h y hi : R), x0 <> y0 ->
  vy (mk_vec2 (vx (spot exact (rect x0 y0 w h) (Fin hi, Fin y))) (xadd exact (rx (rect x0 y0 w h)) (xmul exact (Fin y) (Fin h)))) <>
  vy (spot exact (rect x0 y0 w h) (Fin hi, Fin y)).
Proof. intros x0 y0 w h y hi N X. apply N. cbn in X. unfold exact in X. injection X. lra. Qed.
Print Assumptions C75_horizontal_refuted.
