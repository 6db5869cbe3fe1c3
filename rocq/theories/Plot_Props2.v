(** Properties of bars, areas, error bars and the other plot elements: C73 and following. *)
From Coq Require Import Reals Lra.
From Verif Require Import Base Num Sexpr_Model Dispatch_Model Dispatch_Spec Data_Model Data_Spec Data_Proofs Scale_Model Scale_Spec Scale_Proofs Scale_Proofs4
  Units_Model Color_Model Geo_Model Svg_Model Geojson_Model Cmd_Model Cmd_Spec Cmd_Proofs Style_Model Plot_Model Plot_Spec Plot_Proofs Plot_Parts Plot_Loops.
Local Open Scope R_scope.

(* ------------------------------------------------------------------ C73 *)
(** C73. A bars element draws one bar per data point, in order: around the position on the base
    axis, from the base line to the value. *)
Theorem C73_bars : forall (W : world) (E : env) (p : plot) (e : list expr) (out : list draw_command),
  bars_draw W E p e = Ret out ->
  exists sx sy stroke fill width widths offset offsets horizontal lb bx by_ low xs ys bases texts,
    element_scale W "x" e (p_sx p) = Ret sx /\ element_scale W "y" e (p_sy p) = Ret sy /\
    options (stroke_options W E) e (stroke_with (Fin 0) (e_fg E)) = Ret stroke /\
    options (fill_options W E) e (solid (e_fg E)) = Ret fill /\
    setting "width" (rd_size W E) e (Fin 0) = Ret width /\
    options [(s_ "widths", load_measures W)] e [] = Ret widths /\
    setting "offset" (rd_size W E) e (Fin 0) = Ret offset /\
    options [(s_ "offsets", load_measures W)] e [] = Ret offsets /\
    setting "direction" (expr_to_enum [(s_ "horizontal", true); (s_ "vertical", false)]) e false = Ret horizontal /\
    options (label_options W E (rd_measure W)) e (plain_labels W E) = Ret lb /\
    column W ["data-x"; "data-x-high"]%string e = Ret bx /\ column W ["data-y"; "data-y-high"]%string e = Ret by_ /\
    column W [if horizontal then "data-x-low" else "data-y-low"]%string e = Ret low /\
    to_unit W sx bx = Ret xs /\ to_unit W sy by_ = Ret ys /\
    length xs = databuf_len xr bx /\ length ys = length xs /\
    base_line W (if horizontal then sx else sy) low (length xs) bases /\ length bases = length xs /\
    let clip := plot_clip W E p in
    let wide i := turn widths i (nonzero_or width (pt W E 10)) in
    let off i := turn offsets i offset in
    out = map (fun ib => let '(i, (x, (y, lo))) := ib in
                         shape_of (outline (bar_corners (w_d W) horizontal clip x y lo (off i) (wide i))) stroke fill None)
            (numbered (combine xs (combine ys bases))) ++ texts /\
    let pad := nonzero_or (lb_pad lb) (xmul (w_d W) (k W (6 / 10)) (lb_size lb)) in
    labels_beside W E lb (if horizontal then HLeft else HCenter) (if horizontal then VCenter else VBottom)
      (map (fun iq => bar_label (w_d W) horizontal clip (fst (snd iq)) (snd (snd iq)) (off (fst iq)) pad)
         (numbered (combine xs ys))) texts.
Proof.
  intros W E p e out H. unfold bars_draw in H. inv_bind H. rename v into c.
  unfold bars_configure in A. inv_bind A. rename v into c1.
  destruct (databuf_len xr (b_x c1) =? databuf_len xr (b_y c1))%nat eqn:Leq; cbn [negb] in A; [|discriminate].
  destruct (negb (databuf_len xr (b_xlow c1) =? 0)%nat && negb (databuf_len xr (b_x c1) =? databuf_len xr (b_xlow c1))%nat) eqn:Lx; [discriminate|].
  destruct (negb (databuf_len xr (b_ylow c1) =? 0)%nat && negb (databuf_len xr (b_y c1) =? databuf_len xr (b_ylow c1))%nat) eqn:Ly; [discriminate|].
  injection A as ->. apply Nat.eqb_eq in Leq.
  destruct (bars_parts W E e p c A0) as (X & Y & Cx & Cy & Cxl & Cyl & St & Fi & Wi & Ws & Of & Os & Di & Lb).
  cbv zeta in H. inv_bind H. rename v into xs, A into HX. inv_bind H. rename v into ys, A into HY.
  inv_bind H. rename v into lows, A into HL. inv_bind H. rename v into z, A into HZ.
  inv_bind H. rename v into bs, A into HB. inv_bind H. rename v into ts, A into HT. injection H as <-.
  pose proof (to_unit_length W _ _ _ HX) as LX. pose proof (to_unit_length W _ _ _ HY) as LY.
  assert (LXY : length xs = length ys) by lia.
  set (low := if b_horiz c then b_xlow c else b_ylow c).
  assert (LOW : (databuf_len xr low = 0 \/ databuf_len xr low = length xs)%nat).
  { unfold low. destruct (b_horiz c).
    - destruct (Nat.eqb_spec (databuf_len xr (b_xlow c)) 0); [now left|]. right.
      destruct (Nat.eqb_spec (databuf_len xr (b_x c)) (databuf_len xr (b_xlow c))); [lia|discriminate].
    - destruct (Nat.eqb_spec (databuf_len xr (b_ylow c)) 0); [now left|]. right.
      destruct (Nat.eqb_spec (databuf_len xr (b_y c)) (databuf_len xr (b_ylow c))); [lia|discriminate]. }
  destruct (base_ok W _ low z (length xs) lows HL HZ LOW) as (bases & BL & LB & BA).
  exists (b_sx c), (b_sy c), (b_stroke c), (b_fill c), (b_size c), (b_sizes c), (b_offset c), (b_offsets c), (b_horiz c), (b_lbl c),
    (b_x c), (b_y c), low, xs, ys, bases, ts.
  split; [exact X|]. split; [exact Y|]. split; [exact St|]. split; [exact Fi|]. split; [exact Wi|]. split; [exact Ws|].
  split; [exact Of|]. split; [exact Os|]. split; [exact Di|]. split; [exact Lb|]. split; [exact Cx|]. split; [exact Cy|].
  split; [unfold low; destruct (b_horiz c); assumption|]. split; [exact HX|]. split; [exact HY|]. split; [exact LX|].
  split; [lia|]. split; [exact BL|]. split; [exact LB|]. cbv zeta. split.
  - f_equal. apply (loop_drawn (fun i q => Ret [shape_of (outline (bar_corners (w_d W) (b_horiz c) (plot_clip W E p) (fst q) (fst (snd q)) (snd (snd q))
        (turn (b_offsets c) i (b_offset c)) (turn (b_sizes c) i (nonzero_or (b_size c) (pt W E 10))))) (b_stroke c) (b_fill c) None])
        (combine xs (combine ys bases))) in HB.
    + apply drawn_one in HB. rewrite HB. apply map_ext. now intros [i [x [y lo]]].
    + rewrite combine_length, combine_length. lia.
    + intros i [x [y lo]] N. apply nth_combine3 in N as (Nx & Ny & Nl).
      assert (I : (i < length xs)%nat) by (apply nth_error_Some; congruence).
      rewrite (at_some _ _ _ Nx), (at_some _ _ _ Ny), (BA i I), (at_some _ _ _ Nl), !cycle_turn. cbn [bind].
      destruct (b_horiz c); reflexivity.
  - apply (draw_labels_ok W E (b_lbl c) xs ys (fun i x y => bar_label_pos W (b_horiz c) (plot_clip W E p) x y (cycle (b_offsets c) i (b_offset c))
      (nonzero_or (lb_pad (b_lbl c)) (xmul (w_d W) (k W (6 / 10)) (lb_size (b_lbl c)))))) in HT; [|exact LXY].
    erewrite map_ext; [exact HT|]. intros [i [x y]]. cbn [fst snd]. rewrite cycle_turn. destruct (b_horiz c); reflexivity.
Qed.
Print Assumptions C73_bars.

(** The corners of a bar without rounding. *)
Theorem C73_corners_exact : forall (x0 y0 w h x y lo off width : R),
  bar_corners exact false (rect x0 y0 w h) (Fin x) (Fin y) (Fin lo) (Fin off) (Fin width) =
    (let c := x0 + x * w + off in
     [vec (c - width / 2) (y0 + lo * h); vec (c - width / 2) (y0 + y * h);
      vec (c + width / 2) (y0 + y * h); vec (c + width / 2) (y0 + lo * h)]) /\
  bar_corners exact true (rect x0 y0 w h) (Fin x) (Fin y) (Fin lo) (Fin off) (Fin width) =
    (let c := y0 + y * h - off in
     [vec (x0 + lo * w) (c - width / 2); vec (x0 + x * w) (c - width / 2);
      vec (x0 + x * w) (c + width / 2); vec (x0 + lo * w) (c + width / 2)]).
Proof.
  intros. unfold bar_corners, vec, spot, rect, xsub, xadd, xmul, xneg, exact. cbn [rx ry rw rh fst snd vx vy].
  split; repeat (f_equal; try lra).
Qed.
Print Assumptions C73_corners_exact.

(* ------------------------------------------------------------------ C74 *)
(** C74. An areas element fills the region between the points of the data and the base line, and
    draws its two sides. *)
Theorem C74_areas : forall (W : world) (E : env) (p : plot) (e : list expr) (out : list draw_command),
  areas_draw W E p e = Ret out ->
  exists sx sy above below fill horizontal hx hy low bx by_ xs ys bases,
    element_scale W "x" e (p_sx p) = Ret sx /\ element_scale W "y" e (p_sy p) = Ret sy /\
    options (side_options W E "high") e (stroke_with (Fin 0) (e_fg E)) = Ret above /\
    options (side_options W E "low") e (stroke_with (Fin 0) (e_fg E)) = Ret below /\
    options (fill_options W E) e (solid (e_fg E)) = Ret fill /\
    setting "direction" (expr_to_enum [(s_ "horizontal", true); (s_ "vertical", false)]) e false = Ret horizontal /\
    column W ["data-x-high"]%string e = Ret hx /\ column W ["data-y-high"]%string e = Ret hy /\
    column W [if horizontal then "data-x-low" else "data-y-low"]%string e = Ret low /\
    load_points W (source_of e) hx hy = Ret (bx, by_) /\
    to_unit W sx bx = Ret xs /\ to_unit W sy by_ = Ret ys /\
    length xs = databuf_len xr bx /\ length ys = length xs /\
    base_line W (if horizontal then sx else sy) low (length xs) bases /\ length bases = length xs /\
    let clip := plot_clip W E p in
    let high := map (spot (w_d W) clip) (combine xs ys) in
    let base := map (spot (w_d W) clip) (if horizontal then combine bases ys else combine xs bases) in
    exists upper lower, open_line high upper /\ open_line (rev base) lower /\
      out = [shape_of (outline (high ++ rev base)) stroke0 fill None; shape_of upper above fill0 None; shape_of lower below fill0 None].
Proof.
  intros W E p e out H. unfold areas_draw in H. inv_bind H. rename v into c.
  unfold areas_configure in A. inv_bind A. rename v into c1. inv_bind A. rename v into b.
  set (c2 := set_a_y (snd b) (set_a_x (fst b) c1)) in A. cbv zeta in A.
  destruct (databuf_len xr (a_x c2) =? databuf_len xr (a_y c2))%nat eqn:Leq; cbn [negb] in A; [|discriminate].
  destruct (negb (databuf_len xr (a_xlow c2) =? 0)%nat && negb (databuf_len xr (a_x c2) =? databuf_len xr (a_xlow c2))%nat) eqn:Lx; [discriminate|].
  destruct (negb (databuf_len xr (a_ylow c2) =? 0)%nat && negb (databuf_len xr (a_y c2) =? databuf_len xr (a_ylow c2))%nat) eqn:Ly; [discriminate|].
  injection A as <-. apply Nat.eqb_eq in Leq.
  destruct (areas_parts W E e p c1 A0) as (X & Y & Sr & Cx & Cy & Cxl & Cyl & Ab & Be & Fi & Di). rewrite Sr in A1.
  unfold c2 in *. clear c2. cbn [a_src a_x a_xlow a_y a_ylow a_sx a_sy a_high a_low a_fill a_horiz set_a_x set_a_y] in *.
  cbv zeta in H. inv_bind H. rename v into xs, A into HX. inv_bind H. rename v into xls, A into HXL.
  inv_bind H. rename v into ys, A into HY. inv_bind H. rename v into yls, A into HYL.
  inv_bind H. rename v into hi, A into HH. inv_bind H. rename v into z, A into HZ. inv_bind H. rename v into lo, A into HLo.
  injection H as <-.
  pose proof (to_unit_length W _ _ _ HX) as LX. pose proof (to_unit_length W _ _ _ HY) as LY.
  assert (LXY : length xs = length ys) by lia.
  set (h := a_horiz c1) in *.
  set (low := if h then a_xlow c1 else a_ylow c1).
  assert (LOW : (databuf_len xr low = 0 \/ databuf_len xr low = length xs)%nat).
  { unfold low. destruct h.
    - destruct (Nat.eqb_spec (databuf_len xr (a_xlow c1)) 0); [now left|]. right.
      destruct (Nat.eqb_spec (databuf_len xr (fst b)) (databuf_len xr (a_xlow c1))); [lia|discriminate].
    - destruct (Nat.eqb_spec (databuf_len xr (a_ylow c1)) 0); [now left|]. right.
      destruct (Nat.eqb_spec (databuf_len xr (snd b)) (databuf_len xr (a_ylow c1))); [lia|discriminate]. }
  assert (HL : to_unit W (if h then a_sx c1 else a_sy c1) low = Ret (if h then xls else yls)) by (unfold low; destruct h; assumption).
  destruct (base_ok W _ low z (length xs) _ HL HZ LOW) as (bases & BL & LB & BA).
  rewrite (loopM (combine xs ys) _ _ (fun q => Ret (spot (w_d W) (plot_clip W E p) q))) in HH;
    [|symmetry; now apply combine_len|intros i [x y] N; apply nth_combine in N as [Nx Ny]; now rewrite (at_some _ _ _ Nx), (at_some _ _ _ Ny)].
  rewrite forM_ret in HH. injection HH as <-.
  rewrite (loopM_rev (combine xs (combine ys bases)) _ _
     (fun q => spot (w_d W) (plot_clip W E p) (if h then (snd (snd q), fst (snd q)) else (fst q, snd (snd q))))) in HLo.
  2: { rewrite combine_length, combine_length. lia. }
  2: { intros i [x [y l]] N. apply nth_combine3 in N as (Nx & Ny & Nl).
       assert (I : (i < length xs)%nat) by (apply nth_error_Some; congruence).
       rewrite (at_some _ _ _ Nx), (at_some _ _ _ Ny), (BA i I), (at_some _ _ _ Nl). cbn [bind fst snd]. destruct h; reflexivity. }
  injection HLo as <-.
  exists (a_sx c1), (a_sy c1), (a_high c1), (a_low c1), (a_fill c1), h, (a_x c1), (a_y c1), low, (fst b), (snd b), xs, ys, bases.
  split; [exact X|]. split; [exact Y|]. split; [exact Ab|]. split; [exact Be|]. split; [exact Fi|]. split; [exact Di|].
  split; [exact Cx|]. split; [exact Cy|]. split; [unfold low; destruct h; assumption|].
  split; [rewrite A1; now destruct b|]. split; [exact HX|]. split; [exact HY|]. split; [exact LX|]. split; [lia|].
  split; [exact BL|]. split; [exact LB|]. cbv zeta.
  assert (BE : map (fun q : xr * (xr * xr) => spot (w_d W) (plot_clip W E p) (if h then (snd (snd q), fst (snd q)) else (fst q, snd (snd q))))
                 (combine xs (combine ys bases)) =
               map (spot (w_d W) (plot_clip W E p)) (if h then combine bases ys else combine xs bases)).
  { clear - LXY LB. revert ys bases LXY LB. induction xs as [|x xs IH]; intros [|y ys] [|b bs] L1 L2; try discriminate.
    - now destruct h.
    - cbn [combine map fst snd]. injection L1 as L1. injection L2 as L2. specialize (IH ys bs L1 L2). destruct h; cbn [map]; f_equal; exact IH. }
  rewrite BE. exists (polyline (map (spot (w_d W) (plot_clip W E p)) (combine xs ys))),
    (polyline (rev (map (spot (w_d W) (plot_clip W E p)) (if h then combine bases ys else combine xs bases)))).
  split; [apply polyline_open|]. split; [apply polyline_open|]. do 2 f_equal.
  destruct xs as [|x xs], ys as [|y ys]; try discriminate.
  - destruct bases; [|discriminate]. destruct h; reflexivity.
  - cbn [combine map polyline outline app]. rewrite map_app, <- app_assoc. reflexivity.
Qed.
Print Assumptions C74_areas.
