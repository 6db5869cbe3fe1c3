(** Properties of vectors, rectangles, polygons and labels: C76 to C78. *)
From Coq Require Import Reals Lra.
From Verif Require Import Base Num Sexpr_Model Dispatch_Model Dispatch_Spec Data_Model Data_Spec Data_Proofs Scale_Model Scale_Spec Scale_Proofs Scale_Proofs2 Scale_Proofs4
  Units_Model Color_Model Geo_Model Svg_Model Geojson_Model Cmd_Model Cmd_Spec Cmd_Proofs Style_Model Plot_Model Plot_Spec Plot_Proofs Plot_Parts Plot_Loops.
Local Open Scope R_scope.

(* ------------------------------------------------------------------ C76 *)
Lemma draw_each_all {B} (g : nat -> outcome (list B)) n : forall k out, draw_each g (seq k n) = Ret out ->
  forall i, (k <= i < k + n)%nat -> exists r, g i = Ret r.
Proof.
  intros k out H i I. apply draw_each_ok in H as (parts & F & _). revert F.
  assert (N : In i (seq k n)) by (apply in_seq; lia). revert parts. induction (seq k n) as [|j l IH]; intros parts F; [destruct N|].
  inversion F as [|? b ? ps X Y]; subst. destruct N as [->|N]; [eauto|]. eapply IH; eauto.
Qed.
Lemma at_bound {A} (l : list A) i a : at_ l i = Ret a -> (i < length l)%nat.
Proof. intro H. apply at_ok in H. apply nth_error_Some. congruence. Qed.
Lemma at_firstn {A} (l : list A) n i : (i < n)%nat -> at_ (firstn n l) i = at_ l i.
Proof.
  intro I. unfold at_. replace (nth_error (firstn n l) i) with (nth_error l i); [reflexivity|].
  revert n i I. induction l as [|a l IH]; intros [|n] [|i] I; try reflexivity; try lia. cbn. apply IH. lia.
Qed.

(** C76. A vectors element draws one arrow per data point, from the place of the point, as long
    as the point's dx and dy, which must be there for every point. *)
Theorem C76_vectors_partial : forall (W : world) (E : env) (p : plot) (e : list expr) (out : list draw_command),
  vectors_draw W E p e = Ret out ->
  exists sx sy mk bx by_ bdx bdy cols szs xs ys dxs dys,
    element_scale W "x" e (p_sx p) = Ret sx /\ element_scale W "y" e (p_sy p) = Ret sy /\
    options (mark_options W E) e (plain_marks E (pt W E 1)) = Ret mk /\
    load_points W (source_of e) empty empty = Ret (bx, by_) /\
    column W ["data-dx"]%string e = Ret bdx /\ column W ["data-dy"]%string e = Ret bdy /\
    colors_read W mk cols /\ sizes_read W mk szs /\
    to_unit W sx bx = Ret xs /\ to_unit W sy by_ = Ret ys /\ lengths W sx bdx dxs /\ lengths W sy bdy dys /\
    length xs = databuf_len xr bx /\ length ys = length xs /\ (length xs <= length dxs)%nat /\ (length xs <= length dys)%nat /\
    let clip := plot_clip W E p in
    drawn (fun i q => let '(o, by_) := q in let from := place (w_d W) clip o in
             Ret (arrow (w_d W) from (moved (w_d W) from clip by_) (turn szs i (m_size mk)) (turn cols i (m_color mk))))
      (combine (combine xs ys) (combine dxs dys)) out.
Proof.
  intros W E p e out H. unfold vectors_draw in H. inv_bind H. destruct v as [[[c b] cols] szs].
  unfold vectors_configure in A. inv_bind A. rename v into c1. inv_bind A. rename v into b1.
  destruct (databuf_len xr (fst b1) =? databuf_len xr (snd b1))%nat eqn:Leq; cbn [negb] in A; [|discriminate].
  apply Nat.eqb_eq in Leq. inv_bind A. rename A2 into HC. inv_bind A. rename A2 into HS. injection A as -> -> -> ->.
  destruct (vectors_parts W E e p c A0) as (X & Y & Sr & Dx & Dy & Mk). rewrite Sr in A1.
  cbv zeta in H. inv_bind H. rename v into xs, A into HX. inv_bind H. rename v into ys, A into HY.
  inv_bind H. rename v into dxs, A into HDX. inv_bind H. rename v into dys, A into HDY.
  pose proof (to_unit_length W _ _ _ HX) as LX. pose proof (to_unit_length W _ _ _ HY) as LY.
  assert (LXY : length xs = length ys) by lia.
  assert (LD : (length xs <= length dxs /\ length xs <= length dys)%nat).
  { destruct (length xs) as [|n] eqn:N; [lia|]. destruct (draw_each_all _ _ _ _ H n ltac:(lia)) as [r R].
    inv_bind R. inv_bind R. inv_bind R. inv_bind R.
    repeat match goal with Q : at_ _ _ = Ret _ |- _ => apply at_bound in Q end. lia. }
  exists (v_sx c), (v_sy c), (v_marks c), (fst b), (snd b), (v_dx c), (v_dy c), cols, szs, xs, ys, dxs, dys.
  split; [exact X|]. split; [exact Y|]. split; [exact Mk|]. split; [rewrite A1; now destruct b|]. split; [exact Dx|]. split; [exact Dy|].
  split; [now apply colors_read_of|]. split; [now apply sizes_read_of|]. split; [exact HX|]. split; [exact HY|].
  split. { unfold magnitudes, translate_magnitudev in HDX. inv_bind HDX. injection HDX as <-. eexists; split; [eassumption|reflexivity]. }
  split. { unfold magnitudes, translate_magnitudev in HDY. inv_bind HDY. injection HDY as <-. eexists; split; [eassumption|reflexivity]. }
  split; [exact LX|]. split; [lia|]. split; [lia|]. split; [lia|]. cbv zeta.
  apply (loop_drawn _ _ _ _ _ H).
  - rewrite !combine_length. lia.
  - intros i [[x y] [dx dy]] N. apply nth_combine in N as [N1 N2]. apply nth_combine in N1 as [Nx Ny]. apply nth_combine in N2 as [Ndx Ndy].
    rewrite (at_some _ _ _ Nx), (at_some _ _ _ Ny), (at_some _ _ _ Ndx), (at_some _ _ _ Ndy), !cycle_turn. reflexivity.
Qed.
Print Assumptions C76_vectors_partial.

(** Without rounding, on linear axes that are not inverted, the line of each arrow goes from the
    place of (x, y) to the place of (x + dx, y + dy). *)
Theorem C76_vectors_exact : forall (W : world) (E : env) (p : plot) (e : list expr) (out : list draw_command)
    (sx sy : scale) (ax bx ay by_ x0 y0 w h : R) (cx cy cdx cdy : databuf xr) (xs ys dxs dys : list R),
  exact_world W -> vectors_draw W E p e = Ret out ->
  element_scale W "x" e (p_sx p) = Ret sx -> element_scale W "y" e (p_sy p) = Ret sy ->
  linear_over sx ax bx -> linear_over sy ay by_ -> s_inverted sx = false -> s_inverted sy = false ->
  plot_clip W E p = rect x0 y0 w h ->
  load_points W (source_of e) empty empty = Ret (cx, cy) -> holds W cx xs -> holds W cy ys ->
  column W ["data-dx"]%string e = Ret cdx -> column W ["data-dy"]%string e = Ret cdy -> holds W cdx dxs -> holds W cdy dys ->
  length ys = length xs /\ (length xs <= length dxs)%nat /\ (length xs <= length dys)%nat /\
  let page := on_page sx sy ax bx ay by_ x0 y0 w h in
  exists size color,
    drawn (fun i q => let '((x, y), (dx, dy)) := q in
             Ret (arrow exact (page (x, y)) (page (x + dx, y + dy)) (size i) (color i)))
      (combine (combine xs ys) (combine dxs dys)) out.
Proof.
  intros W E p e out sx sy ax bx ay by_ x0 y0 w h cx cy cdx cdy xs ys dxs dys X H Sx Sy Lx Ly Ix Iy C Ld Hx Hy Cdx Cdy Hdx Hdy.
  destruct (C76_vectors_partial W E p e out H) as (sx' & sy' & mk & bx' & by' & bdx & bdy & cols & szs & us & vs & dus & dvs
    & X1 & X2 & X3 & X4 & X5 & X6 & X7 & X8 & X9 & X10 & X11 & X12 & X13 & X14 & X15 & X16 & D).
  rewrite Sx in X1. injection X1 as <-. rewrite Sy in X2. injection X2 as <-. rewrite Ld in X4. injection X4 as <- <-.
  rewrite Cdx in X5. injection X5 as <-. rewrite Cdy in X6. injection X6 as <-.
  rewrite (to_unit_linear W sx cx xs ax bx X Hx Lx) in X9. injection X9 as <-.
  rewrite (to_unit_linear W sy cy ys ay by_ X Hy Ly) in X10. injection X10 as <-.
  assert (M : forall s lo hi v, linear_over s lo hi -> translate_magnitude exact exact s (Fin v) = Fin (v / (hi - lo))).
  { intros s lo hi v (K & A & B & L). unfold translate_magnitude. rewrite K, A, B, xsub_exact. unfold xdiv.
    destruct Req_EM_T; [lra|reflexivity]. }
  destruct X11 as (vs1 & N1 & ->), X12 as (vs2 & N2 & ->).
  rewrite (holds_numbers W _ _ Hdx) in N1. injection N1 as <-. rewrite (holds_numbers W _ _ Hdy) in N2. injection N2 as <-.
  rewrite !map_length in *. split; [assumption|]. split; [assumption|]. split; [assumption|].
  destruct X as [XD XF]. rewrite XD, XF in *. rewrite C in D.
  exists (fun i => turn szs i (m_size mk)), (fun i => turn cols i (m_color mk)).
  rewrite !map_map, !combine_map2 in D. apply drawn_map in D.
  destruct D as (parts & F & ->). exists parts. split; [|reflexivity].
  assert (LX : forall v dv, x0 + unit_pos (s_inverted sx) ax bx v * w + dv / (bx - ax) * w = x0 + unit_pos (s_inverted sx) ax bx (v + dv) * w).
  { intros. rewrite Ix. unfold unit_pos. destruct Lx as (_ & _ & _ & Lx). field. lra. }
  assert (LY : forall v dv, y0 + unit_pos (s_inverted sy) ay by_ v * h + dv / (by_ - ay) * h = y0 + unit_pos (s_inverted sy) ay by_ (v + dv) * h).
  { intros. rewrite Iy. unfold unit_pos. destruct Ly as (_ & _ & _ & Ly). field. lra. }
  clear - F LX LY M Lx Ly. induction F as [|[i [[x y] [dx dy]]] part nl parts A F IH]; constructor; [|exact IH].
  cbn [fst snd] in A |- *. rewrite <- A. rewrite (M sx ax bx dx Lx), (M sy ay by_ dy Ly). f_equal. f_equal.
  - unfold place, on_page, rect, vec. cbn. unfold exact. f_equal; f_equal; lra.
  - unfold place, moved, on_page, rect, vec. cbn. unfold exact. rewrite <- LX, <- LY. f_equal; f_equal; lra.
Qed.
Print Assumptions C76_vectors_exact.

(** C76 fails on an inverted axis: there the line of the arrow ends at the place of x - dx. *)
Theorem C76_inverted_refuted : forall (s : scale) (lo hi x dx : R), linear_over s lo hi -> s_inverted s = true ->
  scale_translate exact exact s (Fin x) = Ret (Fin (unit_pos true lo hi x)) /\
  xadd exact (Fin (unit_pos true lo hi x)) (translate_magnitude exact exact s (Fin dx)) = Fin (unit_pos true lo hi (x - dx)).
Proof.
  intros s lo hi x dx L I. split. { rewrite (linear_translate s lo hi L), I. reflexivity. }
  destruct L as (K & A & B & L). unfold translate_magnitude. rewrite K, A, B, xsub_exact. unfold xdiv. destruct Req_EM_T; [lra|].
  unfold unit_pos, xadd, exact. f_equal. field. lra.
Qed.
Print Assumptions C76_inverted_refuted.

(** The tip of the head lies beyond the end of the line, by four times the size. *)
Theorem C76_tip_refuted : forall (x y dx size : R) (c : color), 0 < dx -> exists head,
  nth_error (arrow exact (vec x y) (vec (x + dx) y) (Fin size) c) 1 = Some (shape_of head stroke0 (solid c) None) /\
  vertices head = [vec (x + dx) (y - 2 * size); vec (x + dx) (y + 2 * size); vec (x + dx + 4 * size) y].
Proof.
  intros x y dx size c P.
  assert (N : normalize exact (vsub exact (vec (x + dx) y) (vec x y)) = vec 1 0).
  { unfold normalize, magnitude, vsub, vec, xsub, xadd, xmul, xneg, exact, xsqrt. cbn [vx vy].
    destruct Rlt_dec as [C|_]; [exfalso; nra|].
    replace (sqrt _) with dx.
    2: { symmetry. transitivity (sqrt (dx * dx)); [f_equal; lra|]. apply sqrt_square. lra. }
    unfold xdiv. destruct Req_EM_T; [lra|]. f_equal; f_equal; unfold Rdiv; [field; lra|rewrite Rplus_opp_r; lra]. }
  unfold arrow. rewrite N. eexists. split; [reflexivity|].
  unfold outline, vertices, vec, vadd, vsub, vmul, xsub, xadd, xmul, xneg, exact. cbn [vx vy map app].
  repeat (f_equal; try lra).
Qed.
Print Assumptions C76_tip_refuted.

(** A vector of length zero gets a head without coordinates. *)
Theorem C76_zero_refuted : forall (x y size : R) (c : color), exists head,
  nth_error (arrow exact (vec x y) (vec x y) (Fin size) c) 1 = Some (shape_of head stroke0 (solid c) None) /\
  vertices head = [mk_vec2 NaN NaN; mk_vec2 NaN NaN; mk_vec2 NaN NaN].
Proof.
  intros x y size c.
  assert (N : normalize exact (vsub exact (vec x y) (vec x y)) = mk_vec2 NaN NaN).
  { unfold normalize, magnitude, vsub, vec, xsub, xadd, xmul, xneg, exact, xsqrt. cbn [vx vy].
    destruct Rlt_dec as [C|_]; [exfalso; nra|]. replace (sqrt _) with 0.
    2: { symmetry. transitivity (sqrt 0); [f_equal; lra|]. apply sqrt_0. }
    unfold xdiv. destruct Req_EM_T; [|lra]. unfold xsign_inf. rewrite Rplus_opp_r, Rplus_opp_r.
    destruct Rlt_dec; [lra|]. reflexivity. }
  unfold arrow. rewrite N. eexists. split; reflexivity.
Qed.
Print Assumptions C76_zero_refuted.

(* ------------------------------------------------------------------ C77 *)
(** C77. A rectangles element draws one box per data point, centred on the place of the point,
    filled with the colours of the data in turn; the sizes are the data sizes in turn, as
    lengths on the axes, or without size data the sizes of the options. *)
Theorem C77_rectangles : forall (W : world) (E : env) (p : plot) (e : list expr) (out : list draw_command),
  rectangles_draw W E p e = Ret out ->
  exists sx sy mk bx by_ bsx bsy szx szy dw dh cols xs ys,
    element_scale W "x" e (p_sx p) = Ret sx /\ element_scale W "y" e (p_sy p) = Ret sy /\
    options (marks_color_options W E) e (plain_marks E (Fin 0)) = Ret mk /\ colors_read W mk cols /\
    load_points W (source_of e) empty empty = Ret (bx, by_) /\
    column W ["data-size-x"; "data-size"]%string e = Ret bsx /\ column W ["data-size-y"; "data-size"]%string e = Ret bsy /\
    options (size_options W E ["size"; "size-x"]%string) e (Fin 0) = Ret dw /\
    options (size_options W E ["size"; "size-y"]%string) e (Fin 0) = Ret dh /\
    to_unit W sx bx = Ret xs /\ to_unit W sy by_ = Ret ys /\ lengths W sx bsx szx /\ lengths W sy bsy szy /\
    length xs = databuf_len xr bx /\ length ys = length xs /\
    let clip := plot_clip W E p in
    let wide i := turn (map (fun s => xmul (w_d W) s (rw clip)) szx) i dw in
    let high i := turn (map (fun s => xmul (w_d W) s (rh clip)) szy) i dh in
    out = map (fun iq => shape_of (box_around (w_d W) (place (w_d W) clip (snd iq)) (wide (fst iq)) (high (fst iq)))
                           stroke0 (solid (turn cols (fst iq) (m_color mk))) (Some false))
            (numbered (combine xs ys)).
Proof.
  intros W E p e out H. unfold rectangles_draw in H. inv_bind H. destruct v as [[c b] cols].
  unfold rects_configure in A. inv_bind A. rename v into c1. inv_bind A. rename v into b1.
  destruct (databuf_len xr (fst b1) =? databuf_len xr (snd b1))%nat eqn:Leq; cbn [negb] in A; [|discriminate].
  apply Nat.eqb_eq in Leq. inv_bind A. rename A2 into HC. injection A as -> -> ->.
  destruct (rects_parts W E e p c A0) as (X & Y & Sr & Sx & Sy & Dx & Dy & Mk). rewrite Sr in A1.
  cbv zeta in H. inv_bind H. rename v into xs, A into HX. inv_bind H. rename v into ys, A into HY.
  inv_bind H. rename v into szx, A into HDX. inv_bind H. rename v into szy, A into HDY.
  pose proof (to_unit_length W _ _ _ HX) as LX. pose proof (to_unit_length W _ _ _ HY) as LY.
  assert (LXY : length xs = length ys) by lia.
  exists (r_sx c), (r_sy c), (r_marks c), (fst b), (snd b), (r_szx c), (r_szy c), szx, szy, (r_defx c), (r_defy c), cols, xs, ys.
  split; [exact X|]. split; [exact Y|]. split; [exact Mk|]. split; [now apply colors_read_of|]. split; [rewrite A1; now destruct b|].
  split; [exact Sx|]. split; [exact Sy|]. split; [exact Dx|]. split; [exact Dy|]. split; [exact HX|]. split; [exact HY|].
  split. { unfold magnitudes, translate_magnitudev in HDX. inv_bind HDX. injection HDX as <-. eexists; split; [eassumption|reflexivity]. }
  split. { unfold magnitudes, translate_magnitudev in HDY. inv_bind HDY. injection HDY as <-. eexists; split; [eassumption|reflexivity]. }
  split; [exact LX|]. split; [lia|]. cbv zeta.
  apply (drawn_one (fun i q => shape_of (box_around (w_d W) (place (w_d W) (plot_clip W E p) q)
     (turn (map (fun s => xmul (w_d W) s (rw (plot_clip W E p))) szx) i (r_defx c))
     (turn (map (fun s => xmul (w_d W) s (rh (plot_clip W E p))) szy) i (r_defy c))) stroke0 (solid (turn cols i (m_color (r_marks c)))) (Some false))).
  apply (loop_drawn _ _ _ _ _ H).
  - rewrite combine_length. lia.
  - intros i [x y] N. apply nth_combine in N as [Nx Ny].
    rewrite (at_some _ _ _ Nx), (at_some _ _ _ Ny), !cycle_turn. reflexivity.
Qed.
Print Assumptions C77_rectangles.

(** Without rounding on a linear axis: a box of data size dx spans from x - dx/2 to x + dx/2. *)
Theorem C77_extent_exact : forall (s : scale) (lo hi x0 w x dx : R), linear_over s lo hi ->
  let pos v := x0 + unit_pos (s_inverted s) lo hi v * w in
  exists len, xmul exact (translate_magnitude exact exact s (Fin dx)) (Fin w) = Fin len /\
    (if s_inverted s then pos (x - dx / 2) = pos x + len / 2 /\ pos (x + dx / 2) = pos x - len / 2
     else pos (x - dx / 2) = pos x - len / 2 /\ pos (x + dx / 2) = pos x + len / 2).
Proof.
  intros s lo hi x0 w x dx (K & A & B & L) pos. unfold translate_magnitude. rewrite K, A, B, xsub_exact. unfold xdiv.
  destruct Req_EM_T; [lra|]. eexists. split; [reflexivity|]. unfold exact, pos, unit_pos.
  destruct (s_inverted s); split; field; lra.
Qed.
Print Assumptions C77_extent_exact.

(* ------------------------------------------------------------------ C78 *)
Lemma add_rings hs : forall p, fold_left add_poly_ring hs p = p ++ flat_map ring hs.
Proof.
  induction hs as [|r hs IH]; intro p; cbn [fold_left flat_map]; [now rewrite app_nil_r|].
  rewrite IH. destruct r; cbn [add_poly_ring ring outline]; [reflexivity|]. now rewrite <- app_assoc.
Qed.
Lemma poly_path q : path_from_poly2 q = polygon_path (fst q) (snd q).
Proof. unfold path_from_poly2, polygon_path. rewrite add_rings. now destruct (fst q). Qed.

Lemma Forall2_impl' {A B} (P Q : A -> B -> Prop) l l' : (forall a b, P a b -> Q a b) -> Forall2 P l l' -> Forall2 Q l l'.
Proof. intros I F. induction F; constructor; auto. Qed.
Lemma Forall2_in_l {A B} (R : A -> B -> Prop) l l' a : Forall2 R l l' -> In a l -> exists b, In b l' /\ R a b.
Proof.
  intros F I. induction F as [|x y l l' H F IH]; [destruct I|]. destruct I as [->|I]; [exists y; split; [now left|exact H]|].
  destruct (IH I) as (b & J & Q). exists b. split; [now right|exact Q].
Qed.
Lemma polys_drawn (f : vec2 -> outcome vec2) (draw : poly2 -> draw_command) (polys ps : list poly2) :
  forM (fun q : poly2 => let* b := forM f (fst q) in Ret (b, snd q)) polys = Ret ps ->
  Forall2 (fun q c => exists pts, Forall2 (fun v r => f v = Ret r) (fst q) pts /\ c = draw (pts, snd q)) polys (map draw ps).
Proof.
  intro H. apply forM_ok in H. induction H as [|q r l l' H F IH]; cbn [map]; constructor; [|exact IH].
  inv_bind H. rename v into b. injection H as <-. exists b. split; [now apply forM_ok|reflexivity].
Qed.

(** C78. A polygons element draws one shape per polygon of the data, in order; the corners of the
    boundary are placed by the scales of the element, which have been fitted to all boundaries,
    and limited to the plot area. The corners of holes are taken as they are. *)
Theorem C78_polygons_partial : forall (W : world) (E : env) (p p1 : plot) (e : list expr) (out : list draw_command),
  polygons_draw W E p e = Ret (p1, out) ->
  exists sx sy stroke fill polys,
    options (firstn 4 (scale_options W "x")) e (p_sx p) = Ret sx /\
    options (firstn 4 (scale_options W "y")) e (p_sy p) = Ret sy /\
    options (stroke_options W E) e (stroke_with (pt W E 1) black) = Ret stroke /\
    options (fill_options W E) e fill0 = Ret fill /\
    options [(s_ "data", load_polys W)] e [] = Ret polys /\
    let corners := flat_map fst polys in
    let tx := scale_translate (w_d W) (w_f W) (fit_all sx (map vx corners)) in
    let ty := scale_translate (w_d W) (w_f W) (fit_all sy (map vy corners)) in
    p_sx p1 = fit_all (p_sx p) (map vx corners) /\ p_sy p1 = fit_all (p_sy p) (map vy corners) /\
    Forall2 (fun poly c => exists pts,
        Forall2 (fun v q => exists x y, tx (vx v) = Ret x /\ ty (vy v) = Ret y /\ q = limited (w_d W) (plot_clip W E p) (x, y)) (fst poly) pts /\
        c = shape_of (polygon_path pts (snd poly)) stroke fill None)
      polys out.
Proof.
  intros W E p p1 e out H. unfold polygons_draw in H. inv_bind H. destruct v as [c p2].
  unfold polys_configure in A. inv_bind A. rename v into c1. cbv zeta in A. injection A as <- <-.
  destruct (polys_parts W E e p c1 A0) as (X & Y & D & St & Fi).
  cbv zeta in H. inv_bind H. rename v into ps, A into HF. injection H as <- <-.
  exists (g_sx c1), (g_sy c1), (g_stroke c1), (g_fill c1), (g_polys c1).
  do 5 (split; [assumption|]). cbv zeta. cbn [p_sx p_sy]. do 2 (split; [reflexivity|]).
  apply polys_drawn with (draw := fun q => shape_of (path_from_poly2 q) (g_stroke c1) (g_fill c1) None) in HF.
  eapply Forall2_impl'; [|exact HF]. intros q c (pts & F & ->). exists pts. split; [|now rewrite poly_path].
  clear - F. induction F as [|v r l l' H F IH]; constructor; [|exact IH].
  inv_bind H. rename v0 into x. inv_bind H. rename v0 into y. injection H as <-. eauto.
Qed.
Print Assumptions C78_polygons_partial.

(** Without rounding, on linear axes: a corner within the limits is drawn at its place ... *)
Theorem C78_corner_exact : forall (sx sy : scale) (ax bx ay by_ x0 y0 w h x y : R),
  linear_over sx ax bx -> linear_over sy ay by_ -> ax <= x <= bx -> ay <= y <= by_ ->
  exists u v, scale_translate exact exact sx (Fin x) = Ret u /\ scale_translate exact exact sy (Fin y) = Ret v /\
    limited exact (rect x0 y0 w h) (u, v) = on_page sx sy ax bx ay by_ x0 y0 w h (x, y).
Proof.
  intros sx sy ax bx ay by_ x0 y0 w h x y Lx Ly Ix Iy. eexists _, _.
  split; [exact (linear_translate sx ax bx Lx x)|]. split; [exact (linear_translate sy ay by_ Ly y)|].
  assert (In1 : forall u, 0 <= u <= 1 -> clamp01 (Fin u) = Fin u).
  { intros u I. unfold clamp01, xlt. do 2 (destruct Rlt_dec; [lra|]). reflexivity. }
  assert (P : forall s lo hi v, linear_over s lo hi -> lo <= v <= hi -> 0 <= unit_pos (s_inverted s) lo hi v <= 1).
  { intros s lo hi v (_ & _ & _ & L) I. now apply unit_pos_range. }
  unfold limited, on_page, rect, vec. cbn [fst snd rx ry rw rh].
  rewrite (In1 _ (P sx ax bx x Lx Ix)), (In1 _ (P sy ay by_ y Ly Iy)). unfold xadd, xmul, exact. f_equal; f_equal; lra.
Qed.
Print Assumptions C78_corner_exact.

(** ... and C78 fails for a corner beyond a limit, which is moved to the border of the area (the
    sides next to it change their direction). *)
Theorem C78_clamped_refuted : forall (s : scale) (lo hi x0 w x : R), linear_over s lo hi -> s_inverted s = false -> hi < x -> w <> 0 ->
  exists u, scale_translate exact exact s (Fin x) = Ret u /\
    xadd exact (xmul exact (clamp01 u) (Fin w)) (Fin x0) = Fin (x0 + w) /\ x0 + w <> x0 + unit_pos false lo hi x * w.
Proof.
  intros s lo hi x0 w x L I X Wn. eexists. split; [exact (linear_translate s lo hi L x)|]. rewrite I.
  assert (G : 1 < unit_pos false lo hi x).
  { destruct L as (_ & _ & _ & L). unfold unit_pos. apply Rmult_lt_reg_r with (hi - lo); [lra|].
    unfold Rdiv. rewrite Rmult_assoc, Rinv_l by lra. lra. }
  split.
  - unfold clamp01, xlt. destruct Rlt_dec; [lra|]. destruct Rlt_dec; [|lra]. unfold xadd, xmul, exact. f_equal. lra.
  - intro Q. assert (Z : (unit_pos false lo hi x - 1) * w = 0) by lra. apply Rmult_integral in Z as [Z|Z]; lra.
Qed.
Print Assumptions C78_clamped_refuted.

(** C78 fails for holes: whatever the scales, the corners of the holes of the data are corners of
    the drawing. *)
Theorem C78_holes_refuted : forall (W : world) (E : env) (p p1 : plot) (e : list expr) (out : list draw_command),
  polygons_draw W E p e = Ret (p1, out) ->
  exists polys, options [(s_ "data", load_polys W)] e [] = Ret polys /\
    forall poly hole v, In poly polys -> In hole (snd poly) -> In v hole ->
      exists c path, In c out /\ (exists stroke fill, c = shape_of path stroke fill None) /\ In v (vertices path).
Proof.
  intros W E p p1 e out H. destruct (C78_polygons_partial W E p p1 e out H) as (sx & sy & stroke & fill & polys & _ & _ & _ & _ & D & H1).
  cbv zeta in H1. destruct H1 as (_ & _ & F). exists polys. split; [exact D|]. intros poly hole v I1 I2 I3.
  destruct (Forall2_in_l _ _ _ _ F I1) as (c & Ic & pts & _ & ->).
  eexists _, _. split; [exact Ic|]. split; [eauto|]. unfold polygon_path.
  assert (VA : forall a b, vertices (a ++ b) = vertices a ++ vertices b).
  { clear. induction a as [|[?|?|? ?|? ? ?|] a IH]; intro b; cbn; congruence. }
  rewrite VA. apply in_or_app. right. clear - I2 I3 VA. induction (snd poly) as [|r rs IH]; [destruct I2|].
  cbn [flat_map]. rewrite VA. apply in_or_app. destruct I2 as [->|I2]; [left|right; auto].
  destruct hole as [|v0 r0]; [destruct I3|]. cbn [ring outline vertices]. rewrite VA, vertices_lines.
  destruct I3 as [->|I3]; [now left|]. right. apply in_or_app. now left.
Qed.
Print Assumptions C78_holes_refuted.

(* ------------------------------------------------------------------ C79 *)
(** C79. A labels element draws its labels, as many as there are, one for each data point in
    order. Their height is counted from the upper end of the axis. *)
Theorem C79_labels_partial : forall (W : world) (E : env) (p : plot) (e : list expr) (out : list draw_command),
  labels_draw W E p e = Ret out ->
  exists sx sy lb bx by_ xs ys,
    element_scale W "x" e (p_sx p) = Ret sx /\ element_scale W "y" e (p_sy p) = Ret sy /\
    options (label_options W E (rd_measure W) ++ font_options W) e (plain_labels W E) = Ret lb /\
    load_points W (source_of e) empty empty = Ret (bx, by_) /\
    to_unit W sx bx = Ret xs /\ to_unit W sy by_ = Ret ys /\
    length xs = databuf_len xr bx /\ length ys = length xs /\
    let clip := plot_clip W E p in
    let pad := nonzero_or (lb_pad lb) (xmul (w_d W) (k W (8 / 10)) (lb_size lb)) in
    labels_beside W E lb HCenter VBottom
      (map (fun q => let v := spot (w_d W) clip (fst q, xsub (w_d W) (Fin 1) (snd q)) in
                     mk_vec2 (vx v) (xsub (w_d W) (vy v) pad)) (combine xs ys)) out.
Proof.
  intros W E p e out H. unfold labels_draw in H. inv_bind H. destruct v as [c b].
  unfold labels_configure in A. inv_bind A. rename v into c1. inv_bind A. rename v into b1.
  destruct (databuf_len xr (fst b1) =? databuf_len xr (snd b1))%nat eqn:Leq; cbn [negb] in A; [|discriminate].
  apply Nat.eqb_eq in Leq. injection A as -> ->.
  destruct (labels_parts W E e p c A0) as (X & Y & Sr & Lb). rewrite Sr in A1.
  cbv zeta in H. inv_bind H. rename v into xs, A into HX. inv_bind H. rename v into ys, A into HY.
  pose proof (to_unit_length W _ _ _ HX) as LX. pose proof (to_unit_length W _ _ _ HY) as LY.
  assert (LXY : length xs = length ys) by lia.
  exists (t_sx c), (t_sy c), (t_lbl c), (fst b), (snd b), xs, ys.
  split; [exact X|]. split; [exact Y|]. split; [exact Lb|]. split; [rewrite A1; now destruct b|]. split; [exact HX|]. split; [exact HY|].
  split; [exact LX|]. split; [lia|]. cbv zeta.
  apply (draw_labels_ok W E (t_lbl c) xs ys (fun _ x y => mk_vec2 (px_ W (plot_clip W E p) x)
    (xsub (w_d W) (py_ W (plot_clip W E p) (xsub (w_d W) (Fin 1) y)) (nonzero_or (lb_pad (t_lbl c)) (xmul (w_d W) (k W (8 / 10)) (lb_size (t_lbl c))))))) in H;
    [|exact LXY].
  rewrite <- (numbered_map (combine xs ys)) at 1. rewrite map_map. exact H.
Qed.
Print Assumptions C79_labels_partial.

(** C79 fails: the label of a data point is not beside the point but mirrored, at the distance
    from the upper end that the point has from the lower end. *)
Theorem C79_mirrored_refuted : forall (x0 y0 w h x y : R),
  vy (spot exact (rect x0 y0 w h) (Fin x, xsub exact (Fin 1) (Fin y))) = Fin (y0 + (1 - y) * h) /\
  (h <> 0 -> y <> 1 / 2 ->
   vy (spot exact (rect x0 y0 w h) (Fin x, xsub exact (Fin 1) (Fin y))) <> vy (spot exact (rect x0 y0 w h) (Fin x, Fin y))).
Proof.
  intros. split; [reflexivity|]. intros Hn Yn Q. cbn in Q. unfold exact in Q. injection Q as Q.
  assert (Z : (1 - 2 * y) * h = 0) by lra. apply Rmult_integral in Z as [Z|Z]; lra.
Qed.
Print Assumptions C79_mirrored_refuted.

(** More labels than data points: the program reads beyond the end of the positions. *)
Theorem C79_too_many_refuted : forall (W : world) (E : env) (p : plot) (e : list expr) (out : list draw_command) lb bx by_,
  options (label_options W E (rd_measure W) ++ font_options W) e (plain_labels W E) = Ret lb ->
  load_points W (source_of e) empty empty = Ret (bx, by_) -> (databuf_len xr bx < length (lb_text lb))%nat ->
  labels_draw W E p e <> Ret out.
Proof.
  intros W E p e out lb bx by_ H1 H2 Lt H.
  destruct (C79_labels_partial W E p e out H) as (sx & sy & lb' & bx' & by' & xs & ys & _ & _ & L & D & _ & _ & LX & LY & LB & _).
  rewrite H1 in L. injection L as <-. rewrite H2 in D. injection D as <- <-.
  rewrite map_length, combine_length in LB. lia.
Qed.
Print Assumptions C79_too_many_refuted.
