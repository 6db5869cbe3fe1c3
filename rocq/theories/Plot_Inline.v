(** Elements whose data is written out in the program, from the program text to the drawing. *)
From Coq Require Import Reals Lra.
From Verif Require Import Base Num Sexpr_Model Dispatch_Model Dispatch_Spec Data_Model Data_Spec Data_Proofs Scale_Model Scale_Spec Scale_Proofs Scale_Proofs4
  Units_Model Color_Model Geo_Model Svg_Model Geojson_Model Cmd_Model Cmd_Spec Cmd_Proofs Style_Model Plot_Model Plot_Spec Plot_Proofs Plot_Parts Plot_Loops.
Local Open Scope R_scope.

Definition inlined (ts : list str) : databuf xr := load_inline xr (map ELit ts) empty.
Lemma load_inlined W ts : load_simple W [EList (ELit (s_ "list") :: map ELit ts)] empty = Ret (inlined ts).
Proof. reflexivity. Qed.
Lemma inlined_holds W ts vs : Forall2 (reads W) ts vs -> holds W (inlined ts) vs.
Proof.
  intro F. exists (map AddText ts). split; [|split].
  - assert (inlined ts = fold_left (do_add xr) (map AddText ts) (empty_buf xr)) as ->.
    { unfold inlined, load_inline. unfold empty. generalize (empty_buf xr). clear. induction ts as [|t ts IH]; intro b; cbn [map fold_left]; [reflexivity|]. apply IH. }
    apply (repr_adds xr (map AddText ts) (empty_buf xr) []). constructor.
  - induction F as [|t v ts vs [[n S] _] F IH]; [reflexivity|]. cbn. rewrite IH. unfold parse_f64. now rewrite S.
  - apply Forall_forall. intros c I. apply in_map_iff in I as (t & <- & I).
    apply In_nth_error in I as [i N]. revert i N. induction F as [|a b ts vs [_ A] F IH]; intros [|i] N; try discriminate.
    + injection N as <-. exact A.
    + eauto.
Qed.

Lemma drawn_ex {A} (g : nat -> A -> list draw_command) (h : nat -> outcome (list draw_command)) (l : list A) n :
  n = length l -> (forall i a, nth_error l i = Some a -> h i = Ret (g i a)) ->
  draw_each h (seq 0 n) = Ret (flat_map (fun ia => g (fst ia) (snd ia)) (numbered l)).
Proof.
  intros L N. rewrite (loopN l n h (fun i a => Ret (g i a)) L N). apply draw_each_ret.
Qed.

(** C70 for data that is written in the program: lines through any numbers. *)
Theorem C70_inline : forall (W : world) (E : env) (p : plot) (tx ty : list str) (xs ys : list R) (ax bx ay by_ x0 y0 w h : R),
  exact_world W -> Forall2 (reads W) tx xs -> Forall2 (reads W) ty ys -> length xs = length ys -> xs <> [] ->
  linear_over (p_sx p) ax bx -> linear_over (p_sy p) ay by_ -> plot_clip W E p = rect x0 y0 w h ->
  lines_draw W E p [inline "data-x" tx; inline "data-y" ty] =
  Ret [shape_of (polyline (map (on_page (p_sx p) (p_sy p) ax bx ay by_ x0 y0 w h) (combine xs ys)))
         (stroke_with (pt W E (15 / 10)) (e_fg E)) fill0 None].
Proof.
  intros W E p tx ty xs ys ax bx ay by_ x0 y0 w h X Fx Fy L N Lx Ly C.
  pose proof (inlined_holds W _ _ Fx) as Hx. pose proof (inlined_holds W _ _ Fy) as Hy.
  unfold lines_draw, lines_configure.
  replace (run (lines_table W E) [inline "data-x" tx; inline "data-y" ty] (lines0 W E p)) with
    (Ret (set_l_src (mk_src [] [] [EList (ELit (s_ "list") :: map ELit tx)] [EList (ELit (s_ "list") :: map ELit ty)]) (lines0 W E p)))
    by reflexivity.
  cbn [bind]. set (c := set_l_src _ _).
  change (l_src c) with (mk_src [] [] [EList (ELit (s_ "list") :: map ELit tx)] [EList (ELit (s_ "list") :: map ELit ty)]).
  unfold load_lines. cbn [d_x d_y d_ref load_inline_ref]. rewrite !load_inlined. cbn [bind fst snd].
  rewrite (holds_len W _ _ Hx), (holds_len W _ _ Hy), L, Nat.eqb_refl. cbn [negb].
  destruct (length ys =? 0)%nat eqn:Z.
  { apply Nat.eqb_eq in Z. destruct xs; [congruence|]. cbn in L. lia. }
  cbn [bind fst snd]. change (l_sx c) with (p_sx p). change (l_sy c) with (p_sy p).
  rewrite (to_unit_linear W _ _ _ ax bx X Hx Lx). cbn [bind]. rewrite (to_unit_linear W _ _ _ ay by_ X Hy Ly). cbn [bind].
  rewrite !map_length, C. unfold group_ends. cbn [app combine draw_each fst snd]. unfold group_points.
  rewrite Nat.sub_0_r, L, Nat.min_id.
  rewrite (loopM (combine (map (fun v => Fin (unit_pos (s_inverted (p_sx p)) ax bx v)) xs) (map (fun v => Fin (unit_pos (s_inverted (p_sy p)) ay by_ v)) ys))
             _ _ (fun q => Ret (spot exact (rect x0 y0 w h) q))).
  2: { rewrite combine_length, !map_length. lia. }
  2: { intros i [x y] Q. apply nth_combine in Q as [Qx Qy]. rewrite (at_some _ _ _ Qx), (at_some _ _ _ Qy). cbn [bind].
       rewrite place_spot. destruct X as [-> _]. reflexivity. }
  change (l_msize c) with (Fin 0).
  rewrite forM_ret. cbn [bind]. unfold xlt. destruct Rlt_dec as [D|_]; [lra|]. cbn [bind].
  unfold draw_labels. change (lb_text (l_lbl c)) with (@nil str). cbn [with_index combine length seq draw_each bind app]. rewrite spots_on_page. reflexivity.
Qed.
Print Assumptions C70_inline.

Lemma points_inlined W s tx ty : s = mk_src [] [] [EList (ELit (s_ "list") :: map ELit tx)] [EList (ELit (s_ "list") :: map ELit ty)] ->
  load_points W s empty empty = Ret (inlined tx, inlined ty).
Proof. intros ->. reflexivity. Qed.
Lemma to_unit_empty W s lo hi : exact_world W -> linear_over s lo hi -> to_unit W s empty = Ret [].
Proof. intros X L. apply (to_unit_linear W s empty [] lo hi X); [|exact L]. exists []. repeat split; constructor. Qed.
Lemma mags W s ts vs lo hi : exact_world W -> Forall2 (reads W) ts vs -> linear_over s lo hi ->
  magnitudes W s (inlined ts) = Ret (map (fun v => Fin (v / (hi - lo))) vs).
Proof.
  intros [XD XF] F (K & A & B & L). unfold magnitudes, translate_magnitudev.
  pose proof (holds_numbers W _ _ (inlined_holds W _ _ F)) as N. unfold databuf_to_numbers in N.
  unfold databuf_to_numbers. rewrite N. cbn [bind]. rewrite map_map. f_equal. apply map_ext. intro v.
  unfold translate_magnitude. rewrite K, XD, XF, A, B, xsub_exact. unfold xdiv. destruct Req_EM_T; [lra|reflexivity].
Qed.
Lemma flat_map_one {A B} (f : A -> B) l : flat_map (fun a => [f a]) l = map f l.
Proof. induction l; cbn; congruence. Qed.
Lemma flat_map_map' {A B C} (f : B -> list C) (g : A -> B) l : flat_map f (map g l) = flat_map (fun a => f (g a)) l.
Proof. induction l; cbn; congruence. Qed.
Lemma map_numbered {A B} (f : A -> B) l : map (fun ia => f (snd ia)) (numbered l) = map f l.
Proof. rewrite <- (numbered_map l) at 2. now rewrite map_map. Qed.

Section Inline.
  Variables (W : world) (E : env) (p : plot) (tx ty : list str) (xs ys : list R) (ax bx ay by_ x0 y0 w h : R).
  Hypotheses (X : exact_world W) (Fx : Forall2 (reads W) tx xs) (Fy : Forall2 (reads W) ty ys) (L : length xs = length ys)
    (Lx : linear_over (p_sx p) ax bx) (Ly : linear_over (p_sy p) ay by_) (C : plot_clip W E p = rect x0 y0 w h).
  Notation page := (on_page (p_sx p) (p_sy p) ax bx ay by_ x0 y0 w h).
  Notation clip := (rect x0 y0 w h).
  Notation posx := (fun v => Fin (unit_pos (s_inverted (p_sx p)) ax bx v)).
  Notation posy := (fun v => Fin (unit_pos (s_inverted (p_sy p)) ay by_ v)).
  Let Hx := inlined_holds W _ _ Fx.
  Let Hy := inlined_holds W _ _ Fy.

  Lemma points_inline :
    points_draw W E p [inline "data-x" tx; inline "data-y" ty] =
    Ret (map (fun q => shape_of (add_circle exact [] (page q) (xmul exact (pt W E 4) (Fin (1 / 2)))) stroke0 (solid (e_fg E)) None) (combine xs ys)).
  Proof.
    unfold points_draw, points_configure.
    replace (run (points_table W E) [inline "data-x" tx; inline "data-y" ty] (points0 W E p)) with
      (Ret (set_p_src (mk_src [] [] [EList (ELit (s_ "list") :: map ELit tx)] [EList (ELit (s_ "list") :: map ELit ty)]) (points0 W E p)))
      by reflexivity.
    cbn [bind]. set (c := set_p_src _ _). rewrite (points_inlined W (p_src c) tx ty eq_refl). cbn [bind fst snd].
    rewrite (holds_len W _ _ Hx), (holds_len W _ _ Hy), L, Nat.eqb_refl. cbn [negb].
    change (colors_of W (p_marks c)) with (Ret (@nil color)). change (sizes_of W (p_marks c)) with (Ret (@nil xr)). cbn [bind fst snd].
    change (p_sx_ c) with (p_sx p). change (p_sy_ c) with (p_sy p). rewrite C.
    rewrite (to_unit_linear W _ _ _ ax bx X Hx Lx). cbn [bind]. rewrite (to_unit_linear W _ _ _ ay by_ X Hy Ly). cbn [bind].
    rewrite (drawn_ex (fun _ q => draw_path_ (add_circle exact [] (page q) (xmul exact (pt W E 4) (Fin (1 / 2)))) stroke0 (solid (e_fg E))) _ (combine xs ys)).
    - cbn [bind]. unfold draw_labels. change (lb_text (p_lbl c)) with (@nil str).
      cbn [with_index combine length seq draw_each bind]. rewrite app_nil_r. unfold draw_path_. rewrite flat_map_one, (map_numbered (fun q => shape_of (add_circle exact [] (page q) (xmul exact (pt W E 4) (Fin (1 / 2)))) stroke0 (solid (e_fg E)) None)). reflexivity.
    - rewrite map_length. symmetry. now apply combine_len.
    - intros i [x y] N. apply nth_combine in N as [Nx Ny].
      rewrite (at_some _ _ _ (map_nth_error posx _ _ Nx)), (at_some _ _ _ (map_nth_error posy _ _ Ny)). cbn [bind].
      change (p_shapes c) with (@nil marker). change (p_shape c) with Disk. cbn [cycle]. change (m_size (p_marks c)) with (pt W E 4).
      change (m_color (p_marks c)) with (e_fg E). unfold draw_marker. rewrite place_spot. destruct X as [-> _]. reflexivity.
  Qed.

  Lemma bars_inline :
    bars_draw W E p [inline "data-x" tx; inline "data-y" ty] =
    Ret (map (fun q => shape_of (outline (bar_corners exact false clip (posx (fst q)) (posy (snd q)) (clamp01 (posy 0)) (Fin 0) (pt W E 10)))
                         (stroke_with (Fin 0) (e_fg E)) (solid (e_fg E)) None) (combine xs ys)).
  Proof.
    unfold bars_draw, bars_configure.
    replace (run (bars_table W E) [inline "data-x" tx; inline "data-y" ty] (bars0 W E p)) with
      (Ret (set_b_y (inlined ty) (set_b_x (inlined tx) (bars0 W E p)))) by reflexivity.
    cbn [bind]. set (c := set_b_y _ _). change (b_x c) with (inlined tx). change (b_y c) with (inlined ty).
    rewrite (holds_len W _ _ Hx), (holds_len W _ _ Hy), L, Nat.eqb_refl. cbn [negb].
    change (databuf_len xr (b_xlow c)) with 0%nat. change (databuf_len xr (b_ylow c)) with 0%nat. cbn [Nat.eqb negb andb bind].
    change (b_x c) with (inlined tx). change (b_y c) with (inlined ty).
    change (b_horiz c) with false. change (b_sx c) with (p_sx p). change (b_sy c) with (p_sy p). change (b_ylow c) with empty. rewrite C.
    rewrite (to_unit_linear W _ _ _ ax bx X Hx Lx). cbn [bind]. rewrite (to_unit_linear W _ _ _ ay by_ X Hy Ly). cbn [bind].
    rewrite (to_unit_empty W _ _ _ X Ly). cbn [bind].
    replace (scale_translate (w_d W) (w_f W) (p_sy p) (Fin 0)) with (Ret (posy 0)).
    2: { destruct X as [-> ->]. symmetry. exact (linear_translate _ _ _ Ly 0). }
    cbn [bind].
    rewrite (drawn_ex (fun _ q => draw_path_ (outline (bar_corners exact false clip (posx (fst q)) (posy (snd q)) (clamp01 (posy 0)) (Fin 0) (pt W E 10)))
                         (stroke_with (Fin 0) (e_fg E)) (solid (e_fg E))) _ (combine xs ys)).
    - cbn [bind]. unfold draw_labels. change (lb_text (b_lbl c)) with (@nil str).
      cbn [with_index combine length seq draw_each bind]. rewrite app_nil_r. unfold draw_path_. rewrite flat_map_one.
      rewrite (map_numbered (fun q => shape_of (outline (bar_corners exact false clip (posx (fst q)) (posy (snd q)) (clamp01 (posy 0)) (Fin 0) (pt W E 10)))
                         (stroke_with (Fin 0) (e_fg E)) (solid (e_fg E)) None)). reflexivity.
    - rewrite map_length. symmetry. now apply combine_len.
    - intros i [x y] N. apply nth_combine in N as [Nx Ny].
      rewrite (at_some _ _ _ (map_nth_error posx _ _ Nx)), (at_some _ _ _ (map_nth_error posy _ _ Ny)). cbn [bind base_at].
      change (b_sizes c) with (@nil xr). change (b_offsets c) with (@nil xr). change (b_size c) with (Fin 0). change (b_offset c) with (Fin 0).
      cbn [cycle]. unfold nonzero_or, xeq. destruct Req_EM_T; [|lra]. unfold bar_path, px_, py_, half_. destruct X as [-> _]. reflexivity.
  Qed.

  Lemma areas_inline :
    areas_draw W E p [inline "data-x" tx; inline "data-y" ty] =
    Ret (let high := map page (combine xs ys) in
         let base := map (fun v => spot exact clip (posx v, clamp01 (posy 0))) xs in
         [shape_of (outline (high ++ rev base)) stroke0 (solid (e_fg E)) None;
          shape_of (polyline high) (stroke_with (Fin 0) (e_fg E)) fill0 None;
          shape_of (polyline (rev base)) (stroke_with (Fin 0) (e_fg E)) fill0 None]).
  Proof.
    unfold areas_draw, areas_configure.
    replace (run (areas_table W E) [inline "data-x" tx; inline "data-y" ty] (areas0 E p)) with
      (Ret (set_a_src (mk_src [] [] [EList (ELit (s_ "list") :: map ELit tx)] [EList (ELit (s_ "list") :: map ELit ty)]) (areas0 E p)))
      by reflexivity.
    cbn [bind]. set (c0 := set_a_src _ _). change (a_x c0) with empty. change (a_y c0) with empty.
    rewrite (points_inlined W (a_src c0) tx ty eq_refl). cbn [bind fst snd]. set (c := set_a_y _ _). cbv zeta.
    change (a_x c) with (inlined tx). change (a_y c) with (inlined ty).
    rewrite (holds_len W _ _ Hx), (holds_len W _ _ Hy), L, Nat.eqb_refl. cbn [negb].
    change (databuf_len xr (a_xlow c)) with 0%nat. change (databuf_len xr (a_ylow c)) with 0%nat. cbn [Nat.eqb negb andb bind].
    change (a_x c) with (inlined tx). change (a_y c) with (inlined ty).
    change (a_horiz c) with false. change (a_sx c) with (p_sx p). change (a_sy c) with (p_sy p). change (a_ylow c) with empty. change (a_xlow c) with empty. rewrite C.
    rewrite (to_unit_linear W _ _ _ ax bx X Hx Lx). cbn [bind]. rewrite (to_unit_empty W _ _ _ X Lx). cbn [bind].
    rewrite (to_unit_linear W _ _ _ ay by_ X Hy Ly). cbn [bind].
    rewrite (to_unit_empty W _ _ _ X Ly). cbn [bind].
    replace (scale_translate (w_d W) (w_f W) (p_sy p) (Fin 0)) with (Ret (posy 0)).
    2: { destruct X as [-> ->]. symmetry. exact (linear_translate _ _ _ Ly 0). }
    rewrite map_length.
    rewrite (loopM (combine xs ys) _ _ (fun q => Ret (page q))).
    2: { symmetry. now apply combine_len. }
    2: { intros i [x y] N. apply nth_combine in N as [Nx Ny].
         rewrite (at_some _ _ _ (map_nth_error posx _ _ Nx)), (at_some _ _ _ (map_nth_error posy _ _ Ny)). cbn [bind].
         rewrite place_spot. destruct X as [-> _]. reflexivity. }
    rewrite forM_ret. cbn [bind].
    rewrite (loopM_rev (combine xs ys) _ _ (fun q => spot exact clip (posx (fst q), clamp01 (posy 0)))).
    2: { symmetry. now apply combine_len. }
    2: { intros i [x y] N. apply nth_combine in N as [Nx Ny].
         rewrite (at_some _ _ _ (map_nth_error posx _ _ Nx)), (at_some _ _ _ (map_nth_error posy _ _ Ny)). cbn [bind base_at].
         rewrite place_spot. destruct X as [-> _]. reflexivity. }
    cbn [bind]. rewrite <- (map_map fst (fun v => spot exact clip (posx v, clamp01 (posy 0)))).
    replace (map fst (combine xs ys)) with xs.
    2: { clear - L. revert ys L. induction xs as [|x l IH]; intros [|y m] L; try discriminate L; [reflexivity|]. cbn. f_equal. apply IH. now injection L. }
    f_equal. f_equal. f_equal. destruct xs as [|x l]; [reflexivity|]. destruct ys as [|y m]; [discriminate L|].
    cbn [combine map polyline outline app]. now rewrite map_app, <- app_assoc.
  Qed.

  Variables (tdx tdy : list str) (dxs dys : list R).
  Hypotheses (Fdx : Forall2 (reads W) tdx dxs) (Fdy : Forall2 (reads W) tdy dys) (Ldx : length dxs = length xs) (Ldy : length dys = length xs).
  Let Hdx := inlined_holds W _ _ Fdx.
  Let Hdy := inlined_holds W _ _ Fdy.

  Lemma vectors_inline : s_inverted (p_sx p) = false -> s_inverted (p_sy p) = false ->
    vectors_draw W E p [inline "data-x" tx; inline "data-y" ty; inline "data-dx" tdx; inline "data-dy" tdy] =
    Ret (flat_map (fun q => let '((x, y), (dx, dy)) := q in
                            arrow exact (page (x, y)) (page (x + dx, y + dy)) (pt W E 1) (e_fg E))
           (combine (combine xs ys) (combine dxs dys))).
  Proof.
    intros Ix Iy. unfold vectors_draw, vectors_configure.
    match goal with |- context [run _ _ ?s0] =>
      replace (run (vectors_table W E) [inline "data-x" tx; inline "data-y" ty; inline "data-dx" tdx; inline "data-dy" tdy] s0) with
      (Ret (set_v_dy (inlined tdy) (set_v_dx (inlined tdx)
        (set_v_src (mk_src [] [] [EList (ELit (s_ "list") :: map ELit tx)] [EList (ELit (s_ "list") :: map ELit ty)]) s0))))
      by reflexivity end.
    cbn [bind]. set (c := set_v_dy _ _). rewrite (points_inlined W (v_src c) tx ty eq_refl). cbn [bind fst snd].
    rewrite (holds_len W _ _ Hx), (holds_len W _ _ Hy), L, Nat.eqb_refl. cbn [negb].
    change (colors_of W (v_marks c)) with (Ret (@nil color)). change (sizes_of W (v_marks c)) with (Ret (@nil xr)). cbn [bind fst snd].
    change (v_sx c) with (p_sx p). change (v_sy c) with (p_sy p). change (v_dx c) with (inlined tdx). change (v_dy c) with (inlined tdy). rewrite C.
    rewrite (to_unit_linear W _ _ _ ax bx X Hx Lx). cbn [bind]. rewrite (to_unit_linear W _ _ _ ay by_ X Hy Ly). cbn [bind].
    rewrite (mags W _ _ _ _ _ X Fdx Lx). cbn [bind]. rewrite (mags W _ _ _ _ _ X Fdy Ly). cbn [bind].
    rewrite (drawn_ex (fun _ q => let '((x, y), (dx, dy)) := q in
                            arrow exact (page (x, y)) (page (x + dx, y + dy)) (pt W E 1) (e_fg E)) _ (combine (combine xs ys) (combine dxs dys))).
    - f_equal. rewrite <- (numbered_map (combine (combine xs ys) (combine dxs dys))) at 2. rewrite flat_map_map'. reflexivity.
    - rewrite map_length, !combine_length. lia.
    - intros i [[x y] [dx dy]] N. apply nth_combine in N as [N1 N2]. apply nth_combine in N1 as [Nx Ny]. apply nth_combine in N2 as [Ndx Ndy].
      rewrite (at_some _ _ _ (map_nth_error posx _ _ Nx)), (at_some _ _ _ (map_nth_error posy _ _ Ny)).
      rewrite (at_some _ _ _ (map_nth_error (fun v => Fin (v / (bx - ax))) _ _ Ndx)), (at_some _ _ _ (map_nth_error (fun v => Fin (v / (by_ - ay))) _ _ Ndy)).
      cbn [bind cycle]. change (m_size (v_marks c)) with (pt W E 1). change (m_color (v_marks c)) with (e_fg E).
      destruct X as [XD _]. unfold draw_arrow. rewrite XD. unfold arrow. cbv zeta.
      assert (P1 : mk_vec2 (xadd exact (rx clip) (xmul exact (rw clip) (posx x))) (xadd exact (ry clip) (xmul exact (rh clip) (posy y))) = page (x, y)).
      { unfold on_page, vec. cbn. unfold exact. f_equal; f_equal; lra. }
      assert (P2 : mk_vec2 (xadd exact (vx (page (x, y))) (xmul exact (Fin (dx / (bx - ax))) (rw clip)))
                     (xadd exact (vy (page (x, y))) (xmul exact (Fin (dy / (by_ - ay))) (rh clip))) = page (x + dx, y + dy)).
      { unfold on_page, vec. cbn. unfold exact. rewrite Ix, Iy. destruct Lx as (_ & _ & _ & L1), Ly as (_ & _ & _ & L2).
        unfold unit_pos. f_equal; f_equal; field; lra. }
      rewrite P1, P2. reflexivity.
  Qed.

  Lemma errorbars_inline : xs <> [] ->
    errorbars_draw W E p [inline "data-x" tx; inline "data-y-low" tdx; inline "data-y-high" tdy] =
    Ret (flat_map (fun q => let '(x, (lo, hi)) := q in error_bar exact (page (x, lo)) (page (x, hi)) (pt W E 6) (pt W E 1) (e_fg E))
           (combine xs (combine dxs dys))).
  Proof.
    intros NE. unfold errorbars_draw, err_configure.
    replace (run (err_table W E) [inline "data-x" tx; inline "data-y-low" tdx; inline "data-y-high" tdy] (err0 W E p)) with
      (Ret (set_e_yhigh (inlined tdy) (set_e_ylow (inlined tdx) (set_e_x (inlined tx) (err0 W E p))))) by reflexivity.
    cbn [bind]. set (c := set_e_yhigh _ _). change (e_x c) with (inlined tx). change (e_ylow c) with (inlined tdx). change (e_yhigh c) with (inlined tdy).
    change (e_y c) with empty. change (e_xlow c) with empty. change (e_xhigh c) with empty. change (databuf_len xr empty) with 0%nat.
    rewrite (holds_len W _ _ Hx), (holds_len W _ _ Hdx), (holds_len W _ _ Hdy), Ldx, Ldy, !Nat.eqb_refl.
    replace (0 <? length xs)%nat with true by (destruct xs; [congruence|reflexivity]). cbn [Nat.eqb andb negb orb Nat.ltb Nat.leb].
    change (colors_of W (e_marks c)) with (Ret (@nil color)). cbn [bind].
    change (e_x c) with (inlined tx). change (e_ylow c) with (inlined tdx). change (e_yhigh c) with (inlined tdy).
    change (e_y c) with empty. change (e_xlow c) with empty. change (e_xhigh c) with empty.
    change (e_sx c) with (p_sx p). change (e_sy c) with (p_sy p). rewrite C.
    rewrite (to_unit_linear W _ _ _ ax bx X Hx Lx). cbn [bind]. rewrite !(to_unit_empty W _ _ _ X Lx). cbn [bind].
    rewrite (to_unit_empty W _ _ _ X Ly). cbn [bind].
    rewrite (to_unit_linear W _ _ _ ay by_ X Hdx Ly). cbn [bind]. rewrite (to_unit_linear W _ _ _ ay by_ X Hdy Ly). cbn [bind].
    unfold min3. rewrite !map_length, Ldx, Ldy, !Nat.min_id. cbn [length Nat.min seq draw_each].
    rewrite (drawn_ex (fun _ q => let '(x, (lo, hi)) := q in error_bar exact (page (x, lo)) (page (x, hi)) (pt W E 6) (pt W E 1) (e_fg E))
               _ (combine xs (combine dxs dys))).
    - cbn [bind]. rewrite app_nil_r. f_equal. rewrite <- (numbered_map (combine xs (combine dxs dys))) at 2. rewrite flat_map_map'. reflexivity.
    - rewrite !combine_length. lia.
    - intros i [x [lo hi]] N. apply nth_combine3 in N as (Nx & Nl & Nh).
      rewrite (at_some _ _ _ (map_nth_error posx _ _ Nx)), (at_some _ _ _ (map_nth_error posy _ _ Nl)), (at_some _ _ _ (map_nth_error posy _ _ Nh)).
      cbn [bind cycle]. change (e_barw c) with (pt W E 6). change (e_strokew c) with (pt W E 1). change (m_color (e_marks c)) with (e_fg E).
      rewrite !place_spot. destruct X as [XD _]. unfold err_bar. rewrite XD. reflexivity.
  Qed.

  Lemma rectangles_inline :
    rectangles_draw W E p [inline "data-x" tx; inline "data-y" ty; inline "data-size-x" tdx; inline "data-size-y" tdy] =
    Ret (map (fun q => let '((x, y), (dx, dy)) := q in
                       shape_of (box_around exact (page (x, y)) (Fin (dx / (bx - ax) * w)) (Fin (dy / (by_ - ay) * h))) stroke0 (solid (e_fg E)) (Some false))
           (combine (combine xs ys) (combine dxs dys))).
  Proof.
    unfold rectangles_draw, rects_configure.
    match goal with |- context [run _ _ ?s0] =>
      replace (run (rects_table W E) [inline "data-x" tx; inline "data-y" ty; inline "data-size-x" tdx; inline "data-size-y" tdy] s0) with
      (Ret (set_r_szy (inlined tdy) (set_r_szx (inlined tdx)
        (set_r_src (mk_src [] [] [EList (ELit (s_ "list") :: map ELit tx)] [EList (ELit (s_ "list") :: map ELit ty)]) s0))))
      by reflexivity end.
    cbn [bind]. set (c := set_r_szy _ _). rewrite (points_inlined W (r_src c) tx ty eq_refl). cbn [bind fst snd].
    rewrite (holds_len W _ _ Hx), (holds_len W _ _ Hy), L, Nat.eqb_refl. cbn [negb].
    change (colors_of W (r_marks c)) with (Ret (@nil color)). cbn [bind fst snd].
    change (r_sx c) with (p_sx p). change (r_sy c) with (p_sy p). change (r_szx c) with (inlined tdx). change (r_szy c) with (inlined tdy). rewrite C.
    rewrite (to_unit_linear W _ _ _ ax bx X Hx Lx). cbn [bind]. rewrite (to_unit_linear W _ _ _ ay by_ X Hy Ly). cbn [bind].
    rewrite (mags W _ _ _ _ _ X Fdx Lx). cbn [bind]. rewrite (mags W _ _ _ _ _ X Fdy Ly). cbn [bind].
    rewrite (drawn_ex (fun _ q => let '((x, y), (dx, dy)) := q in
                       [shape_of (box_around exact (page (x, y)) (Fin (dx / (bx - ax) * w)) (Fin (dy / (by_ - ay) * h))) stroke0 (solid (e_fg E)) (Some false)])
               _ (combine (combine xs ys) (combine dxs dys))).
    - f_equal. rewrite <- (numbered_map (combine (combine xs ys) (combine dxs dys))) at 2. rewrite map_map.
      rewrite <- flat_map_one. apply flat_map_ext. intros [i [[x y] [dx dy]]]. reflexivity.
    - rewrite map_length, !combine_length. lia.
    - intros i [[x y] [dx dy]] N. apply nth_combine in N as [N1 N2]. apply nth_combine in N1 as [Nx Ny]. apply nth_combine in N2 as [Ndx Ndy].
      rewrite (at_some _ _ _ (map_nth_error posx _ _ Nx)), (at_some _ _ _ (map_nth_error posy _ _ Ny)).
      cbn [bind]. change (m_color (r_marks c)) with (e_fg E). destruct X as [XD _]. rewrite XD, !cycle_turn. unfold turn. rewrite !map_length, !map_map.
      assert (I : (i < length xs)%nat) by (apply nth_error_Some; congruence).
      rewrite Ldx, Ldy, Nat.mod_small by exact I.
      rewrite (nth_error_nth _ _ _ (map_nth_error (fun v => xmul exact (Fin (v / (bx - ax))) (rw clip)) _ _ Ndx)).
      rewrite (nth_error_nth _ _ _ (map_nth_error (fun v => xmul exact (Fin (v / (by_ - ay))) (rh clip)) _ _ Ndy)).
      replace (nth (i mod length (@nil color)) [] (e_fg E)) with (e_fg E) by (now destruct (i mod length (@nil color))).
      assert (P1 : mk_vec2 (xadd exact (rx clip) (xmul exact (rw clip) (posx x))) (xadd exact (ry clip) (xmul exact (rh clip) (posy y))) = page (x, y)).
      { unfold on_page, vec. cbn. unfold exact. f_equal; f_equal; lra. }
      rewrite P1. reflexivity.
  Qed.
End Inline.
