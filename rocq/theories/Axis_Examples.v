(** Counterexamples and concrete cases for C80, C81, C82 and C92. *)
From Coq Require Import Reals Lra.
From Verif Require Import Base Num Num_Facts Sexpr_Model Dispatch_Model Dispatch_Spec Data_Model Data_Spec Scale_Model Scale_Spec Scale_Proofs4 Scale_Props
  Units_Model Color_Model Geo_Model Geo_Props Svg_Model Geojson_Model Format_Model Format_Proofs Cmd_Model Cmd_Spec Cmd_Proofs Style_Model Plot_Model Plot_Spec Plot_Proofs Plot_Parts
  Eval_Model Range_Spec Range_Draw Axis_Model Axis_Spec Axis_Place Axis_Table Axis_Proofs Axis_Props Axis_Props2 Demo.
Local Open Scope R_scope.

(** C80. The placement exponential-steps labels the ticks between two powers with the lower power:
    on a logarithmic axis from 1 to 2 the tick at the end, where 2 stands, is labelled 1. *)
Definition one_two : scale := mk_scale Logarithmic (Some (Fin 1)) (Some (Fin 2)) (Fin 10) false (Fin 0) None None [] [].
Lemma one_two_at v : 0 < v -> scale_translate exact exact one_two (Fin v) = Ret (Fin (ln v / ln 2)).
Proof.
  intro V. pose proof ln10 as L10. assert (L2 : 0 < ln 2) by (rewrite <- ln_1; apply ln_increasing; lra).
  unfold scale_translate. cbn [s_kind one_two]. f_equal. unfold translate_log, log_of, scale_min, scale_max. cbn [s_min s_max s_log_base s_inverted one_two xle].
  destruct (Rle_dec v 0); [lra|]. cbn [xeq]. repeat (destruct Req_EM_T; [lra|]). cbn [xlog]. repeat (destruct Rlt_dec; [|lra]). unfold exact. rewrite ln_1.
  cbn [xdiv xsub xadd xneg]. repeat (destruct Req_EM_T; try lra). unfold exact in *. cbn [xsub xadd xneg xdiv]. unfold exact.
  destruct Req_EM_T as [Q|Q].
  - exfalso. assert (ln 2 / ln 10 = 0) by lra. apply Rmult_integral in H as [H|H]; [lra|]. pose proof (Rinv_0_lt_compat _ L10). lra.
  - f_equal. field. split; [lra|]. intro Z. lra.
Qed.
Theorem C80_exp_steps_refuted : forall (show : xr -> str) (fmt : nat -> str -> str) (fuel : nat), (5 < fuel)%nat ->
  run_placement exact exact show fmt fuel (PExpSteps (Fin 10) (Fin 10)) one_two empty_layout =
    Ret (mk_layout [Fin 0; Fin 1] [fmt 0%nat (show (Fin 1)); fmt 1%nat (show (Fin 1))]) /\
  scale_translate exact exact one_two (Fin 2) = Ret (Fin 1).
Proof.
  intros show fmt fuel F. assert (L2 : 0 < ln 2) by (rewrite <- ln_1; apply ln_increasing; lra).
  assert (T1 : scale_translate exact exact one_two (Fin 1) = Ret (Fin 0)) by (rewrite one_two_at by lra; rewrite ln_1; do 2 f_equal; field; lra).
  assert (T2 : scale_translate exact exact one_two (Fin 2) = Ret (Fin 1)) by (rewrite one_two_at by lra; do 2 f_equal; field; lra).
  split; [|exact T2].
  assert (U : to_unsigned 64 (Fin 10) = Ret 10%nat).
  { unfold to_unsigned. replace 10 with (IZR 10) by reflexivity. rewrite Ztrunc_IZR. reflexivity. }
  unfold run_placement. rewrite U. cbn [bind].
  unfold layout_exponential_steps.
  assert (S0 : start_exp exact exact one_two = Fin (IZR 0)).
  { unfold start_exp, scale_min. cbn [s_min one_two s_log_base xeq]. destruct Req_EM_T; [lra|]. cbn [xlog]. repeat (destruct Rlt_dec; [|lra]).
    unfold exact. rewrite ln_1. cbn [xdiv]. pose proof ln10. destruct Req_EM_T; [lra|]. unfold exact. f_equal. field. lra. }
  rewrite S0.
  do 5 (destruct fuel as [|fuel]; [lia|]). destruct fuel as [|fuel]; [lia|].
  cbn [exp_steps_loop]. rewrite (xpow10 0). replace (xadd exact (Fin (IZR 0)) (Fin 1)) with (Fin (IZR 1)) by (cbn; unfold exact; f_equal; lra).
  rewrite (xpow10 1). replace (powerRZ 10 0) with 1 by reflexivity. replace (powerRZ 10 1) with 10 by (symmetry; apply powerRZ_1).
  assert (Mn : scale_min exact exact one_two = Fin 1) by reflexivity. assert (Mx : scale_max exact exact one_two = Fin 2) by reflexivity. rewrite Mn.
  assert (Me : xadd exact (scale_max exact exact one_two) (epsilon exact) = Fin (2 + 1 / 1000)) by reflexivity. rewrite !Me.
  assert (Lt : forall a b, a < b -> xlt (Fin a) (Fin b) = true) by (intros a b L; cbn; destruct Rlt_dec; [reflexivity|lra]).
  assert (Nl : forall a b, b <= a -> xlt (Fin a) (Fin b) = false) by (intros a b L; cbn; destruct Rlt_dec; [lra|reflexivity]).
  rewrite (Nl 1 1), (Nl (2 + 1 / 1000) 1) by lra.
  change (pred64 10) with 9%N.
  cbn [inner_steps]. rewrite ?Me. change (0 <? 9)%N with true. cbv iota.
  assert (V : forall m, xadd exact (Fin 1) (xmul exact (xdiv exact (Fin (exact (INR (N.to_nat m)))) (Fin (exact (INR (N.to_nat 9))))) (xsub exact (Fin 10) (Fin 1))) = Fin (1 + INR (N.to_nat m))).
  { intro m. change (INR (N.to_nat 9)) with (INR 9). replace (INR 9) with 9 by (rewrite INR_IZR_INZ; reflexivity). unfold exact. cbn [xdiv]. destruct Req_EM_T; [lra|]. cbn. unfold exact. f_equal. field. }
  rewrite V. replace (1 + INR (N.to_nat 0)) with 1 by (cbn; lra). rewrite T1. cbn [bind]. rewrite ?Me, (Nl (2 + 1 / 1000) 1) by lra.
  change (0 + 1 <? 9)%N with true. cbv iota. rewrite V. replace (1 + INR (N.to_nat (0 + 1))) with 2 by (change (N.to_nat (0 + 1)) with 1%nat; cbn [INR]; lra). rewrite T2. cbn [bind]. rewrite ?Me, (Nl (2 + 1 / 1000) 2) by lra.
  change (0 + 1 + 1 <? 9)%N with true. cbv iota. rewrite V. replace (1 + INR (N.to_nat (0 + 1 + 1))) with 3 by (change (N.to_nat (0 + 1 + 1)) with 2%nat; cbn [INR]; lra). rewrite one_two_at by lra. cbn [bind]. rewrite ?Me, (Lt (2 + 1 / 1000) 3) by lra.
  cbn [bind]. rewrite (Nl 10 1) by lra. rewrite (Lt (2 + 1 / 1000) 10) by lra. reflexivity.
Qed.
Print Assumptions C80_exp_steps_refuted.

(** C80. The axis command (not axes) does not look at the scales of the plot: it draws the same
    axis, by default from 0 to 1, whatever the data. *)
Theorem C80_axis_refuted : forall (W : world) (E : env) (p p' : plot) (e : list expr),
  plot_clip W E p = plot_clip W E p' -> plot_axis W E p e = plot_axis W E p' e.
Proof.
  intros W E p p' e C. unfold plot_axis. destruct (axis_configure W E e) as [a| | | |]; try reflexivity. cbn [bind].
  unfold draw_aligned. rewrite C. reflexivity.
Qed.
Print Assumptions C80_axis_refuted.

(** C92. The options tick-placement-x and tick-placement-y, which grid knows, are errors for axes:
    in the table their places are taken by a second label-placement-x and -y. *)
Theorem C92_tick_placement_refuted : forall (W : world) (E : env) (p : plot) (a e : list expr) (k : str),
  In k [s_ "tick-placement-x"; s_ "tick-placement-y"] -> plot_axes W E p (EList (ELit k :: a) :: e) = Err.
Proof.
  intros W E p a e k I. unfold plot_axes. rewrite run_cons. cbn [option_of]. rewrite table_used.
  replace (assoc k (table1 W E ++ table2 W E)) with (@None (cmd axes_cfg)); [reflexivity|].
  destruct I as [<-|[<-|[]]]; rewrite assoc_index;
    match goal with |- context [index_of ?k ?l] => replace (index_of k l) with (@None nat) by (vm_compute; reflexivity) end; reflexivity.
Qed.
Print Assumptions C92_tick_placement_refuted.

(** C81. Nothing is reserved for the tick marks. *)
Theorem C81_tick_length_refuted : forall (W : world) (E : env) (a : axis) (v : xr),
  axis_layout W E (set_a_ticklen v a) = axis_layout W E a.
Proof.
  intros W E a v. assert (L : forall ts m, label_extent W E (set_a_ticklen v a) ts m = label_extent W E a ts m).
  { induction ts as [|[t l] r IH]; intro m; [reflexivity|]. cbn [label_extent]. destruct (w_measure W _ _ _ _); try reflexivity; cbn [bind].
    - apply IH. }
  unfold axis_layout, axis_layout_labels. change (a_lplace (set_a_ticklen v a)) with (a_lplace a). change (a_scale (set_a_ticklen v a)) with (a_scale a).
  change (a_lformat (set_a_ticklen v a)) with (a_lformat a). destruct (call_placement W (a_lplace a) (a_scale a) (a_lformat a)); try reflexivity.
  cbn [bind]. now rewrite L.
Qed.
Print Assumptions C81_tick_length_refuted.

(* ---------------- the grid lines of y are mirrored ---------------- *)
Lemma placed_noop W p s ps vs :
  (forall fmt, run_placement (w_d W) (w_f W) (w_show W) fmt (w_fuel W) p s empty_layout = Ret (mk_layout ps (labels_from (w_show W) fmt 0 vs))) ->
  exists l, placed W p s format_noop = Ret l /\ positions l = ps.
Proof.
  intro Q. unfold placed. rewrite !Q. cbn [bind labels].
  replace (existsb _ (labels_from _ _ 0 vs)) with false.
  - eexists. split; reflexivity.
  - symmetry. unfold labels_from, format_noop. induction (combine _ vs) as [|x l IH]; [reflexivity|]. exact IH.
Qed.
Lemma four_ticks vs : arithmetic_ticks 0 4 10 vs -> vs = [0; 4; 8].
Proof.
  intros [A B].
  assert (L : (length vs <= 3)%nat).
  { destruct (le_lt_dec (length vs) 3) as [|G]; [assumption|]. destruct (nth_error vs 3) as [v|] eqn:N; [|apply nth_error_None in N; lia].
    destruct (A _ _ N) as [-> X]. rewrite INR_IZR_INZ in X. cbn in X. lra. }
  assert (L' : (2 < length vs)%nat).
  { destruct (le_lt_dec (length vs) 2) as [G|]; [|assumption]. apply le_INR in G. change (INR 2) with 2 in G. lra. }
  destruct vs as [|a [|b [|c [|]]]]; cbn in L, L'; try lia.
  destruct (A 0%nat a eq_refl) as [Ha _], (A 1%nat b eq_refl) as [Hb _], (A 2%nat c eq_refl) as [Hc _]. cbn in Ha, Hb, Hc. f_equal; [lra|f_equal; [lra|f_equal; lra]].
Qed.
Definition every_four : list expr := [EList [ELit (s_ "tick-placement-y"); EList [ELit (s_ "linear"); ELit (s_ "4")]]].
(** C82. The ticks at 0, 4 and 8 of a y axis from 0 to 10, 800 high, stand at 0, 320 and 640; the
    grid lines are drawn at 800, 480 and 160. *)
Theorem C82_mirrored_refuted : exists st tops out,
  plot_grid demo demo_env demo_plot every_four = Ret (tops ++ out) /\ length tops = 11%nat /\
  out = [horizontal 0 0 1600 800 800 st; horizontal 0 0 1600 800 480 st; horizontal 0 0 1600 800 160 st] /\
  scale_translate exact exact ten (Fin 4) = Ret (Fin (320 / 800)).
Proof.
  assert (Q4 : exists l, placed demo (PLinear (Fin 4)) ten format_noop = Ret l /\ positions l = map Fin [0; 2/5; 4/5]).
  { destruct (C24_linear (w_show demo) (fun _ v => v) ten 0 10 4 empty_layout demo_linear ltac:(lra) ltac:(lra)) as (vs & A & _).
    pose proof (four_ticks vs A) as ->. apply (placed_noop demo _ ten _ (map Fin [0; 4; 8])). intro fmt.
    destruct (C24_linear (w_show demo) fmt ten 0 10 4 empty_layout demo_linear ltac:(lra) ltac:(lra)) as (vs & A' & R).
    pose proof (four_ticks vs A') as ->. change (w_d demo) with exact. change (w_f demo) with exact. change (w_fuel demo) with 1000%nat. rewrite R by (cbn; lia).
    cbn [empty_layout positions labels app map s_inverted ten]. unfold unit_pos.
    replace ((0 - 0) / (10 - 0)) with 0 by lra. replace ((4 - 0) / (10 - 0)) with (2 / 5) by lra. replace ((8 - 0) / (10 - 0)) with (4 / 5) by lra. reflexivity. }
  assert (Q10 : exists l, placed demo (PSubdivide (Fin 10)) ten format_noop = Ret l /\ positions l = map Fin (map (fun i => INR i / INR 10) (seq 0 11))).
  { apply (placed_noop demo _ ten _ (map (fun i => Fin (division false 0 10 10 i)) (seq 0 11))). intro fmt.
    change (w_d demo) with exact. change (w_f demo) with exact. replace (Fin 10) with (Fin (INR 10)) by (f_equal; rewrite INR_IZR_INZ; reflexivity).
    rewrite (C24_subdivide _ _ ten 0 10 10) by (solve [apply demo_linear | lia | reflexivity]). reflexivity. }
  destruct Q4 as (l4 & P4 & E4). destruct Q10 as (l10 & P10 & E10).
  assert (G : exists out st, plot_grid demo demo_env demo_plot every_four = Ret out /\ 
    out = grid_lines demo (plot_clip demo demo_env demo_plot) st (positions l10) (positions l4)).
  { unfold plot_grid.
    assert (R : run (grid_table demo demo_env) every_four (grid0 demo demo_env demo_plot) =
                Ret (set_gr_ly (Some (PLinear (Fin 4))) (grid0 demo demo_env demo_plot))) by reflexivity.
    rewrite R. cbn [bind]. change (gr_sx _) with ten. change (gr_sy _) with ten.
    change (grid_default ten (gr_lx _)) with (Some (PSubdivide (Fin 10))). change (grid_default ten (gr_ly _)) with (Some (PLinear (Fin 4))).
    cbn [call_placement]. rewrite P10, P4. cbn [bind]. do 2 eexists. split; reflexivity. }
  destruct G as (out & st & G & O). rewrite demo_clip, E4, E10 in O. unfold grid_lines in O. cbn [rx ry rw rh rect] in O. change (w_d demo) with exact in O.
  exists st. do 2 eexists. split; [rewrite G, O; reflexivity|]. split; [reflexivity|]. split.
  - assert (L : forall t y, 0 + (1 - t) * 800 = y -> draw_line_ (mk_vec2 (Fin 0) (xadd exact (Fin 0) (xmul exact (Fin 800) (xsub exact (Fin 1) (Fin t)))))
        (mk_vec2 (xadd exact (Fin 0) (Fin 1600)) (xadd exact (Fin 0) (xmul exact (Fin 800) (xsub exact (Fin 1) (Fin t))))) st = [horizontal 0 0 1600 800 y st]).
    { intros t y <-. unfold draw_line_, horizontal, stroke_line, vec. cbn. unfold exact. now rewrite (Rmult_comm 800). }
    cbn [flat_map map app]. rewrite (L 0 800), (L (2 / 5) 480), (L (4 / 5) 160) by lra. reflexivity.
  - rewrite (linear_translate ten 0 10 demo_linear). unfold unit_pos. cbn [s_inverted ten]. do 2 f_equal. lra.
Qed.
Print Assumptions C82_mirrored_refuted.

(* ---------------- a concrete case: (axes) on the plot of Demo ---------------- *)
Lemma demo_placed fm : (forall i v, exists t, fm i v = Ret t) ->
  exists l, placed demo (PSubdivide (Fin 10)) ten fm = Ret l /\ length (positions l) = 11%nat /\ length (labels l) = 11%nat.
Proof.
  intro F. unfold placed. change (w_d demo) with exact. change (w_f demo) with exact. replace (Fin 10) with (Fin (INR 10)) by (f_equal; rewrite INR_IZR_INZ; reflexivity).
  rewrite !(C24_subdivide _ _ ten 0 10 10) by (solve [apply demo_linear | lia | reflexivity]). cbn [bind labels].
  replace (existsb _ _) with false.
  - eexists. split; [reflexivity|]. split; reflexivity.
  - symmetry. induction (seq 0 11) as [|i r IH]; [reflexivity|]. cbn [map existsb]. rewrite IH. destruct (F i (w_show demo (Fin (if s_inverted ten then 10 - (10 - 0) * cell_border 10 i else 0 + (10 - 0) * cell_border 10 i)))) as [t ->]. reflexivity.
Qed.
Lemma demo_extent a ts m : 0 <= m -> m <= 10 -> xeq (a_lrotate a) (Fin 0) = true ->
  label_extent demo demo_env a ts (Fin m) = Ret (match ts with [] => Fin m | _ => Fin 10 end).
Proof.
  intros M M' R. revert m M M'. induction ts as [|[t l] r IH]; intros m M M'; [reflexivity|].
  cbn [label_extent w_measure demo bind]. unfold rotated. rewrite R. replace (if is_horizontal (a_align a) then rh (rect 0 0 10 10) else rw (rect 0 0 10 10)) with (Fin 10) by (now destruct (is_horizontal (a_align a))).
  assert (X : xmax (Fin m) (Fin 10) = Fin 10).
  { unfold xmax, xlt. destruct (Rlt_dec m 10); [reflexivity|]. f_equal. lra. }
  rewrite X, IH by lra. now destruct r.
Qed.
Definition demo_axis (g : axis_align) : axis := axis_set_defaults demo (axis0 demo demo_env g ten).
Lemma demo_axis_is g : a_lplace (demo_axis g) = Some (PSubdivide (Fin 10)) /\ a_tickplace (demo_axis g) = Some (PSubdivide (Fin 10)) /\
  a_scale (demo_axis g) = ten /\ a_lformat (demo_axis g) = Some (format_fixed (stod_val demo) 1) /\ a_title (demo_axis g) = [] /\ a_lrotate (demo_axis g) = Fin 0 /\
  a_align (demo_axis g) = g /\ a_lpad (demo_axis g) = Fin 0 /\ a_lsize (demo_axis g) = page_font_size demo demo_env.
Proof. destruct g; repeat split. Qed.
Lemma demo_em : page_font_size demo demo_env = Fin (11 / 72 * 192).
Proof. unfold page_font_size. cbn. unfold unit_from_pt, xdiv. destruct Req_EM_T; [lra|]. reflexivity. Qed.
Lemma demo_labels g : axis_layout_labels demo demo_env (demo_axis g) = Ret (Fin 10).
Proof.
  destruct (demo_axis_is g) as (D1 & D2 & D3 & D4 & D5 & D6 & D7 & D8 & D9).
  destruct (demo_placed (format_fixed (stod_val demo) 1)) as (l & P & L1 & L2); [intros; eexists; reflexivity|].
  unfold axis_layout_labels. rewrite D1, D3, D4. cbn [call_placement]. rewrite P. cbn [bind]. rewrite demo_extent; [|lra|lra|rewrite D6; cbn; destruct Req_EM_T; [reflexivity|lra]].
  unfold ticks_of. destruct (positions l) as [|p0 ps]; [discriminate|]. destruct (labels l) as [|l0 ls]; [discriminate|]. reflexivity.
Qed.
Lemma demo_pad g : label_pad demo (demo_axis g) = Fin (8 / 10 * (11 / 72 * 192)).
Proof.
  destruct (demo_axis_is g) as (D1 & D2 & D3 & D4 & D5 & D6 & D7 & D8 & D9). unfold label_pad, em_or. rewrite D8, D9, demo_em. unfold nonzero_or. cbn. destruct Req_EM_T; [|lra]. reflexivity.
Qed.
Lemma demo_drawn g p : exists out, draw_aligned demo demo_env p (demo_axis g) = Ret out /\ length out = 23%nat.
Proof.
  assert (D : forall hz across c0 c1, exists out, draw_axis demo demo_env hz (demo_axis g) across c0 c1 = Ret out /\ length out = 23%nat).
  { intros hz across c0 c1. destruct (demo_axis_is g) as (D1 & D2 & D3 & D4 & D5 & D6 & D7 & D8 & D9).
    destruct (demo_placed (format_fixed (stod_val demo) 1)) as (l & P & L1 & L2); [intros; eexists; reflexivity|].
    unfold draw_axis. rewrite D1, D2, D3, D4, D5. cbn [call_placement]. rewrite !P. cbn [bind]. rewrite demo_labels. cbn [bind].
    destruct (attach_align (a_attach (demo_axis g))) as [hx vx_].
    assert (T : forall its q c, exists ts, draw_each (fun it : xr * str => draw_text_ demo demo_env (a_lfont (demo_axis g)) (a_lsize (demo_axis g)) (a_lcolor (demo_axis g)) (snd it) (xy hz (along demo c0 c1 (fst it)) q) hx vx_ c) its = Ret ts /\ length ts = length its).
    { intros its q c. induction its as [|it r (ts & I1 & I2)]; [exists []; split; reflexivity|].
      cbn [draw_each]. unfold draw_text_ at 1. cbn [w_text demo bind]. rewrite I1. cbn [bind]. eexists. split; [reflexivity|]. rewrite app_length. cbn. now rewrite I2. }
    match goal with |- context [draw_each ?f ?its] => match f with context [xy hz _ ?q] => destruct (T its q (a_lrotate (demo_axis g))) as (ts & T1 & T2) end end.
    rewrite T1. cbn [bind]. eexists. split; [reflexivity|]. rewrite !app_length. unfold ticks_of in T2. rewrite combine_length, L1, L2 in T2. rewrite T2. cbn [length draw_line_].
    destruct (positions l) as [|t0 [|t1 [|t2 [|t3 [|t4 [|t5 [|t6 [|t7 [|t8 [|t9 [|t10 [|]]]]]]]]]]]]; try discriminate. reflexivity. }
  unfold draw_aligned. rewrite (proj1 (proj2 (proj2 (proj2 (proj2 (proj2 (proj2 (demo_axis_is g)))))))).
  destruct g; apply D.
Qed.
(** (axes) without options on a plot with both scales from 0 to 10 succeeds, draws four axes with
    11 ticks and labels each, and leaves an area 62.8 px inside the page. *)
Theorem C80_axes_example : exists p1 out, plot_axes demo demo_env demo_plot [] = Ret (p1, out) /\
  plot_clip demo demo_env p1 = rect (628 / 10) (628 / 10) (14744 / 10) (6744 / 10) /\ length out = 92%nat.
Proof.
  unfold plot_axes. change (run (axes_table demo demo_env) [] (axes0 demo demo_env demo_plot)) with (Ret (axes0 demo demo_env demo_plot)). cbn [bind].
  assert (P : forall g, axis_padding demo demo_env (axis0 demo demo_env g ten) = Ret (Fin (8 / 10 * (11 / 72 * 192) + 10))).
  { intro g. unfold axis_padding. replace (a_enable (axis0 demo demo_env g ten)) with true by (now destruct g). fold (demo_axis g).
    unfold axis_layout. rewrite demo_labels. cbn [or_keep]. rewrite (proj1 (proj2 (proj2 (proj2 (proj2 (demo_axis_is g)))))), demo_pad.
    change (w_d demo) with exact. cbn. unfold exact. do 2 f_equal. lra. }
  cbn [axes0 x_axes p_sx p_sy demo_plot forM]. rewrite !P. cbn [bind forM x_margins].
  set (p1 := mk_plot _ _ _ _).
  assert (D : exists out, draw_each (fun a => if a_enable a then draw_aligned demo demo_env p1 (axis_set_defaults demo a) else Ret [])
      [axis0 demo demo_env ATop ten; axis0 demo demo_env ARight ten; axis0 demo demo_env ABottom ten; axis0 demo demo_env ALeft ten] = Ret out /\ length out = 92%nat).
  { cbn [draw_each].
    destruct (demo_drawn ATop p1) as (o1 & O1 & N1), (demo_drawn ARight p1) as (o2 & O2 & N2), (demo_drawn ABottom p1) as (o3 & O3 & N3), (demo_drawn ALeft p1) as (o4 & O4 & N4).
    change (a_enable (axis0 demo demo_env ATop ten)) with true. change (a_enable (axis0 demo demo_env ARight ten)) with true.
    change (a_enable (axis0 demo demo_env ABottom ten)) with true. change (a_enable (axis0 demo demo_env ALeft ten)) with true. cbv iota.
    unfold demo_axis in *. rewrite O1, O2, O3, O4. cbn [bind]. eexists. split; [reflexivity|]. rewrite !app_length, N1, N2, N3, N4. reflexivity. }
  destruct D as (out & D1 & D2). exists p1, out. rewrite D1. cbn [bind]. split; [reflexivity|]. split; [|exact D2].
  assert (Em : em1 demo demo_env = Fin (11 / 72 * 192)) by (unfold em1; rewrite demo_em; cbn; unfold exact; apply (f_equal Fin); lra).
  unfold p1, plot_clip at 1. cbn [p_stack].
  change (x_margins (axes0 demo demo_env demo_plot)) with (em1 demo demo_env, em1 demo demo_env, em1 demo demo_env, em1 demo demo_env).
  rewrite Em. unfold axes_box. cbn [nth]. rewrite demo_clip. change (w_d demo) with exact.
  unfold layout_margin_box, rect. cbn. unfold exact, xmax, xlt. repeat (destruct Rlt_dec; try lra); f_equal; apply (f_equal Fin); lra.
Qed.
Print Assumptions C80_axes_example.
