(** C81: the space of the axes; C82: the grid. *)
From Coq Require Import Reals Lra.
From Verif Require Import Base Num Num_Facts Sexpr_Model Dispatch_Model Dispatch_Spec Data_Model Data_Spec Scale_Model Scale_Spec Scale_Proofs4 Scale_Props
  Units_Model Color_Model Geo_Model Geo_Props Svg_Model Geojson_Model Format_Model Cmd_Model Cmd_Spec Cmd_Proofs Style_Model Plot_Model Plot_Spec Plot_Proofs Plot_Parts
  Eval_Model Range_Spec Range_Draw Axis_Model Axis_Spec Axis_Place Axis_Table Axis_Proofs Axis_Props.
Local Open Scope R_scope.

Lemma margins_proj W E : projects x_margins (table1 W E ++ table2 W E) (margin_options W E).
Proof.
  assert (On : forall i c a s s', on i c a s = Ret s' -> x_margins s' = x_margins s).
  { intros i c a s s' H. unfold on in H. destruct (nth_error (x_axes s) i); [|discriminate]. inv_bind H. now injection H as <-. }
  assert (Each : forall l a s s', (forall c, In c l -> forall a s s', c a s = Ret s' -> x_margins s' = x_margins s) -> call_each l a s = Ret s' -> x_margins s' = x_margins s).
  { induction l as [|c l IH]; intros a s s' K H; cbn [call_each] in H; [now injection H as <-|]. inv_bind H.
    rewrite (IH _ _ _ (fun c' I => K c' (or_intror I)) H). apply (K c (or_introl eq_refl) _ _ _ A). }
  assert (All : forall is cs a s s', on_all is cs a s = Ret s' -> x_margins s' = x_margins s).
  { intros is cs a s s'. unfold on_all. apply Each. intros c I. apply in_flat_map in I as (c' & _ & I). apply in_map_iff in I as (i & <- & _). intros; eapply On; eauto. }
  unfold projects.
  repeat (apply Forall_cons; [intros a s s' H; cbn [fst snd] in H |- *; look_up; cbn [snd]; cbv beta;
    lazymatch type of H with
    | on _ _ _ _ = _ => exact (On _ _ _ _ _ H)
    | on_all _ _ _ _ = _ => exact (All _ _ _ _ _ H)
    | c_position _ _ = _ => unfold c_position in H; inv_bind H; now injection H as <-
    | upd _ _ _ _ = _ => unfold upd in H; inv_bind H; injection H as <-; cbn [x_margins]; destruct (x_margins s) as [[[? ?] ?] ?]; cbv beta iota; now rewrite A
    | call_each _ _ _ = _ => cbn [call_each] in H; unfold upd in H; destruct (rd_size W E a) as [v| | | |]; cbn [bind] in H; try discriminate; injection H as <-;
        cbn [x_margins bind]; destruct (x_margins s) as [[[? ?] ?] ?]; reflexivity
    end|]); apply Forall_nil.
Qed.
Lemma axes_margins W E e c0 c : run (axes_table W E) e c0 = Ret c -> options (margin_options W E) e (x_margins c0) = Ret (x_margins c).
Proof.
  assert (K : forall l s, run (axes_table W E) l s = run (table1 W E ++ table2 W E) l s).
  { induction l as [|x l IH]; intro s; [reflexivity|]. rewrite !run_cons. destruct (option_of x) as [[k a]|]; [|reflexivity].
    rewrite table_used. destruct (assoc k (table1 W E ++ table2 W E)); [|reflexivity]. destruct (c1 a s); cbn [bind]; auto. }
  rewrite K. apply run_proj, margins_proj.
Qed.

(** C81. The area that the axes command leaves: the old one without the margins (one em each, or
    as the options say) and the space of the shown axes; nothing else of the plot changes. *)
Theorem C81_space : forall (W : world) (E : env) (p p1 : plot) (e : list expr) (out : list draw_command),
  plot_axes W E p e = Ret (p1, out) ->
  exists at_ ar ab al pt_ pr pb pl t r b l,
    Forall2 (side_axis W E p e) the_sides [at_; ar; ab; al] /\
    needs W E at_ pt_ /\ needs W E ar pr /\ needs W E ab pb /\ needs W E al pl /\
    options (margin_options W E) e (em1 W E, em1 W E, em1 W E, em1 W E) = Ret (t, r, b, l) /\
    plot_clip W E p1 = layout_margin_box (w_d W) (plot_clip W E p)
      (xadd (w_d W) t pt_) (xadd (w_d W) r pr) (xadd (w_d W) b pb) (xadd (w_d W) l pl) /\
    p_sx p1 = p_sx p /\ p_sy p1 = p_sy p /\ p_margins p1 = p_margins p.
Proof.
  intros W E p p1 e out H. unfold plot_axes in H. inv_bind H. inv_bind H. inv_bind H. injection H as <- <-.
  destruct (axes_sides W E (axis0 W E AX scale0) p e v A) as (axes & Ax & S). rewrite Ax in *.
  assert (L : length axes = 4%nat) by (clear - S; inversion S; subst; repeat match goal with H : Forall2 _ _ _ |- _ => inversion H; clear H; subst end; reflexivity).
  destruct axes as [|a0 [|a1 [|a2 [|a3 [|]]]]]; try discriminate.
  apply forM_ok in A0. inversion A0 as [|? q0 ? r0 P0 B0]; subst. inversion B0 as [|? q1 ? r1 P1 B1]; subst. inversion B1 as [|? q2 ? r2 P2 B2]; subst.
  inversion B2 as [|? q3 ? r3 P3 B3]; subst. inversion B3; subst.
  apply axes_margins in A. cbn [x_margins axes0] in A. destruct (x_margins v) as [[[t r] b] l] eqn:M.
  assert (N : forall a q, axis_padding W E a = Ret q -> needs W E a q).
  { intros a q. unfold axis_padding, needs. destruct (a_enable a); [auto|congruence]. }
  exists a0, a1, a2, a3, q0, q1, q2, q3, t, r, b, l. repeat (split; [solve [assumption | apply N; assumption | reflexivity]|]).
  cbn [p_sx p_sy p_margins]. auto.
Qed.
Print Assumptions C81_space.

(** C81. In exact arithmetic, with space and margins that are not negative and fit: the new area
    lies in the old one, at these distances from its edges. *)
Theorem C81_within : forall (W : world) (E : env) (p p1 : plot) (x0 y0 w h t r b l : R),
  exact_world W -> plot_clip W E p = rect x0 y0 w h ->
  plot_clip W E p1 = layout_margin_box (w_d W) (plot_clip W E p) (Fin t) (Fin r) (Fin b) (Fin l) ->
  0 <= t -> 0 <= r -> 0 <= b -> 0 <= l -> l + r <= w -> t + b <= h ->
  exists x y w' h', plot_clip W E p1 = rect x y w' h' /\ rect_within x y w' h' x0 y0 w h /\
    x = x0 + l /\ y = y0 + b /\ w' = w - l - r /\ h' = h - t - b.
Proof.
  intros W E p p1 x0 y0 w h t r b l [D _] C H T R B L Wd Hd. rewrite C, D in H.
  destruct (C45_margins x0 y0 w h t r b l T R B L Wd Hd) as (x & y & w' & h' & Q & Q1 & Q2 & Q3 & Q4 & _).
  unfold rect in H. rewrite Q in H. exists x, y, w', h'. split; [exact H|]. unfold rect_within. repeat split; lra.
Qed.
Print Assumptions C81_within.

(** C81. With any arithmetic and any options the size of the area does not become negative. *)
Theorem C81_never_negative : forall (W : world) (E : env) (p p1 : plot) (e : list expr) (out : list draw_command),
  plot_axes W E p e = Ret (p1, out) ->
  xlt (rw (plot_clip W E p1)) (Fin 0) = false /\ xlt (rh (plot_clip W E p1)) (Fin 0) = false.
Proof.
  intros W E p p1 e out H. destruct (C81_space W E p p1 e out H) as (? & ? & ? & ? & ? & ? & ? & ? & ? & ? & ? & ? & _ & _ & _ & _ & _ & _ & C & _).
  rewrite C. apply C45_never_negative.
Qed.
Print Assumptions C81_never_negative.

(** C81. The commands before the axes are drawn as if these were not there, those behind them
    into the new area; only the axes command changes the area, a margin command only as long as
    there have been no axes. *)
Theorem C81_behind : forall (W : world) (E : env) (pre post : list expr) (x : expr) (a : list expr) (p p' : plot) (out out' : list draw_command),
  option_of x = Some (s_ "axes", a) ->
  plot_draw W E (pre ++ x :: post) (p, out) = Ret (p', out') ->
  exists p1 out1 p2 marks rest,
    plot_draw W E pre (p, out) = Ret (p1, out1) /\ plot_axes W E p1 a = Ret (p2, marks) /\
    plot_draw W E post (p2, out1 ++ marks) = Ret (p', out') /\ out' = out1 ++ marks ++ rest.
Proof.
  intros W E pre post x a p p' out out' O H. change (plot_draw W E) with (options (draw_table W E)) in *.
  rewrite options_app in H. inv_bind H. destruct v as [p1 out1]. rewrite options_cons, O in H.
  change (assoc (s_ "axes") (draw_table W E)) with (Some (shows_and_moves (plot_axes W E))) in H. cbv iota in H.
  inv_bind H. unfold shows_and_moves in A0. inv_bind A0. destruct v0 as [p2 marks]. injection A0 as <-. cbn [fst snd] in *.
  destruct (stage_appends W E _ _ _ H) as (rest & R). cbn [snd] in R. exists p1, out1, p2, marks, rest.
  split; [exact A|]. split; [exact A1|]. split; [exact H|]. now rewrite app_assoc.
Qed.
Print Assumptions C81_behind.

Theorem C81_area_kept : forall (W : world) (E : env) (e : list expr) (p p' : plot) (out out' : list draw_command),
  last_args (s_ "axes") e = None -> plot_draw W E e (p, out) = Ret (p', out') ->
  p_stack p' = p_stack p /\
  (p_stack p <> [] \/ (forall k, In k (map fst (margin_options W E)) -> last_args k e = None) -> plot_clip W E p' = plot_clip W E p).
Proof.
  intros W E e p p' out out' N H. change (plot_draw W E) with (options (draw_table W E)) in *.
  assert (S : p_stack p' = p_stack p).
  { change (p_stack (fst (p', out')) = p_stack (fst (p, out))). revert H. apply (options_kept (fun s => p_stack (fst s)) [s_ "axes"]).
    - unfold draw_table, margin_entries. cbn [app].
      repeat (apply Forall_cons; [first [left; vm_compute; reflexivity | right; intros a s s' H; cbn [snd] in H; unfold shows, shows_and_moves, upd, call_each in H; split_binds; subst; cbn [fst p_stack]; try reflexivity]|]); [|apply Forall_nil].
      unfold polygons_draw in A. inv_bind A. destruct v as [c p2]. inv_bind A. injection A as <- _. unfold polys_configure in A0. inv_bind A0. injection A0 as _ <-. reflexivity.
    - intros k [<-|[]]. exact N. }
  split; [exact S|]. intros [K|K].
  - unfold plot_clip. rewrite S. destruct (p_stack p); [congruence|reflexivity].
  - assert (M : p_margins p' = p_margins p).
    { change (p_margins (fst (p', out')) = p_margins (fst (p, out))). revert H. apply (options_kept (fun s => p_margins (fst s)) (s_ "axes" :: map fst (margin_options W E))).
      - unfold draw_table, margin_entries. cbn [app].
        repeat (apply Forall_cons; [first [left; vm_compute; reflexivity | right; intros a s s' H; cbn [snd] in H; unfold shows, shows_and_moves, upd, call_each in H; split_binds; subst; cbn [fst p_margins]; try reflexivity]|]); [|apply Forall_nil].
        unfold polygons_draw in A. inv_bind A. destruct v as [c p2]. inv_bind A. injection A as <- _. unfold polys_configure in A0. inv_bind A0. injection A0 as _ <-. reflexivity.
      - intros k [<-|I]; [exact N|now apply K]. }
    unfold plot_clip. now rewrite S, M.
Qed.
Print Assumptions C81_area_kept.

(* ------------------------------------------------------------------ C82 *)
Lemma grid_parts W E p e c : run (grid_table W E) e (grid0 W E p) = Ret c ->
  element_scale W "x" e (p_sx p) = Ret (gr_sx c) /\ element_scale W "y" e (p_sy p) = Ret (gr_sy c) /\
  options (grid_stroke_options W E) e (gr_stroke (grid0 W E p)) = Ret (gr_stroke c) /\
  match last_args (s_ "tick-placement-x") e with Some a => rd_place W a = Ret (gr_lx c) | None => gr_lx c = None end /\
  match last_args (s_ "tick-placement-y") e with Some a => rd_place W a = Ret (gr_ly c) | None => gr_ly c = None end.
Proof.
  intro H.
  assert (P1 : projects gr_sx (grid_table W E) (scale_options W "x")) by projection.
  assert (P2 : projects gr_sy (grid_table W E) (scale_options W "y")) by projection.
  assert (P3 : projects gr_stroke (grid_table W E) (grid_stroke_options W E)) by projection.
  assert (P4 : projects gr_lx (grid_table W E) [(s_ "tick-placement-x", fun a (_ : option placement) => rd_place W a)]) by projection.
  assert (P5 : projects gr_ly (grid_table W E) [(s_ "tick-placement-y", fun a (_ : option placement) => rd_place W a)]) by projection.
  split; [exact (run_proj _ _ _ P1 _ _ _ H)|]. split; [exact (run_proj _ _ _ P2 _ _ _ H)|]. split; [exact (run_proj _ _ _ P3 _ _ _ H)|].
  split; [exact (options_last _ _ _ _ _ (run_proj _ _ _ P4 _ _ _ H))|exact (options_last _ _ _ _ _ (run_proj _ _ _ P5 _ _ _ H))].
Qed.
Lemma grid_placed W e k s l : match last_args (s_ k) e with Some a => rd_place W a = Ret l | None => l = None end ->
  exists q, grid_default s l = Some q /\ grid_placement W k e s q.
Proof.
  unfold grid_placement. destruct (last_args (s_ k) e) as [a|].
  - unfold rd_place. intro H. inv_bind H. injection H as <-. exists v. split; [reflexivity|exact A].
  - intros ->. unfold grid_default, layout_defaults. cbn [snd]. destruct (s_kind s); cbn [snd]; eauto. destruct (xeq (s_log_base s) (Fin 10)); eauto.
Qed.

(** C82. The grid, in exact arithmetic: a vertical line across the plot area for every tick of the
    x scale, where data of this position stands, and a horizontal one for every tick of the y
    scale, mirrored: at 1 - t instead of t. *)
Theorem C82_lines : forall (W : world) (E : env) (p : plot) (e : list expr) (x0 y0 w h : R) (out : list draw_command),
  exact_world W -> plot_clip W E p = rect x0 y0 w h -> plot_grid W E p e = Ret out ->
  exists sx sy qx qy lx ly st,
    element_scale W "x" e (p_sx p) = Ret sx /\ element_scale W "y" e (p_sy p) = Ret sy /\
    grid_placement W "tick-placement-x" e sx qx /\ grid_placement W "tick-placement-y" e sy qy /\
    placed W qx sx format_noop = Ret lx /\ placed W qy sy format_noop = Ret ly /\
    options (grid_stroke_options W E) e (stroke_with (pt W E 1) (from_rgb (k W (9 / 10)) (k W (9 / 10)) (k W (9 / 10)))) = Ret st /\
    forall tx ty, positions lx = map Fin tx -> positions ly = map Fin ty ->
      out = map (fun t => vertical x0 y0 w h (x0 + t * w) st) tx ++ map (fun t => horizontal x0 y0 w h (y0 + (1 - t) * h) st) ty.
Proof.
  intros W E p e x0 y0 w h out X C H. unfold plot_grid in H. inv_bind H. rename v into c. inv_bind H. rename v into lx. inv_bind H. rename v into ly. injection H as <-.
  destruct (grid_parts W E p e c A) as (S1 & S2 & S3 & L1 & L2).
  destruct (grid_placed W e "tick-placement-x" (gr_sx c) _ L1) as (qx & Q1 & G1). destruct (grid_placed W e "tick-placement-y" (gr_sy c) _ L2) as (qy & Q2 & G2).
  rewrite Q1 in A0. rewrite Q2 in A1. cbn [call_placement] in A0, A1.
  exists (gr_sx c), (gr_sy c), qx, qy, lx, ly, (gr_stroke c). do 7 (split; [assumption|]).
  intros tx ty Px Py. rewrite C, Px, Py. unfold grid_lines. cbn [rx ry rw rh rect]. destruct X as [-> _]. f_equal.
  - clear. induction tx as [|t r IH]; [reflexivity|]. cbn [map flat_map]. rewrite IH. unfold draw_line_, vertical, stroke_line. cbn [app add_line].
    f_equal. cbn. unfold exact, vec. now rewrite (Rmult_comm w t).
  - clear. induction ty as [|t r IH]; [reflexivity|]. cbn [map flat_map]. rewrite IH. unfold draw_line_, horizontal, stroke_line. cbn [app add_line].
    f_equal. cbn. unfold exact, vec. now rewrite (Rmult_comm h).
Qed.
Print Assumptions C82_lines.

(** C82. For ticks that divide the axis evenly, which is the default on a linear scale, the
    mirrored positions are the same ones. *)
Theorem C82_even_ticks : forall (n : nat) (y0 h y : R), (0 < n)%nat ->
  (In y (map (fun i => y0 + (1 - INR i / INR n) * h) (seq 0 (S n))) <-> In y (map (fun i => y0 + INR i / INR n * h) (seq 0 (S n)))).
Proof.
  intros n y0 h y N. assert (0 < INR n) by (apply lt_0_INR; lia).
  split; intro I; apply in_map_iff in I as (i & <- & I); apply in_seq in I; apply in_map_iff; exists (n - i)%nat;
    (split; [rewrite minus_INR by lia; field; lra|apply in_seq; lia]).
Qed.
Print Assumptions C82_even_ticks.
