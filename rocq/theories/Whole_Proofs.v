(** Evaluating a line chart in any arithmetic, and in binary64. *)
From Coq Require Import Reals Lra.
From Verif Require Import Base Num Sexpr_Model Dispatch_Model Dispatch_Spec Str_Model Data_Model Data_Spec Data_Proofs Scale_Model Scale_Spec Scale_Proofs Scale_Proofs4
  Units_Model Color_Model Color_Spec Geo_Model Svg_Model Svg_Spec Geojson_Model Plist_Model Plist_Spec Plist_Proofs Plist_Props Cmd_Model Cmd_Spec Cmd_Proofs Style_Model Plot_Model Plot_Spec Plot_Proofs Plot_Parts Plot_Loops Plot_Inline
  Axis_Model Eval_Model Eval_Spec Eval_Proofs Eval_Props4 Range_Spec Range_Proofs Range_Props Range_Props2 Page_Props Whole_Spec Whole_Svg.
Local Open Scope R_scope.

(** C70_inline for any rounding. *)
Lemma lines_any W E p tx ty xs ys us vs :
  Forall2 (reads W) tx xs -> Forall2 (reads W) ty ys -> length xs = length ys -> xs <> [] ->
  to_unit W (p_sx p) (inlined tx) = Ret us -> to_unit W (p_sy p) (inlined ty) = Ret vs -> length us = length xs -> length vs = length ys ->
  lines_draw W E p [inline "data-x" tx; inline "data-y" ty] =
  Ret [shape_of (polyline (map (spot (w_d W) (plot_clip W E p)) (combine us vs))) (stroke_with (pt W E (15 / 10)) (e_fg E)) fill0 None].
Proof.
  intros Fx Fy L N U V LU LV.
  pose proof (inlined_holds W _ _ Fx) as Hx. pose proof (inlined_holds W _ _ Fy) as Hy.
  unfold lines_draw, lines_configure.
  replace (run (lines_table W E) [inline "data-x" tx; inline "data-y" ty] (lines0 W E p)) with
    (Ret (set_l_src (mk_src [] [] [EList (ELit (s_ "list") :: map ELit tx)] [EList (ELit (s_ "list") :: map ELit ty)]) (lines0 W E p)))
    by reflexivity.
  cbn [bind]. set (c := set_l_src _ _).
  change (l_src c) with (mk_src [] [] [EList (ELit (s_ "list") :: map ELit tx)] [EList (ELit (s_ "list") :: map ELit ty)]).
  unfold load_lines. cbn [d_x d_y d_ref load_inline_ref]. rewrite !load_inlined. cbn [bind fst snd].
  rewrite (holds_len W _ _ Hx), (holds_len W _ _ Hy), L, Nat.eqb_refl. cbn [negb].
  destruct (length ys =? 0)%nat eqn:Z.
  { apply Nat.eqb_eq in Z. destruct xs; [congruence|]. cbn in L. lia. }
  cbn [bind fst snd]. change (l_sx c) with (p_sx p). change (l_sy c) with (p_sy p).
  rewrite U. cbn [bind]. rewrite V. cbn [bind].
  unfold group_ends. cbn [app combine draw_each fst snd]. unfold group_points.
  rewrite Nat.sub_0_r, LU, LV, L, Nat.min_id.
  rewrite (loopM (combine us vs) _ _ (fun q => Ret (spot (w_d W) (plot_clip W E p) q))).
  2: { rewrite combine_length, LU, LV. lia. }
  2: { intros i [x y] Q. apply nth_combine in Q as [Qx Qy]. rewrite (at_some _ _ _ Qx), (at_some _ _ _ Qy). cbn [bind].
       now rewrite place_spot. }
  change (l_msize c) with (Fin 0).
  rewrite forM_ret. cbn [bind]. unfold xlt. destruct Rlt_dec as [D|_]; [lra|]. cbn [bind].
  unfold draw_labels. change (lb_text (l_lbl c)) with (@nil str). cbn [with_index combine length seq draw_each bind app]. reflexivity.
Qed.

(** A world that calculates like the tool: double and float, and texts read as doubles. *)
Definition binary (W : world) : Prop :=
  w_d W = rnd64 /\ w_f W = rnd32 /\ forall t v n, w_stod W t = Some (Fin v, n) -> is64 v.
Lemma reads64 W ts vs : binary W -> Forall2 (reads W) ts vs -> Forall is64 vs.
Proof. intros (_ & _ & B) F. induction F as [|t v ts vs [[n S] _] F IH]; constructor; eauto. Qed.
Lemma is32_64 x : is32 x -> is64 x.
Proof.
  unfold is32, is64. intro H. apply FLT_format_generic in H; [|reflexivity]. destruct H as [f E M L]. apply generic_format_FLT. exists f; [exact E| |].
  - eapply Z.lt_trans; [exact M|reflexivity].
  - lia.
Qed.
Lemma fitted64 vs lo hi : least lo vs -> greatest hi vs -> is32 lo -> is32 hi ->
  scale_min rnd64 rnd32 (fit_all scale0 (map Fin vs)) = Fin lo /\ scale_max rnd64 rnd32 (fit_all scale0 (map Fin vs)) = Fin hi.
Proof.
  intros A B L H. assert (U : unfitted scale0 0) by (repeat split).
  destruct (fit_bounds rnd64 rnd32 scale0 0 vs U ltac:(destruct A as [I _]; intro; subst; destruct I)) as (lo' & hi' & (I1 & A') & (I2 & B') & E1 & E2).
  assert (lo' = lo) as -> by (apply Rle_antisym; [apply A', A|apply A, I1]).
  assert (hi' = hi) as -> by (apply Rle_antisym; [apply B, I2|apply B', B]).
  rewrite Rminus_0_r in E1. rewrite Rplus_0_r in E2. rewrite rnd64_id in E1, E2 by now apply is32_64. rewrite rnd32_id in E1, E2 by assumption. auto.
Qed.
Definition share (lo hi v : R) : R := rnd64 (rnd64 (v - lo) / rnd64 (hi - lo)).
Lemma to_unit64 W ts vs lo hi : binary W -> Forall2 (reads W) ts vs -> least lo vs -> greatest hi vs -> is32 lo -> is32 hi -> lo < hi ->
  to_unit W (fit_all scale0 (map Fin vs)) (inlined ts) = Ret (map (fun v => Fin (share lo hi v)) vs).
Proof.
  intros B F Lo Hi L H D. pose proof (reads64 W _ _ B F) as V. destruct (fitted64 vs lo hi Lo Hi L H) as [M1 M2].
  rewrite (to_unit_numbers W _ _ vs (inlined_holds W _ _ F)) by (rewrite fit_kind; discriminate). destruct B as (-> & -> & _).
  rewrite translatev_forM. set (s := fit_all scale0 (map Fin vs)) in *.
  assert (K : s_kind s = Linear) by (unfold s; now rewrite fit_kind).
  assert (I : s_inverted s = false) by (destruct (fit_all_fields scale0 (map Fin vs)) as (_ & _ & _ & _ & _ & _ & I & _); exact I).
  assert (P : 0 < rnd64 (hi - lo)).
  { pose proof (is32_64 _ L). pose proof (is32_64 _ H). apply (placed_ok lo hi 1 lo); auto; try lra. change 1 with (IZR 1). apply Svg_Props.is64_int. lia. }
  clearbody s. clear V F Lo Hi. induction vs as [|v vs IH]; [reflexivity|]. cbn [map forM].
  unfold scale_translate at 1. rewrite K. unfold translate_linear at 1. rewrite M1, M2, I. cbn [xsub xneg xadd xdiv bind].
  unfold xsub. cbn [xneg xadd xdiv]. destruct Req_EM_T as [Z|_]; [unfold Rminus in P; lra|]. rewrite IH. reflexivity.
Qed.
Lemma clip64 W E xs ys w h : binary W -> page_width W E = Fin w -> page_height W E = Fin h -> is64 w -> is64 h -> 0 <= w -> 0 <= h ->
  plot_clip W E (fitted_plot xs ys) = rect 0 0 w h.
Proof.
  intros (D & _) Pw Ph Iw Ih Nw Nh. unfold plot_clip, fitted_plot. cbn [p_stack p_margins]. unfold layout_margin_box, rect. cbn [rx ry rw rh]. rewrite Pw, Ph, D.
  unfold xsub. cbn [xadd xneg]. rewrite !Rplus_0_r, Scale_Proofs2.rnd64_0, Ropp_0, !Rplus_0_r, !rnd64_id by assumption.
  unfold xmax, xlt. repeat destruct Rlt_dec; f_equal; f_equal; lra.
Qed.
Definition at_place (lx ux ly uy w h : R) (q : R * R) : R * R := (placed lx ux w (fst q), placed ly uy h (snd q)).
Lemma spots64 lx ux ly uy w h xs ys :
  map (spot rnd64 (rect 0 0 w h)) (combine (map (fun v => Fin (share lx ux v)) xs) (map (fun v => Fin (share ly uy v)) ys)) =
  map (fun q => vec (fst q) (snd q)) (map (at_place lx ux ly uy w h) (combine xs ys)).
Proof.
  rewrite combine_map2, !map_map. apply map_ext. intros [x y]. unfold spot, rect, at_place. cbn [rx ry rw rh fst snd xmul xadd].
  unfold vec. rewrite !Rplus_0_l, !(rnd64_id (rnd64 _)) by apply rnd64_is. reflexivity.
Qed.
(** A number of pixels. *)
Definition pixels (W : world) (t : str) (v : R) : Prop := exists n, w_stod W t = Some (Fin v, n) /\ skipn n t = s_ "px".
(** Evaluating the program. *)
Lemma tree_inline tx ty : tree_expr (line_chart tx ty) = EList [ELit (s_ "lines"); inline "data-x" tx; inline "data-y" ty].
Proof. unfold line_chart, inline. cbn [tree_expr map val_expr]. now rewrite !map_map. Qed.
Lemma plot_eval64 W E tx ty xs ys lx ux ly uy w h :
  binary W -> Forall2 (reads W) tx xs -> Forall2 (reads W) ty ys -> length xs = length ys ->
  least lx xs -> greatest ux xs -> least ly ys -> greatest uy ys -> lx < ux -> ly < uy -> is32 lx -> is32 ux -> is32 ly -> is32 uy ->
  page_width W E = Fin w -> page_height W E = Fin h -> is64 w -> is64 h -> 0 <= w -> 0 <= h ->
  plot_eval W E [EList [ELit (s_ "lines"); inline "data-x" tx; inline "data-y" ty]] =
  Ret [shape_of (polyline (map (fun q => vec (fst q) (snd q)) (map (at_place lx ux ly uy w h) (combine xs ys)))) (stroke_with (pt W E (15 / 10)) (e_fg E)) fill0 None].
Proof.
  intros B Fx Fy L Lx Ux Ly Uy Dx Dy I1 I2 I3 I4 Pw Ph Iw Ih Nw Nh.
  assert (N : xs <> []) by (destruct Lx as [I _]; intro; subst; destruct I).
  rewrite (single W E (s_ "lines") _ (lines_autorange W E) (lines_draw W E) eq_refl eq_refl eq_refl).
  rewrite (lines_fitted W E tx ty xs ys Fx Fy L N). cbn [bind].
  rewrite (lines_any W E (fitted_plot xs ys) tx ty xs ys (map (fun v => Fin (share lx ux v)) xs) (map (fun v => Fin (share ly uy v)) ys)); try assumption.
  - rewrite (clip64 W E xs ys w h) by assumption. destruct B as (D & B). rewrite D, spots64. reflexivity.
  - now apply (to_unit64 W tx xs lx ux).
  - now apply (to_unit64 W ty ys ly uy).
  - apply map_length.
  - apply map_length.
Qed.
(** A page of 192 dots per inch, white, with black lines. *)
Definition usual_page (W : world) (E : env) (w h : R) : Prop :=
  page_width W E = Fin w /\ page_height W E = Fin h /\ l_dpi (e_layer E) = Fin 192 /\ e_bg E = opaque_white /\ e_fg E = opaque_black.
Lemma width64 W E w h : binary W -> usual_page W E w h ->
  exists v, pt W E (15 / 10) = Fin v /\ 0 < v < 65536 /\ almost 4 v.
Proof.
  intros (D & _) (_ & _ & P & _). unfold pt, dpi. rewrite P. unfold unit_from_pt. rewrite D. cbn [xdiv]. destruct Req_EM_T as [Z|_]; [lra|]. cbn [xmul].
  pose proof (rnd64_unit (15 / 10 / 72) ltac:(lra)) as E1. replace (Flocq.Core.Raux.bpow Flocq.Core.Zaux.radix2 (-53)) with (/ 9007199254740992) in E1 by reflexivity.
  apply Rabs_le_inv in E1. set (q := rnd64 (15 / 10 / 72)) in *.
  pose proof (rnd64_abs (q * 192) ltac:(rewrite Rabs_pos_eq; lra)) as E2. replace (Flocq.Core.Raux.bpow Flocq.Core.Zaux.radix2 (-37)) with (/ 137438953472) in E2 by reflexivity.
  apply Rabs_le_inv in E2. exists (rnd64 (q * 192)). split; [reflexivity|]. split; [lra|]. unfold almost. apply Rabs_le. lra.
Qed.
Lemma polyline_through pts : polyline (map (fun q => vec (fst q) (snd q)) pts) = map Svg_Embed.command (through pts).
Proof. destruct pts as [|p r]; [reflexivity|]. cbn [polyline through map]. f_equal. rewrite !map_map. apply map_ext. reflexivity. Qed.
Lemma in_bounds vs lo hi v : least lo vs -> greatest hi vs -> In v vs -> lo <= v <= hi.
Proof. intros [_ A] [_ B] I. split; [now apply A|now apply B]. Qed.
(** The drawing of the program as a file. *)
Lemma file64 W E version tx ty xs ys lx ux ly uy w h :
  binary W -> Forall2 (reads W) tx xs -> Forall2 (reads W) ty ys -> length xs = length ys ->
  least lx xs -> greatest ux xs -> least ly ys -> greatest uy ys -> lx < ux -> ly < uy -> is32 lx -> is32 ux -> is32 ly -> is32 uy ->
  ~ In "-"%char version -> usual_page W E w h -> is64 w -> is64 h -> 0 < w <= 65536 -> 0 < h <= 65536 ->
  exists l file, plot_eval W E [EList [ELit (s_ "lines"); inline "data-x" tx; inline "data-y" ty]] = Ret l /\ svg_of W version E l = Ret file /\
    shows_picture file w h (line_picture w h 4 (map (in_file lx ux ly uy w h) (combine xs ys))).
Proof.
  intros B Fx Fy L Lx Ux Ly Uy Dx Dy I1 I2 I3 I4 V Pg Iw Ih Bw Bh.
  destruct Pg as (Pw & Ph & Pd & Pb & Pf) eqn:Q. clear Q.
  destruct (width64 W E w h B (conj Pw (conj Ph (conj Pd (conj Pb Pf))))) as (v & Ev & Bv & Av).
  rewrite (plot_eval64 W E tx ty xs ys lx ux ly uy w h B Fx Fy L Lx Ux Ly Uy Dx Dy I1 I2 I3 I4 Pw Ph Iw Ih ltac:(lra) ltac:(lra)).
  pose proof (reads64 W _ _ B Fx) as X64. pose proof (reads64 W _ _ B Fy) as Y64. rewrite Forall_forall in X64, Y64.
  assert (PX : forall q, In q (combine xs ys) -> (0 <= placed lx ux w (fst q) <= w /\ Rabs (placed lx ux w (fst q) - along lx ux w (fst q)) <= / 1000000000) /\
      0 <= placed ly uy h (snd q) <= h /\ Rabs (placed ly uy h (snd q) - along ly uy h (snd q)) <= / 1000000000).
  { intros [x y] I. pose proof (in_combine_l _ _ _ _ I) as Ix. pose proof (in_combine_r _ _ _ _ I) as Iy. cbn [fst snd]. split.
    - apply placed_ok; auto using is32_64; try lra. eapply in_bounds; eassumption.
    - apply placed_ok; auto using is32_64; try lra. eapply in_bounds; eassumption. }
  destruct (svg_line (w_sort_cw W) (w_fuel W) version w h v 4 (map (at_place lx ux ly uy w h) (combine xs ys)) (map (in_file lx ux ly uy w h) (combine xs ys)))
    as (file & S & P); auto; try lra.
  - rewrite Forall_map. apply Forall_forall. intros q I. destruct (PX q I) as [[A _] [C _]]. split; [apply rnd64_is|split; [apply rnd64_is|split; assumption]].
  - clear - PX Bh Bw. induction (combine xs ys) as [|q l IH]; cbn [map]; constructor; [|apply IH; intros; apply PX; now right].
    destruct (PX q (or_introl eq_refl)) as [[A1 A2] [C1 C2]]. unfold at_place, in_file, almost. cbn [fst snd]. apply Rabs_le_inv in A2, C2. split.
    + apply Rabs_le. lra.
    + pose proof (rnd64_abs (h - placed ly uy h (snd q)) ltac:(rewrite Rabs_pos_eq; lra)) as E2.
      replace (Flocq.Core.Raux.bpow Flocq.Core.Zaux.radix2 (-37)) with (/ 137438953472) in E2 by reflexivity. apply Rabs_le_inv in E2. apply Rabs_le. lra.
  - do 2 eexists. split; [reflexivity|]. split; [|exact P]. unfold svg_of. rewrite Pw, Ph, Pb, Pf, Ev. destruct B as (-> & _).
    rewrite polyline_through. exact S.
Qed.
