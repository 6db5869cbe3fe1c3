(** C71 for lines, for whole programs with the data written out, and where it fails. *)
From Coq Require Import Reals Lra.
From Verif Require Import Base Num Num_Facts Sexpr_Model Dispatch_Model Dispatch_Spec Data_Model Data_Spec Data_Proofs Scale_Model Scale_Spec Scale_Proofs Scale_Proofs2 Scale_Proofs4
  Units_Model Color_Model Geo_Model Svg_Model Geojson_Model Cmd_Model Cmd_Spec Cmd_Proofs Style_Model Plot_Model Plot_Spec Plot_Proofs Plot_Parts Plot_Loops Plot_Props Plot_Inline Plot_Props5
  Axis_Model Eval_Model Range_Spec Range_Proofs Range_Draw Range_Props Demo.
Local Open Scope R_scope.

Lemma own_scale W E p a ax out s : lines_draw W E p a = Ret out ->
  (forall k, In k (map fst (scale_options W (name ax))) -> last_args k a = None) ->
  element_scale W (name ax) a s = Ret s.
Proof.
  intros H N. apply options_absent; [|exact N]. unfold lines_draw, lines_configure in H. inv_bind H. inv_bind A.
  apply run_known in A0. revert A0. apply Forall_impl. intros e (k & b & f & O & _). congruence.
Qed.
Lemma numbers_holds W b vs : holds W b vs -> numbers W b = Ret (map Fin vs).
Proof. intro H. unfold numbers. now apply holds_numbers. Qed.
Lemma map_fin_inj a b : map Fin a = map Fin b -> a = b.
Proof. revert b. induction a as [|x a IH]; intros [|y b]; cbn; try discriminate; [reflexivity|]. intro H. injection H as -> H. f_equal. auto. Qed.

(** C71. In a plot whose axes have no limits, with other elements before and behind: the vertices
    of a lines element without limits of its own lie in the plot area. *)
Theorem C71_lines_inside : forall (W : world) (E : env) (pre post a : list expr) (out : list draw_command)
    (sx sy : scale) (px py : R) (allx ally : list R) (cx cy : databuf xr) (groups : list nat) (xs ys : list R),
  let e := pre ++ EList (ELit (s_ "lines") :: a) :: post in
  exact_world W -> plot_eval W E e = Ret out ->
  numeric_axis W X e scale0 -> numeric_axis W Y e scale0 ->
  element_scale W "x" e scale0 = Ret sx -> element_scale W "y" e scale0 = Ret sy ->
  free_axis sx px -> free_axis sy py -> 0 <= px -> 0 <= py ->
  plot_data W X e = Ret (map Fin allx) -> plot_data W Y e = Ret (map Fin ally) ->
  (exists u v, In u allx /\ In v allx /\ u < v) -> (exists u v, In u ally /\ In v ally /\ u < v) ->
  (forall k, In k (map fst (scale_options W "x" ++ scale_options W "y")) -> last_args k a = None) ->
  load_lines W (source_of a) = Ret ((cx, cy), groups) -> holds W cx xs -> holds W cy ys ->
  exists p before own after stroke paths rest,
    out = before ++ own ++ after /\ lines_draw W E p a = Ret own /\
    own = map (fun q => shape_of q stroke fill0 None) paths ++ rest /\ length paths = S (length groups) /\
    length (concat (map vertices paths)) = length xs /\
    forall x0 y0 w h, plot_clip W E p = rect x0 y0 w h -> 0 <= w -> 0 <= h ->
      Forall (inside x0 y0 w h) (concat (map vertices paths)).
Proof.
  intros W E pre post a out sx sy px py allx ally cx cy groups xs ys e Ex H Nx Ny Sx Sy Fx Fy Px Py Dx Dy Mx My No Ld Hx Hy.
  set (el := EList (ELit (s_ "lines") :: a)) in *.
  destruct (C83_painted_in_order W E pre post el (s_ "lines") a (lines_draw W E) out H eq_refl eq_refl) as (p0 & p & before & own & after & Q1 & Q2 & Q3 & Q4).
  destruct (C71_ranges W E X pre (el :: post) out H Nx) as (p0' & p' & b' & s1 & vs1 & R1 & R2 & R3 & R4 & _ & R5).
  destruct (C71_ranges W E Y pre (el :: post) out H Ny) as (p0'' & p'' & b'' & s2 & vs2 & T1 & T2 & T3 & T4 & _ & T5).
  rewrite Q1 in R1, T1. injection R1 as <-. injection T1 as <-. rewrite Q2 in R2, T2. injection R2 as <- <-. injection T2 as <- <-.
  cbn [name of scale_of] in R3, R5, T3, T5. fold e in R3, R4, T3, T4. rewrite Sx in R3. rewrite Dx in R4. rewrite Sy in T3. rewrite Dy in T4.
  injection R3 as <-. injection R4 as <-. injection T3 as <-. injection T4 as <-.
  destruct (fitted_linear W X e sx px allx Sx Fx Px Mx) as (lx & ux & Lx & Cx).
  destruct (fitted_linear W Y e sy py ally Sy Fy Py My) as (ly & uy & Ly & Cy).
  rewrite <- R5 in Lx. rewrite <- T5 in Ly.
  assert (Ox : element_scale W "x" a (p_sx p) = Ret (p_sx p)).
  { apply (own_scale W E p a X own _ Q3). intros k I. apply No. rewrite map_app. apply in_or_app. now left. }
  assert (Oy : element_scale W "y" a (p_sy p) = Ret (p_sy p)).
  { apply (own_scale W E p a Y own _ Q3). intros k I. apply No. rewrite map_app. apply in_or_app. now right. }
  destruct (C70_lines W E p a own Q3) as (sx' & sy' & stroke & msize & mshape & mcolor & lb & bx' & by' & groups' & us & vs & paths & marks & texts
    & X1 & X2 & X3 & X4 & X5 & X6 & X7 & X8 & X9 & X10 & X11 & X12 & X13 & X14 & X15 & X16 & X17 & _).
  exists p, before, own, after, stroke, paths, (marks ++ texts). split; [exact Q4|]. split; [exact Q3|]. split; [exact X14|].
  rewrite Ld in X8. injection X8 as <- <- <-. split; [exact X15|].
  rewrite Ox in X1. injection X1 as <-. rewrite Oy in X2. injection X2 as <-.
  rewrite (to_unit_linear W _ cx xs lx ux Ex Hx Lx) in X9. injection X9 as <-.
  rewrite (to_unit_linear W _ cy ys ly uy Ex Hy Ly) in X10. injection X10 as <-.
  rewrite !map_length in *. split.
  { rewrite X17, map_length, combine_length, !map_length. lia. }
  intros x0 y0 w h C Pw Ph. rewrite X17, C. destruct Ex as [-> _]. rewrite spots_on_page.
  assert (Ix : incl xs allx).
  { intros v I. pose proof (plot_data_in W X e _ Dx el (s_ "lines") a _ (map Fin xs) ltac:(apply in_or_app; right; now left) eq_refl eq_refl) as J.
    cbv beta in J. rewrite Ld in J. cbn [bind of fst snd] in J. specialize (J (numbers_holds W _ _ Hx)).
    specialize (J (Fin v) (in_map Fin _ _ I)). apply in_map_iff in J as (v' & J1 & J2). now injection J1 as <-. }
  assert (Iy : incl ys ally).
  { intros v I. pose proof (plot_data_in W Y e _ Dy el (s_ "lines") a _ (map Fin ys) ltac:(apply in_or_app; right; now left) eq_refl eq_refl) as J.
    cbv beta in J. rewrite Ld in J. cbn [bind of fst snd] in J. specialize (J (numbers_holds W _ _ Hy)).
    specialize (J (Fin v) (in_map Fin _ _ I)). apply in_map_iff in J as (v' & J1 & J2). now injection J1 as <-. }
  apply Forall_forall. intros q Iq. apply in_map_iff in Iq as ([u v] & <- & Iq). pose proof (in_combine_l _ _ _ _ Iq) as Iu. pose proof (in_combine_r _ _ _ _ Iq) as Iv.
  rewrite Forall_forall in Cx, Cy. specialize (Cx _ (Ix _ Iu)). specialize (Cy _ (Iy _ Iv)).
  pose proof (unit_pos_range (s_inverted (p_sx p)) lx ux u Cx ltac:(apply Lx)) as Ux.
  pose proof (unit_pos_range (s_inverted (p_sy p)) ly uy v Cy ltac:(apply Ly)) as Uy.
  unfold on_page, vec. cbn [fst snd]. eexists _, _. split; [reflexivity|]. split; nra.
Qed.
Print Assumptions C71_lines_inside.

(* ---------------- programs with the data written out ---------------- *)
(** The plot without margins whose axes are fitted to the numbers. *)
Definition fitted_plot (xs ys : list R) : plot :=
  mk_plot (fit_all scale0 (map Fin xs)) (fit_all scale0 (map Fin ys)) (Fin 0, Fin 0, Fin 0, Fin 0) [].
Lemma fit_inlined W ts vs s : s_kind s <> Categorical -> Forall2 (reads W) ts vs -> fit_data W s (inlined ts) = Ret (fit_all s (map Fin vs)).
Proof.
  intros K F. pose proof (holds_numbers W _ _ (inlined_holds W _ _ F)) as N. unfold fit_data, fit_buf.
  destruct (s_kind s); try congruence; now rewrite N.
Qed.
Lemma lines_fitted W E tx ty xs ys : Forall2 (reads W) tx xs -> Forall2 (reads W) ty ys -> length xs = length ys -> xs <> [] ->
  lines_autorange W E plot0 [inline "data-x" tx; inline "data-y" ty] = Ret (fitted_plot xs ys).
Proof.
  intros Fx Fy L N. pose proof (inlined_holds W _ _ Fx) as Hx. pose proof (inlined_holds W _ _ Fy) as Hy.
  unfold lines_autorange, lines_configure.
  replace (run (lines_table W E) [inline "data-x" tx; inline "data-y" ty] (lines0 W E plot0)) with
    (Ret (set_l_src (mk_src [] [] [EList (ELit (s_ "list") :: map ELit tx)] [EList (ELit (s_ "list") :: map ELit ty)]) (lines0 W E plot0)))
    by reflexivity.
  cbn [bind]. set (c := set_l_src _ _).
  change (l_src c) with (mk_src [] [] [EList (ELit (s_ "list") :: map ELit tx)] [EList (ELit (s_ "list") :: map ELit ty)]).
  unfold load_lines. cbn [d_x d_y d_ref load_inline_ref]. rewrite !load_inlined. cbn [bind fst snd].
  rewrite (holds_len W _ _ Hx), (holds_len W _ _ Hy), L, Nat.eqb_refl. cbn [negb].
  destruct (length ys =? 0)%nat eqn:Z.
  { apply Nat.eqb_eq in Z. destruct xs; [congruence|]. cbn in L. lia. }
  cbn [bind fst snd]. unfold fit_x, fit_y. rewrite (fit_inlined W tx xs (p_sx plot0) ltac:(discriminate) Fx). cbn [bind p_sy p_sx plot0 p_margins p_stack].
  now rewrite (fit_inlined W ty ys scale0 ltac:(discriminate) Fy).
Qed.
(** A program with one command. *)
Lemma single W E k a f g : option_of (EList (ELit k :: a)) = Some (k, a) -> assoc k (prepare_table W E) = Some (ranges f) ->
  assoc k (draw_table W E) = Some (shows g) ->
  plot_eval W E [EList (ELit k :: a)] = let* p := f plot0 a in g p a.
Proof.
  intros O F G. unfold plot_eval. change (plot_prepare W E) with (options (prepare_table W E)). change (plot_draw W E) with (options (draw_table W E)).
  rewrite options_cons, O, F. unfold ranges. destruct (f plot0 a) as [p| | | |]; try reflexivity. cbn [bind]. rewrite options_nil. cbn [bind].
  rewrite options_cons, O, G. unfold shows. cbn [fst snd app]. destruct (g p a); reflexivity.
Qed.
Lemma least_greatest vs lo hi : least lo vs -> greatest hi vs -> (exists u v, In u vs /\ In v vs /\ u < v) -> lo < hi.
Proof. intros (_ & A) (_ & B) (u & v & I & J & L). specialize (A _ I). specialize (B _ J). lra. Qed.
Lemma fitted_over vs lo hi : least lo vs -> greatest hi vs -> lo < hi -> linear_over (fit_all scale0 (map Fin vs)) lo hi.
Proof.
  intros A B L. assert (U : unfitted scale0 0) by (repeat split).
  destruct (fit_bounds exact exact scale0 0 vs U ltac:(destruct A as [I _]; intro; subst; destruct I)) as (lo' & hi' & (I1 & A') & (I2 & B') & E1 & E2).
  assert (lo' = lo) as -> by (apply Rle_antisym; [apply A', A|apply A, I1]).
  assert (hi' = hi) as -> by (apply Rle_antisym; [apply B, I2|apply B', B]).
  split; [now rewrite fit_kind|]. unfold exact in E1, E2. rewrite Rminus_0_r in E1. rewrite Rplus_0_r in E2. auto.
Qed.
(** C71. The program (lines (data-x (list ...)) (data-y (list ...))): the line runs through the
    points, and the least and greatest numbers lie on the borders of the page. *)
Theorem C71_program : forall (W : world) (E : env) (tx ty : list str) (xs ys : list R) (lx ux ly uy w h : R),
  exact_world W -> Forall2 (reads W) tx xs -> Forall2 (reads W) ty ys -> length xs = length ys ->
  least lx xs -> greatest ux xs -> least ly ys -> greatest uy ys -> lx < ux -> ly < uy ->
  page_width W E = Fin w -> page_height W E = Fin h -> 0 <= w -> 0 <= h ->
  plot_eval W E [EList [ELit (s_ "lines"); inline "data-x" tx; inline "data-y" ty]] =
  Ret [shape_of (polyline (map (fun q => vec ((fst q - lx) / (ux - lx) * w) ((snd q - ly) / (uy - ly) * h)) (combine xs ys)))
         (stroke_with (pt W E (15 / 10)) (e_fg E)) fill0 None].
Proof.
  intros W E tx ty xs ys lx ux ly uy w h Ex Fx Fy L Lx Ux Ly Uy Dx Dy Pw Ph Nw Nh.
  assert (N : xs <> []) by (destruct Lx as [I _]; intro; subst; destruct I).
  rewrite (single W E (s_ "lines") _ (lines_autorange W E) (lines_draw W E) eq_refl eq_refl eq_refl).
  rewrite (lines_fitted W E tx ty xs ys Fx Fy L N). cbn [bind].
  rewrite (C70_inline W E (fitted_plot xs ys) tx ty xs ys lx ux ly uy 0 0 w h Ex Fx Fy L N (fitted_over xs lx ux Lx Ux Dx) (fitted_over ys ly uy Ly Uy Dy)).
  2: { unfold plot_clip, fitted_plot. cbn [p_stack p_margins]. unfold layout_margin_box, rect. cbn [rx ry rw rh]. rewrite Pw, Ph.
       destruct Ex as [-> _]. cbn [xadd xsub xneg xmax xlt]. unfold exact. rewrite !Rplus_0_r. unfold xsub, xneg, xadd, xmax, xlt.
       repeat destruct Rlt_dec; f_equal; f_equal; lra. }
  do 4 f_equal. apply map_ext. intros [x y]. unfold on_page, fitted_plot. cbn [p_sx p_sy fst snd].
  destruct (fit_all_fields scale0 (map Fin xs)) as (_ & _ & _ & _ & _ & _ & I1 & _).
  destruct (fit_all_fields scale0 (map Fin ys)) as (_ & _ & _ & _ & _ & _ & I2 & _). rewrite I1, I2. cbn [s_inverted scale0]. unfold unit_pos, vec.
  now rewrite !Rplus_0_l.
Qed.
Print Assumptions C71_program.
