(** Evaluating programs with limits and several series in binary64: the shapes. *)
From Coq Require Import Reals Lra.
From Verif Require Import Base Num Sexpr_Model Dispatch_Model Dispatch_Spec Str_Model Data_Model Data_Spec Data_Proofs Scale_Model Scale_Spec Scale_Proofs Scale_Proofs4
  Units_Model Color_Model Color_Spec Color_Proofs Geo_Model Svg_Model Svg_Spec Plist_Model Plist_Spec Plist_Proofs Plist_Props Cmd_Model Cmd_Spec Cmd_Proofs Style_Model Plot_Model Plot_Spec Plot_Proofs Plot_Parts Plot_Loops Plot_Inline
  Axis_Model Eval_Model Eval_Spec Eval_Proofs Eval_Props4 Range_Spec Range_Proofs Range_Props Range_Props2 Page_Props Csv_Spec Source_Spec Whole_Spec Whole_Svg Whole_Proofs Whole_Spec2 Whole_Series.
Local Open Scope R_scope.

(** The limits of an axis: those of the program, with the data between them, or the least and the
    greatest number of all series, which are then rounded to single precision. *)
Inductive axis_range (W : world) : option (str * str) -> list R -> R -> R -> Prop :=
| range_auto vs lo hi : least lo vs -> greatest hi vs -> is32 lo -> is32 hi -> axis_range W None vs lo hi
| range_given a b n m vs lo hi : w_stod W a = Some (Fin lo, n) -> w_stod W b = Some (Fin hi, m) ->
    (forall v, In v vs -> lo <= v <= hi) -> axis_range W (Some (a, b)) vs lo hi.

Definition limits_args (name : string) (o : option (str * str)) : list expr :=
  match o with Some (a, b) => [EList [ELit (s_ name); ELit a; ELit b]] | None => [] end.
Lemma limits_expr name o : map tree_expr (limits_tree name o) = limits_args name o.
Proof. destruct o as [[a b]|]; reflexivity. Qed.
Definition limited (W : world) (o : option (str * str)) : scale :=
  match o with
  | Some (a, b) => match w_stod W a, w_stod W b with Some (x, _), Some (y, _) => with_max y (with_min x scale0) | _, _ => scale0 end
  | None => scale0
  end.
Lemma range_ready W o vs lo hi : axis_range W o vs lo hi -> ready (fit_all (limited W o) (map Fin vs)) lo hi.
Proof.
  intros [vs' l h A B I J|a b n m vs' l h A B I]; cbn [limited].
  - destruct (fitted64 vs' l h A B I J) as [M1 M2]. destruct (fit_all_fields scale0 (map Fin vs')) as (_ & _ & K & _ & _ & _ & V & _). split; [exact K|]. split; [exact V|]. auto.
  - rewrite A, B. destruct (fit_all_fields (with_max (Fin h) (with_min (Fin l) scale0)) (map Fin vs')) as (_ & _ & K & M1 & M2 & _ & V & _).
    split; [exact K|]. split; [exact V|]. unfold scale_min, scale_max. rewrite M1, M2. split; reflexivity.
Qed.
Lemma range_64 W o vs lo hi : binary W -> axis_range W o vs lo hi -> is64 lo /\ is64 hi.
Proof.
  intros (_ & _ & B) [vs' l h _ _ I J|a b n m vs' l h X Y I]; [split; now apply is32_64|]. eauto.
Qed.
Lemma range_in W o vs lo hi v : axis_range W o vs lo hi -> In v vs -> lo <= v <= hi.
Proof. intros [vs' l h A B I J|a b n m vs' l h X Y I]; [now apply in_bounds|apply I]. Qed.
Lemma limits_read W a b x y n m s : w_stod W a = Some (x, n) -> w_stod W b = Some (y, m) -> rd_limits W [ELit a; ELit b] s = Ret (with_max y (with_min x s)).
Proof. intros A B. unfold rd_limits, expr_to_float64_opt_pair, expr_to_float64. cbn [value_of]. rewrite A, B. reflexivity. Qed.

(** A series of the program, and what it stands for. *)
Record understood (W : world) (E : env) (s : series) (c : color) (v : xr) (xs ys : list R) : Prop := mk_understood {
  un_color : the_color W E (sr_color s) c;
  un_size : the_size W E (sr_style s) (sr_size s) v;
  un_x : given W (sr_x s) xs;
  un_y : given W (sr_y s) ys;
  un_len : length xs = length ys;
  un_some : xs <> [] }.
(** style, colour, size, x, y *)
Definition reading := (style * color * xr * list R * list R)%type.
Definition read_as (W : world) (E : env) (s : series) (r : reading) : Prop :=
  let '(k, c, v, xs, ys) := r in sr_style s = k /\ understood W E s c v xs ys.
Definition rxs (r : reading) : list R := snd (fst r).
Definition rys (r : reading) : list R := snd r.
Definition series_exprs (ss : list series) : list expr := map (fun s => EList (ELit (series_key s) :: series_args s)) ss.

Lemma prepare_series W E ss rs : Forall2 (read_as W E) ss rs -> forall p, s_kind (p_sx p) = Linear -> s_kind (p_sy p) = Linear ->
  options (prepare_table W E) (series_exprs ss) p = Ret (fitted p (flat_map rxs rs) (flat_map rys rs)).
Proof.
  intro F. induction F as [|s r ss rs H F IH]; intros p Kx Ky; [unfold fitted; now destruct p|]. unfold series_exprs. cbn [map].
  rewrite options_cons. cbn [option_of].
  destruct r as [[[[k c] v] xs] ys]. destruct H as [St [C S Fx Fy L N]]. subst k.
  replace (assoc (series_key s) (prepare_table W E)) with (Some (ranges (autorange W E s))) by (unfold series_key, autorange; destruct (sr_style s); reflexivity).
  unfold ranges. rewrite (series_fitted W E p s c v xs ys C S Kx Ky Fx Fy L N). cbn [bind].
  fold (series_exprs ss). rewrite IH by (unfold fitted; cbn [p_sx p_sy]; now rewrite fit_kind). unfold fitted. cbn [p_sx p_sy p_margins p_stack flat_map].
  change (rxs (sr_style s, c, v, xs, ys)) with xs. change (rys (sr_style s, c, v, xs, ys)) with ys.
  now rewrite !map_app, !fit_all_app.
Qed.
Lemma prepare_limits W E limx limy vx vy lx ux ly uy : axis_range W limx vx lx ux -> axis_range W limy vy ly uy ->
  options (prepare_table W E) (limits_args "limit-x" limx ++ limits_args "limit-y" limy) plot0 =
  Ret (mk_plot (limited W limx) (limited W limy) (Fin 0, Fin 0, Fin 0, Fin 0) []).
Proof.
  intros X Y. rewrite options_app.
  replace (options (prepare_table W E) (limits_args "limit-x" limx) plot0) with (Ret (mk_plot (limited W limx) scale0 (Fin 0, Fin 0, Fin 0, Fin 0) [])).
  2: { destruct X as [|a b n m vs lo hi A B I]; [reflexivity|]. cbn [limits_args limited]. rewrite options_cons. cbn [option_of].
       change (assoc (s_ "limit-x") (prepare_table W E)) with (Some (updf p_sx (rd_limits W) set_sx)). unfold updf. rewrite (limits_read W a b _ _ _ _ _ A B). cbn [bind]. rewrite options_nil, A, B. reflexivity. }
  cbn [bind]. destruct Y as [|a b n m vs lo hi A B I]; [reflexivity|]. cbn [limits_args limited]. rewrite options_cons. cbn [option_of].
  change (assoc (s_ "limit-y") (prepare_table W E)) with (Some (updf p_sy (rd_limits W) set_sy)). unfold updf. rewrite (limits_read W a b _ _ _ _ _ A B). cbn [bind]. rewrite options_nil, A, B. reflexivity.
Qed.
Lemma draw_limits W E limx limy s : options (draw_table W E) (limits_args "limit-x" limx ++ limits_args "limit-y" limy) s = Ret s.
Proof. destruct limx as [[a b]|], limy as [[a' b']|]; reflexivity. Qed.

(** The shapes of the series on a page. *)
Definition zero64 (lo hi : R) : R := let z := share lo hi 0 in if Rlt_dec z 0 then 0 else if Rlt_dec 1 z then 1 else z.
Definition foot64 (lo hi n : R) : R := rnd64 (zero64 lo hi * n).
Definition shapes_at (lx ux ly uy w h : R) (r : reading) : list draw_command :=
  let '(k, c, v, xs, ys) := r in series_shapes rnd64 k c v (Fin (foot64 ly uy h)) (map (fun q => vec (fst q) (snd q)) (map (at_place lx ux ly uy w h) (combine xs ys))).
Lemma zero_ready W s lo hi : binary W -> ready s lo hi -> is64 lo -> is64 hi -> lo < hi -> scale_translate (w_d W) (w_f W) s (Fin 0) = Ret (Fin (share lo hi 0)).
Proof.
  intros (-> & -> & _) (K & I & M1 & M2) L H D.
  assert (P : 0 < rnd64 (hi - lo)).
  { apply (placed_ok lo hi 1 lo); auto; try lra. change 1 with (IZR 1). apply Svg_Props.is64_int. lia. }
  unfold scale_translate at 1. rewrite K. unfold translate_linear at 1. rewrite M1, M2, I. unfold xsub. cbn [xneg xadd xdiv].
  destruct Req_EM_T as [Z|_]; [unfold Rminus in P; lra|]. reflexivity.
Qed.
Lemma foot_ready W ly uy w h : binary W -> py_ W (rect 0 0 w h) (clamp01 (Fin (share ly uy 0))) = Fin (foot64 ly uy h).
Proof.
  intros (D & _). unfold py_, rect, foot64, zero64, clamp01, xlt. cbn [ry rh]. rewrite D. set (z := share ly uy 0).
  destruct (Rlt_dec z 0); [|destruct (Rlt_dec 1 z)]; cbn [xmul xadd]; rewrite Rplus_0_l, rnd64_id by apply rnd64_is; reflexivity.
Qed.
Lemma draw_series W E ss rs p lx ux ly uy w h : binary W -> Forall2 (read_as W E) ss rs ->
  ready (p_sx p) lx ux -> ready (p_sy p) ly uy -> is64 lx -> is64 ux -> is64 ly -> is64 uy -> lx < ux -> ly < uy -> plot_clip W E p = rect 0 0 w h ->
  forall out, options (draw_table W E) (series_exprs ss) (p, out) = Ret (p, out ++ flat_map (shapes_at lx ux ly uy w h) rs).
Proof.
  intros B F Rx Ry I1 I2 I3 I4 Dx Dy C. induction F as [|s r ss rs H F IH]; intro out; [cbn [flat_map]; now rewrite app_nil_r|]. unfold series_exprs. cbn [map flat_map].
  rewrite options_cons. cbn [option_of].
  destruct r as [[[[k c] v] xs] ys]. destruct H as [St [Co S Fx Fy L N]]. subst k.
  replace (assoc (series_key s) (draw_table W E)) with (Some (shows (draws W E s))) by (unfold series_key, draws; destruct (sr_style s); reflexivity).
  unfold shows at 1. cbn [fst snd].
  rewrite (series_drawn W E p s c v (Fin (share ly uy 0)) xs ys (map (fun v => Fin (share lx ux v)) xs) (map (fun v => Fin (share ly uy v)) ys)); try assumption.
  - cbn [bind]. fold (series_exprs ss). rewrite IH, C, <- app_assoc. unfold shapes_at at 2. rewrite (foot_ready W ly uy w h B). destruct B as (-> & _). now rewrite spots64.
  - apply Rx.
  - apply Ry.
  - intros ts Ft. now apply to_unit_ready.
  - intros ts Ft. now apply to_unit_ready.
  - now apply zero_ready.
  - apply map_length.
  - apply map_length.
Qed.
Lemma clip_page W E p w h : binary W -> p_margins p = (Fin 0, Fin 0, Fin 0, Fin 0) -> p_stack p = [] -> page_width W E = Fin w -> page_height W E = Fin h -> is64 w -> is64 h -> 0 <= w -> 0 <= h ->
  plot_clip W E p = rect 0 0 w h.
Proof.
  intros (D & _) M S Pw Ph Iw Ih Nw Nh. unfold plot_clip. rewrite M, S. unfold layout_margin_box, rect. cbn [rx ry rw rh]. rewrite Pw, Ph, D.
  unfold xsub. cbn [xadd xneg]. rewrite !Rplus_0_r, Scale_Proofs2.rnd64_0, Ropp_0, !Rplus_0_r, !rnd64_id by assumption.
  unfold xmax, xlt. repeat destruct Rlt_dec; f_equal; f_equal; lra.
Qed.
Definition program_args (limx limy : option (str * str)) (ss : list series) : list expr :=
  (limits_args "limit-x" limx ++ limits_args "limit-y" limy) ++ series_exprs ss.
Lemma eval_series W E limx limy ss rs lx ux ly uy w h : binary W -> Forall2 (read_as W E) ss rs ->
  axis_range W limx (flat_map rxs rs) lx ux -> axis_range W limy (flat_map rys rs) ly uy -> lx < ux -> ly < uy ->
  page_width W E = Fin w -> page_height W E = Fin h -> is64 w -> is64 h -> 0 <= w -> 0 <= h ->
  plot_eval W E (program_args limx limy ss) = Ret (flat_map (shapes_at lx ux ly uy w h) rs).
Proof.
  intros B F X Y Dx Dy Pw Ph Iw Ih Nw Nh. destruct (range_64 _ _ _ _ _ B X) as [I1 I2]. destruct (range_64 _ _ _ _ _ B Y) as [I3 I4].
  unfold plot_eval. change (plot_prepare W E) with (options (prepare_table W E)). change (plot_draw W E) with (options (draw_table W E)). unfold program_args.
  rewrite options_app, (prepare_limits W E limx limy _ _ _ _ _ _ X Y). cbn [bind].
  assert (K : forall o vs lo hi, axis_range W o vs lo hi -> s_kind (limited W o) = Linear).
  { intros o vs lo hi [|? ? ? ? ? ? ? A A' _]; cbn [limited]; try (rewrite A, A'); reflexivity. }
  rewrite (prepare_series W E ss rs F) by (cbn [p_sx p_sy]; eauto). cbn [bind].
  rewrite options_app, draw_limits. cbn [bind]. unfold fitted. cbn [p_sx p_sy p_margins p_stack].
  erewrite draw_series; [reflexivity|eassumption|eassumption|apply range_ready; eassumption|apply range_ready; eassumption|assumption..|].
  apply clip_page; try assumption; reflexivity.
Qed.
