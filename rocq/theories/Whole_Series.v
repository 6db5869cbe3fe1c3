(** Evaluating programs with several series in binary64. *)
From Coq Require Import Reals Lra.
From Verif Require Import Base Num Sexpr_Model Dispatch_Model Dispatch_Spec Str_Model Data_Model Data_Spec Data_Proofs Scale_Model Scale_Spec Scale_Proofs Scale_Proofs4
  Units_Model Color_Model Color_Spec Color_Proofs Geo_Model Svg_Model Svg_Spec Geojson_Model Plist_Model Plist_Spec Plist_Proofs Plist_Props Cmd_Model Cmd_Spec Cmd_Proofs Style_Model Plot_Model Plot_Spec Plot_Proofs Plot_Parts Plot_Loops Plot_Inline
  Axis_Model Eval_Model Eval_Spec Eval_Proofs Eval_Props4 Range_Spec Range_Proofs Range_Props Range_Props2 Page_Props Csv_Spec Source_Spec Source_Props Whole_Spec Whole_Svg Whole_Proofs Whole_Spec2.
Local Open Scope R_scope.

Lemma size_px W E t v : pixels W t v -> rd_size W E [ELit t] = Ret (Fin v).
Proof.
  intros (n & S & U). unfold rd_size, expr_to_size, to_number, expr_to_number. cbn [value_of]. rewrite S.
  destruct (Nat.eqb_spec n (length t)) as [Q|_]; [rewrite Q, skipn_all in U; discriminate|]. rewrite U. reflexivity.
Qed.
(** A linear scale from lo to hi. *)
Definition ready (s : scale) (lo hi : R) : Prop :=
  s_kind s = Linear /\ s_inverted s = false /\ scale_min rnd64 rnd32 s = Fin lo /\ scale_max rnd64 rnd32 s = Fin hi.
Lemma to_unit_ready W s ts vs lo hi : binary W -> Forall2 (reads W) ts vs -> ready s lo hi -> is64 lo -> is64 hi -> lo < hi ->
  to_unit W s (inlined ts) = Ret (map (fun v => Fin (share lo hi v)) vs).
Proof.
  intros B F (K & I & M1 & M2) L H D.
  rewrite (to_unit_numbers W _ _ vs (inlined_holds W _ _ F)) by congruence. destruct B as (-> & -> & _).
  rewrite translatev_forM.
  assert (P : 0 < rnd64 (hi - lo)).
  { apply (placed_ok lo hi 1 lo); auto; try lra. change 1 with (IZR 1). apply Svg_Props.is64_int. lia. }
  clear F. induction vs as [|v vs IH]; [reflexivity|]. cbn [map forM].
  unfold scale_translate at 1. rewrite K. unfold translate_linear at 1. rewrite M1, M2, I. cbn [xsub xneg xadd xdiv bind].
  unfold xsub. cbn [xneg xadd xdiv]. destruct Req_EM_T as [Z|_]; [unfold Rminus in P; lra|]. rewrite IH. reflexivity.
Qed.

(** The arguments of a series. *)
Definition opt_arg (k : string) (o : option str) : list expr := match o with Some t => [EList [ELit (s_ k); ELit t]] | None => [] end.
Definition source_expr (s : source) : expr :=
  match s with Listed ts => EList (ELit (s_ "list") :: map ELit ts) | Column f c => EList [ELit (s_ "csv"); val_expr f; val_expr c] end.
Definition data_arg (k : string) (s : source) : expr := EList [ELit (s_ k); source_expr s].
Definition series_args (s : series) : list expr :=
  [data_arg "data-x" (sr_x s); data_arg "data-y" (sr_y s)] ++ opt_arg (size_name (sr_style s)) (sr_size s) ++ opt_arg "color" (sr_color s).
Definition series_key (s : series) : str := s_ (style_name (sr_style s)).
Lemma source_exprs s : val_expr (source_val s) = source_expr s.
Proof. destruct s as [ts|f c]; cbn [source_val val_expr source_expr map]; [now rewrite map_map|reflexivity]. Qed.
Lemma series_expr s : tree_expr (series_tree s) = EList (ELit (series_key s) :: series_args s).
Proof.
  destruct s as [st tx ty z c]. unfold series_tree, series_args, series_key, data_arg. cbn [tree_expr sr_style sr_x sr_y sr_size sr_color app map].
  rewrite !source_exprs, map_app. destruct z, c; reflexivity.
Qed.
(** What is loaded for a source. *)
Lemma names_value v t r : names v t -> value_of (val_expr v :: r) = Some t.
Proof. intros [->| ->]; reflexivity. Qed.
Lemma texts_inlined vs : fold_left (databuf_add_text xr) vs empty = inlined vs.
Proof. unfold inlined, load_inline. generalize empty. induction vs as [|v vs IH]; intro b; cbn [map fold_left]; [reflexivity|apply IH]. Qed.
Lemma load_source W s ts : source_texts (w_read_file W) s ts -> data_load_simple xr (w_read_file W) [source_expr s] empty = (inlined ts, Ret tt).
Proof.
  intros [ts'|f c path name txt ts' F C R N V]; cbn [source_expr]; [reflexivity|].
  unfold data_load_simple. change (list_headed [EList [ELit (s_ "csv"); val_expr f; val_expr c]] (s_ "csv")) with (Some [val_expr f; val_expr c]). cbv iota.
  unfold load_csv. rewrite (names_value f path _ F), (names_value c name _ C), R. apply (column_means _ _ _ N) in V as (data & P & X). rewrite P, X, texts_inlined. reflexivity.
Qed.
Lemma load_simple_source W s ts : source_texts (w_read_file W) s ts -> load_simple W [source_expr s] empty = Ret (inlined ts).
Proof. intro T. unfold load_simple. now rewrite (load_source W s ts T). Qed.
Lemma load_ref_source W s ts : source_texts (w_read_file W) s ts -> load_inline_ref W [source_expr s] empty = Ret (inlined ts).
Proof. intro T. rewrite <- (load_simple_source W s ts T). destruct s; reflexivity. Qed.
Lemma load_points_source W sx sy tx ty : source_texts (w_read_file W) sx tx -> source_texts (w_read_file W) sy ty ->
  load_points W (mk_src [] [] [source_expr sx] [source_expr sy]) empty empty = Ret (inlined tx, inlined ty).
Proof.
  intros X Y. unfold load_points, data_load_points2. cbn [d_x d_y d_ref d_fmt].
  assert (L : forall s, match [source_expr s] with EList _ :: _ => true | _ => false end = true) by (intros []; reflexivity).
  rewrite !L, (load_source W sx tx X), (load_source W sy ty Y). reflexivity.
Qed.

(** What a series means to the program: the colour and the size as they are stored. *)
Definition the_color (W : world) (E : env) (o : option str) (c : color) : Prop :=
  match o with Some t => forall old, rd_color W E [ELit t] old = Ret c | None => c = e_fg E end.
Definition the_size (W : world) (E : env) (k : style) (o : option str) (v : xr) : Prop :=
  match o with
  | Some t => rd_size W E [ELit t] = Ret v /\ xeq v (Fin 0) = false
  | None => v = match k with Lines => pt W E (15 / 10) | Points => pt W E 4 | Bars => pt W E 10 | Areas => Fin 0 end
  end.

Lemma run_one {S} (fns : list (str * cmd S)) k t f s s' : assoc (s_ k) fns = Some f -> f [ELit t] s = Ret s' ->
  run fns [EList [ELit (s_ k); ELit t]] s = Ret s'.
Proof. intros A F. rewrite run_cons. cbn [option_of]. rewrite A, F. reflexivity. Qed.

Lemma lines_run W E p s c v : sr_style s = Lines -> the_color W E (sr_color s) c -> the_size W E Lines (sr_size s) v ->
  exists mc, run (lines_table W E) (series_args s) (lines0 W E p) =
  Ret (mk_lines (mk_src [] [] [source_expr (sr_x s)] [source_expr (sr_y s)])
         (p_sx p) (p_sy p) (stroke_with v c) (Fin 0) Disk mc (lbl0 W E)).
Proof.
  destruct s as [st tx ty sz co]. cbn [sr_style sr_color sr_size sr_x sr_y]. intros -> C S. unfold series_args. cbn [sr_style sr_color sr_size sr_x sr_y].
  exists (match co with Some _ => c | None => e_fg E end).
  set (src := mk_src [] [] [source_expr tx] [source_expr ty]).
  rewrite run_app. replace (run (lines_table W E) [data_arg "data-x" tx; data_arg "data-y" ty] (lines0 W E p)) with
    (Ret (set_l_src src (lines0 W E p))) by (destruct tx, ty; reflexivity). cbn [bind]. rewrite run_app.
  replace (run (lines_table W E) (opt_arg (size_name Lines) sz) (set_l_src src (lines0 W E p))) with
    (Ret (mk_lines src (p_sx p) (p_sy p) (stroke_with v (e_fg E)) (Fin 0) Disk (e_fg E) (lbl0 W E))).
  2: { destruct sz as [zt|]; cbn [the_size opt_arg] in *; [destruct S as [S _]|subst v; reflexivity]. symmetry.
       eapply (run_one (lines_table W E) "stroke-width" zt); [reflexivity|]. unfold upd. rewrite S. reflexivity. }
  cbn [bind]. destruct co as [ct|]; cbn [the_color opt_arg] in *; [|subst c; reflexivity].
  eapply (run_one (lines_table W E) "color" ct); [reflexivity|]. unfold call_each, updf. rewrite C. cbn [bind]. rewrite C. reflexivity.
Qed.
Lemma points_run W E p s c v : sr_style s = Points -> the_color W E (sr_color s) c -> the_size W E Points (sr_size s) v ->
  run (points_table W E) (series_args s) (points0 W E p) =
  Ret (mk_points (mk_src [] [] [source_expr (sr_x s)] [source_expr (sr_y s)])
         (p_sx p) (p_sy p) (mk_marks c [] None v [] None) Disk [] (lbl0 W E)).
Proof.
  destruct s as [st tx ty sz co]. cbn [sr_style sr_color sr_size sr_x sr_y]. intros -> C S. unfold series_args. cbn [sr_style sr_color sr_size sr_x sr_y].
  set (src := mk_src [] [] [source_expr tx] [source_expr ty]).
  rewrite run_app. replace (run (points_table W E) [data_arg "data-x" tx; data_arg "data-y" ty] (points0 W E p)) with
    (Ret (set_p_src src (points0 W E p))) by (destruct tx, ty; reflexivity). cbn [bind]. rewrite run_app.
  replace (run (points_table W E) (opt_arg (size_name Points) sz) (set_p_src src (points0 W E p))) with
    (Ret (mk_points src (p_sx p) (p_sy p) (mk_marks (e_fg E) [] None v [] None) Disk [] (lbl0 W E))).
  2: { destruct sz as [zt|]; cbn [the_size opt_arg] in *; [destruct S as [S _]|subst v; reflexivity]. symmetry.
       eapply (run_one (points_table W E) "size" zt); [reflexivity|]. unfold upd. rewrite S. reflexivity. }
  cbn [bind]. destruct co as [ct|]; cbn [the_color opt_arg] in *; [|subst c; reflexivity].
  eapply (run_one (points_table W E) "color" ct); [reflexivity|]. unfold updf. rewrite !C. reflexivity.
Qed.

Lemma bars_run W E p s c v tx ty : sr_style s = Bars -> the_color W E (sr_color s) c -> the_size W E Bars (sr_size s) v ->
  source_texts (w_read_file W) (sr_x s) tx -> source_texts (w_read_file W) (sr_y s) ty ->
  exists z, nonzero_or z (pt W E 10) = v /\ run (bars_table W E) (series_args s) (bars0 W E p) =
  Ret (mk_bars (inlined tx) empty (inlined ty) empty (p_sx p) (p_sy p) (stroke_with (Fin 0) c) (solid c) z [] (Fin 0) [] false (lbl0 W E)).
Proof.
  destruct s as [st dx dy sz co]. cbn [sr_style sr_color sr_size sr_x sr_y]. intros -> C S X Y. unfold series_args. cbn [sr_style sr_color sr_size sr_x sr_y].
  exists (match sz with Some _ => v | None => Fin 0 end). split.
  { destruct sz as [zt|]; cbn [the_size] in S; unfold nonzero_or; [destruct S as [_ S]; now rewrite S|]. unfold xeq. destruct Req_EM_T; [congruence|lra]. }
  rewrite run_app. replace (run (bars_table W E) [data_arg "data-x" dx; data_arg "data-y" dy] (bars0 W E p)) with
    (Ret (set_b_y (inlined ty) (set_b_x (inlined tx) (bars0 W E p)))).
  2: { unfold data_arg. rewrite run_cons. cbn [option_of]. change (assoc (s_ "data-x") (bars_table W E)) with (Some (updf b_x (load_simple W) set_b_x)).
       unfold updf at 1. change (b_x (bars0 W E p)) with empty. rewrite (load_simple_source W _ _ X). cbn [bind].
       rewrite run_cons. cbn [option_of]. change (assoc (s_ "data-y") (bars_table W E)) with (Some (updf b_y (load_simple W) set_b_y)).
       unfold updf at 1. change (b_y (set_b_x (inlined tx) (bars0 W E p))) with empty. rewrite (load_simple_source W _ _ Y). reflexivity. }
  cbn [bind]. rewrite run_app.
  replace (run (bars_table W E) (opt_arg (size_name Bars) sz) (set_b_y (inlined ty) (set_b_x (inlined tx) (bars0 W E p)))) with
    (Ret (mk_bars (inlined tx) empty (inlined ty) empty (p_sx p) (p_sy p) (stroke_with (Fin 0) (e_fg E)) (solid (e_fg E)) (match sz with Some _ => v | None => Fin 0 end) [] (Fin 0) [] false (lbl0 W E))).
  2: { destruct sz as [zt|]; cbn [the_size opt_arg] in *; [destruct S as [S _]|reflexivity]. symmetry.
       eapply (run_one (bars_table W E) "width" zt); [reflexivity|]. unfold upd. rewrite S. reflexivity. }
  cbn [bind]. destruct co as [ct|]; cbn [the_color opt_arg] in *; [|subst c; reflexivity].
  eapply (run_one (bars_table W E) "color" ct); [reflexivity|]. unfold call_each, updf, fill_style_read_solid. rewrite C. cbn [bind]. rewrite C. reflexivity.
Qed.
Lemma areas_run W E p s c v : sr_style s = Areas -> the_color W E (sr_color s) c -> the_size W E Areas (sr_size s) v ->
  run (areas_table W E) (series_args s) (areas0 E p) =
  Ret (mk_areas (mk_src [] [] [source_expr (sr_x s)] [source_expr (sr_y s)]) empty empty empty empty (p_sx p) (p_sy p) (stroke_with v c) (stroke_with v c) (solid c) false).
Proof.
  destruct s as [st tx ty sz co]. cbn [sr_style sr_color sr_size sr_x sr_y]. intros -> C S. unfold series_args. cbn [sr_style sr_color sr_size sr_x sr_y].
  set (src := mk_src [] [] [source_expr tx] [source_expr ty]).
  rewrite run_app. replace (run (areas_table W E) [data_arg "data-x" tx; data_arg "data-y" ty] (areas0 E p)) with
    (Ret (set_a_src src (areas0 E p))) by (destruct tx, ty; reflexivity). cbn [bind]. rewrite run_app.
  replace (run (areas_table W E) (opt_arg (size_name Areas) sz) (set_a_src src (areas0 E p))) with
    (Ret (mk_areas src empty empty empty empty (p_sx p) (p_sy p) (stroke_with v (e_fg E)) (stroke_with v (e_fg E)) (solid (e_fg E)) false)).
  2: { destruct sz as [zt|]; cbn [the_size opt_arg] in *; [destruct S as [S _]|subst v; reflexivity]. symmetry.
       eapply (run_one (areas_table W E) "stroke-width" zt); [reflexivity|]. unfold call_each, updf. cbv beta zeta. rewrite S. reflexivity. }
  cbn [bind]. destruct co as [ct|]; cbn [the_color opt_arg] in *; [|subst c; reflexivity].
  eapply (run_one (areas_table W E) "color" ct); [reflexivity|]. unfold call_each, updf, fill_style_read_solid. cbn [app]. rewrite C. cbn [bind]. rewrite C. cbn [bind]. rewrite C. reflexivity.
Qed.

(** Fitting the axes to a series. *)
Definition fitted (p : plot) (xs ys : list R) : plot :=
  mk_plot (fit_all (p_sx p) (map Fin xs)) (fit_all (p_sy p) (map Fin ys)) (p_margins p) (p_stack p).
Lemma fit_both W p tx ty xs ys : s_kind (p_sx p) = Linear -> s_kind (p_sy p) = Linear -> Forall2 (reads W) tx xs -> Forall2 (reads W) ty ys ->
  (let* p := fit_x W (inlined tx) p in fit_y W (inlined ty) p) = Ret (fitted p xs ys).
Proof.
  intros Kx Ky Fx Fy. unfold fit_x, fit_y. rewrite (fit_inlined W tx xs) by (congruence || assumption). cbn [bind p_sx p_sy p_margins p_stack].
  rewrite (fit_inlined W ty ys) by (congruence || assumption). reflexivity.
Qed.
Definition autorange W E (s : series) : plot -> list expr -> outcome plot :=
  match sr_style s with Lines => lines_autorange W E | Points => points_autorange W E | Bars => bars_autorange W E | Areas => areas_autorange W E end.
Definition draws W E (s : series) : plot -> list expr -> outcome (list draw_command) :=
  match sr_style s with Lines => lines_draw W E | Points => points_draw W E | Bars => bars_draw W E | Areas => areas_draw W E end.
(** A source of numbers. *)
Definition given (W : world) (s : source) (vs : list R) : Prop := exists ts, source_texts (w_read_file W) s ts /\ Forall2 (reads W) ts vs.
Lemma fit_nothing_x W p : s_kind (p_sx p) = Linear -> fit_x W empty p = Ret p.
Proof. intro K. unfold fit_x. change empty with (inlined []). rewrite (fit_inlined W [] []) by (congruence || constructor). now destruct p. Qed.
Lemma fit_nothing_y W p : s_kind (p_sy p) = Linear -> fit_y W empty p = Ret p.
Proof. intro K. unfold fit_y. change empty with (inlined []). rewrite (fit_inlined W [] []) by (congruence || constructor). now destruct p. Qed.
Lemma fit_four W p tx ty xs ys : s_kind (p_sx p) = Linear -> s_kind (p_sy p) = Linear -> Forall2 (reads W) tx xs -> Forall2 (reads W) ty ys ->
  (let* p := fit_x W (inlined tx) p in let* p := fit_x W empty p in let* p := fit_y W (inlined ty) p in fit_y W empty p) = Ret (fitted p xs ys).
Proof.
  intros Kx Ky Fx Fy. unfold fit_x at 1. rewrite (fit_inlined W tx xs) by (congruence || assumption). cbn [bind].
  rewrite fit_nothing_x by (cbn [p_sx]; rewrite fit_kind; exact Kx). cbn [bind]. unfold fit_y at 1. cbn [p_sy].
  rewrite (fit_inlined W ty ys) by (congruence || assumption). cbn [bind p_sx p_margins p_stack]. rewrite fit_nothing_y by (cbn [p_sy]; rewrite fit_kind; exact Ky). reflexivity.
Qed.
Lemma series_fitted W E p s c v xs ys : the_color W E (sr_color s) c -> the_size W E (sr_style s) (sr_size s) v ->
  s_kind (p_sx p) = Linear -> s_kind (p_sy p) = Linear -> given W (sr_x s) xs -> given W (sr_y s) ys -> length xs = length ys -> xs <> [] ->
  autorange W E s p (series_args s) = Ret (fitted p xs ys).
Proof.
  intros C S Kx Ky (tx & Tx & Fx) (ty & Ty & Fy) L N. pose proof (inlined_holds W _ _ Fx) as Hx. pose proof (inlined_holds W _ _ Fy) as Hy.
  unfold autorange. destruct (sr_style s) eqn:St.
  - destruct (lines_run W E p s c v St C S) as [mc R]. unfold lines_autorange, lines_configure. rewrite R. cbn [bind l_src]. unfold load_lines. cbn [d_x d_y d_ref].
    rewrite (load_ref_source W _ _ Tx), (load_ref_source W _ _ Ty). cbn [bind fst snd].
    rewrite (holds_len W _ _ Hx), (holds_len W _ _ Hy), L, Nat.eqb_refl. cbn [negb].
    destruct (length ys =? 0)%nat eqn:Z.
    { apply Nat.eqb_eq in Z. destruct xs; [congruence|]. cbn in L. lia. }
    cbn [bind fst snd]. now apply fit_both.
  - unfold points_autorange, points_configure. rewrite (points_run W E p s c v St C S). cbn [bind p_src].
    rewrite (load_points_source W _ _ _ _ Tx Ty). cbn [bind fst snd].
    rewrite (holds_len W _ _ Hx), (holds_len W _ _ Hy), L, Nat.eqb_refl. cbn [negb p_marks].
    change (colors_of W (mk_marks c [] None v [] None)) with (Ret (@nil color)). change (sizes_of W (mk_marks c [] None v [] None)) with (Ret (@nil xr)). cbn [bind fst snd].
    now apply fit_both.
  - destruct (bars_run W E p s c v tx ty St C S Tx Ty) as (z & _ & R). unfold bars_autorange, bars_configure. rewrite R. cbn [bind b_x b_y b_xlow b_ylow].
    rewrite (holds_len W _ _ Hx), (holds_len W _ _ Hy), L, Nat.eqb_refl. cbn [negb].
    change (databuf_len xr empty) with 0%nat. cbn [Nat.eqb negb andb bind]. cbn [b_x b_y b_xlow b_ylow]. now apply fit_four.
  - unfold areas_autorange, areas_configure. rewrite (areas_run W E p s c v St C S). cbn [bind a_src a_x a_y].
    rewrite (load_points_source W _ _ _ _ Tx Ty). cbn [bind fst snd]. cbv zeta. cbn [a_x a_y set_a_x set_a_y a_xlow a_ylow].
    rewrite (holds_len W _ _ Hx), (holds_len W _ _ Hy), L, Nat.eqb_refl. cbn [negb].
    change (databuf_len xr empty) with 0%nat. cbn [Nat.eqb negb andb bind]. cbn [a_x a_y a_xlow a_ylow]. now apply fit_four.
Qed.
(** What a series draws, at points of the page, with the zero of the y axis at the height [b]. *)
Definition bar_box (d : R -> R) (v b : xr) (q : vec2) : path :=
  let x1 := xsub d (xadd d (vx q) (Fin 0)) (xmul d v (Fin (1 / 2))) in
  let x2 := xadd d (xadd d (vx q) (Fin 0)) (xmul d v (Fin (1 / 2))) in
  [MoveTo (mk_vec2 x1 b); LineTo (mk_vec2 x1 (vy q)); LineTo (mk_vec2 x2 (vy q)); LineTo (mk_vec2 x2 b); Close].
Definition series_shapes (d : R -> R) (k : style) (c : color) (v b : xr) (pts : list vec2) : list draw_command :=
  let foot := rev (map (fun q => mk_vec2 (vx q) b) pts) in
  match k with
  | Lines => [shape_of (polyline pts) (stroke_with v c) fill0 None]
  | Points => map (fun q => shape_of (add_circle d [] q (xmul d v (Fin (1 / 2)))) stroke0 (solid c) None) pts
  | Bars => map (fun q => shape_of (bar_box d v b q) (stroke_with (Fin 0) c) (solid c) None) pts
  | Areas => [shape_of (polyline pts ++ map LineTo foot ++ [Close]) stroke0 (solid c) None;
              shape_of (polyline pts) (stroke_with v c) fill0 None; shape_of (polyline foot) (stroke_with v c) fill0 None]
  end.
Lemma to_unit_nothing W s : s_kind s = Linear -> to_unit W s empty = Ret [].
Proof. intro K. rewrite (to_unit_numbers W s empty []); [reflexivity|exists []; repeat split; constructor|congruence]. Qed.
Lemma series_drawn W E p s c v z xs ys us vs : the_color W E (sr_color s) c -> the_size W E (sr_style s) (sr_size s) v ->
  s_kind (p_sx p) = Linear -> s_kind (p_sy p) = Linear -> given W (sr_x s) xs -> given W (sr_y s) ys -> length xs = length ys -> xs <> [] ->
  (forall ts, Forall2 (reads W) ts xs -> to_unit W (p_sx p) (inlined ts) = Ret us) -> (forall ts, Forall2 (reads W) ts ys -> to_unit W (p_sy p) (inlined ts) = Ret vs) ->
  scale_translate (w_d W) (w_f W) (p_sy p) (Fin 0) = Ret z -> length us = length xs -> length vs = length ys ->
  draws W E s p (series_args s) =
    Ret (series_shapes (w_d W) (sr_style s) c v (py_ W (plot_clip W E p) (clamp01 z)) (map (spot (w_d W) (plot_clip W E p)) (combine us vs))).
Proof.
  intros C S Kx Ky (tx & Tx & Fx) (ty & Ty & Fy) L N U V Z LU LV. pose proof (inlined_holds W _ _ Fx) as Hx. pose proof (inlined_holds W _ _ Fy) as Hy.
  specialize (U _ Fx). specialize (V _ Fy). unfold draws. destruct (sr_style s) eqn:St; cbn [series_shapes].
  - destruct (lines_run W E p s c v St C S) as [mc R]. unfold lines_draw, lines_configure. rewrite R. cbn [bind l_src]. unfold load_lines. cbn [d_x d_y d_ref].
    rewrite (load_ref_source W _ _ Tx), (load_ref_source W _ _ Ty). cbn [bind fst snd].
    rewrite (holds_len W _ _ Hx), (holds_len W _ _ Hy), L, Nat.eqb_refl. cbn [negb].
    destruct (length ys =? 0)%nat eqn:Q.
    { apply Nat.eqb_eq in Q. destruct xs; [congruence|]. cbn in L. lia. }
    cbn [bind fst snd l_sx l_sy]. rewrite U. cbn [bind]. rewrite V. cbn [bind].
    unfold group_ends. cbn [app combine draw_each fst snd]. unfold group_points.
    rewrite Nat.sub_0_r, LU, LV, L, Nat.min_id.
    rewrite (loopM (combine us vs) _ _ (fun q => Ret (spot (w_d W) (plot_clip W E p) q))).
    2: { rewrite combine_length, LU, LV. lia. }
    2: { intros i [x y] P. apply nth_combine in P as [Qx Qy]. rewrite (at_some _ _ _ Qx), (at_some _ _ _ Qy). cbn [bind].
         now rewrite place_spot. }
    cbn [l_msize l_lbl l_stroke]. rewrite forM_ret. cbn [bind]. unfold xlt. destruct Rlt_dec as [D|_]; [lra|]. cbn [bind].
    unfold draw_labels. change (lb_text (lbl0 W E)) with (@nil str). cbn [with_index combine length seq draw_each bind app]. reflexivity.
  - unfold points_draw, points_configure. rewrite (points_run W E p s c v St C S). cbn [bind p_src].
    rewrite (load_points_source W _ _ _ _ Tx Ty). cbn [bind fst snd].
    rewrite (holds_len W _ _ Hx), (holds_len W _ _ Hy), L, Nat.eqb_refl. cbn [negb p_marks].
    change (colors_of W (mk_marks c [] None v [] None)) with (Ret (@nil color)). change (sizes_of W (mk_marks c [] None v [] None)) with (Ret (@nil xr)). cbn [bind fst snd p_sx_ p_sy_ p_shapes p_shape p_lbl m_size m_color cycle].
    rewrite U. cbn [bind]. rewrite V. cbn [bind].
    rewrite (drawn_ex (fun _ q => draw_path_ (add_circle (w_d W) [] (spot (w_d W) (plot_clip W E p) q) (xmul (w_d W) v (Fin (1 / 2)))) stroke0 (solid c)) _ (combine us vs)).
    + cbn [bind]. unfold draw_labels. change (lb_text (lbl0 W E)) with (@nil str).
      cbn [with_index combine length seq draw_each bind]. rewrite app_nil_r. unfold draw_path_.
      rewrite flat_map_one, (map_numbered (fun q => shape_of (add_circle (w_d W) [] (spot (w_d W) (plot_clip W E p) q) (xmul (w_d W) v (Fin (1 / 2)))) stroke0 (solid c) None)), map_map. reflexivity.
    + rewrite combine_length, LU, LV, L. lia.
    + intros i [x y] Q. apply nth_combine in Q as [Qx Qy]. rewrite (at_some _ _ _ Qx), (at_some _ _ _ Qy). cbn [bind].
      unfold draw_marker. now rewrite place_spot.
  - destruct (bars_run W E p s c v tx ty St C S Tx Ty) as (sz & NZ & R). unfold bars_draw, bars_configure. rewrite R. cbn [bind b_x b_y b_xlow b_ylow].
    rewrite (holds_len W _ _ Hx), (holds_len W _ _ Hy), L, Nat.eqb_refl. cbn [negb].
    change (databuf_len xr empty) with 0%nat. cbn [Nat.eqb negb andb bind]. cbn [b_x b_y b_xlow b_ylow b_sx b_sy b_horiz b_sizes b_size b_offset b_offsets b_stroke b_fill b_lbl].
    rewrite U. cbn [bind]. rewrite V. cbn [bind]. rewrite (to_unit_nothing W _ Ky). cbn [bind]. rewrite Z. cbn [bind cycle base_at].
    rewrite (drawn_ex (fun _ q => draw_path_ (bar_box (w_d W) v (py_ W (plot_clip W E p) (clamp01 z)) (spot (w_d W) (plot_clip W E p) q)) (stroke_with (Fin 0) c) (solid c)) _ (combine us vs)).
    + cbn [bind]. unfold draw_labels. change (lb_text (lbl0 W E)) with (@nil str).
      cbn [with_index combine length seq draw_each bind]. rewrite app_nil_r. unfold draw_path_.
      rewrite flat_map_one, (map_numbered (fun q => shape_of (bar_box (w_d W) v (py_ W (plot_clip W E p) (clamp01 z)) (spot (w_d W) (plot_clip W E p) q)) (stroke_with (Fin 0) c) (solid c) None)), map_map. reflexivity.
    + rewrite combine_length, LU, LV, L. lia.
    + intros i [x y] Q. apply nth_combine in Q as [Qx Qy]. rewrite (at_some _ _ _ Qx), (at_some _ _ _ Qy). cbn [bind]. rewrite NZ. reflexivity.
  - unfold areas_draw, areas_configure. rewrite (areas_run W E p s c v St C S). cbn [bind a_src a_x a_y].
    rewrite (load_points_source W _ _ _ _ Tx Ty). cbn [bind fst snd]. cbv zeta. cbn [a_x a_y set_a_x set_a_y a_xlow a_ylow].
    rewrite (holds_len W _ _ Hx), (holds_len W _ _ Hy), L, Nat.eqb_refl. cbn [negb].
    change (databuf_len xr empty) with 0%nat. cbn [Nat.eqb negb andb bind]. cbn [a_x a_y set_a_x set_a_y a_xlow a_ylow a_sx a_sy a_horiz a_fill a_high a_low].
    rewrite U. cbn [bind]. rewrite (to_unit_nothing W _ Kx). cbn [bind]. rewrite V. cbn [bind]. rewrite (to_unit_nothing W _ Ky). cbn [bind]. rewrite Z.
    rewrite (loopM (combine us vs) _ _ (fun q => Ret (spot (w_d W) (plot_clip W E p) q))).
    2: { rewrite combine_length, LU, LV, L. lia. }
    2: { intros i [x y] P. apply nth_combine in P as [Qx Qy]. rewrite (at_some _ _ _ Qx), (at_some _ _ _ Qy). cbn [bind].
         now rewrite place_spot. }
    rewrite forM_ret. cbn [bind].
    rewrite (loopM_rev (combine us vs) _ _ (fun q => mk_vec2 (vx (spot (w_d W) (plot_clip W E p) q)) (py_ W (plot_clip W E p) (clamp01 z)))).
    2: { rewrite combine_length, LU, LV, L. lia. }
    2: { intros i [x y] P. apply nth_combine in P as [Qx Qy]. rewrite (at_some _ _ _ Qx), (at_some _ _ _ Qy). reflexivity. }
    cbn [bind]. rewrite map_map. reflexivity.
Qed.
