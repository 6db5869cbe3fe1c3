(** C113: what happens when the conditions do not hold. *)
From Coq Require Import Reals Lra Lia.
From Verif Require Import Base Num Sexpr_Model Dispatch_Model Data_Model Data_Spec Data_Proofs Scale_Model Scale_Spec Scale_Proofs Scale_Proofs4
  Units_Model Color_Model Geo_Model Svg_Model Geojson_Model Cmd_Model Cmd_Spec Cmd_Proofs Style_Model Plot_Model Plot_Spec Plot_Proofs Plot_Parts Plot_Loops Plot_Inline
  Safe_Spec Safe_Proofs Safe_Proofs2 Safe_Proofs3 Safe_Props Safe_Props2 Demo.
Local Open Scope R_scope.

Lemma draw_each_fails {A B} (f : A -> outcome (list B)) l1 a l2 :
  (forall x, In x l1 -> exists r, f x = Ret r) -> f a = UB -> draw_each f (l1 ++ a :: l2) = UB.
Proof.
  induction l1 as [|x l1 IH]; intros R U; cbn [app draw_each].
  - now rewrite U.
  - destruct (R x (or_introl eq_refl)) as (r & ->). cbn [bind]. rewrite IH; [reflexivity| |exact U]. intros; apply R; now right.
Qed.
Lemma at_none {A} (l : list A) : at_ l (length l) = UB.
Proof. unfold at_. now rewrite (proj2 (nth_error_None l (length l)) (Nat.le_refl _)). Qed.
Lemma at_ret {A} (l : list A) i : (i < length l)%nat -> exists a, at_ l i = Ret a.
Proof. intro H. unfold at_. destruct (nth_error l i) eqn:X; [eauto|]. apply nth_error_None in X. lia. Qed.

Lemma index_split {A} (l : list A) n : (n < length l)%nat -> exists l1 t l2,
  with_index l = l1 ++ (n, t) :: l2 /\ forall x, In x l1 -> (fst x < n)%nat.
Proof.
  intro H. destruct (nth_error l n) as [t|] eqn:X; [|apply nth_error_None in X; lia].
  assert (N : forall j, (j < length l)%nat -> forall x, nth_error (with_index l) j = Some x -> fst x = j).
  { intros j J [i u] Q. unfold with_index in Q. apply nth_combine in Q as [Q _]. apply nth_error_nth with (d := 0%nat) in Q.
    rewrite seq_nth in Q by lia. cbn [fst]. lia. }
  assert (Y : exists q, nth_error (with_index l) n = Some q).
  { destruct (nth_error (with_index l) n) eqn:Y; [eauto|]. apply nth_error_None in Y. unfold with_index in Y. rewrite combine_length, seq_length in Y. lia. }
  destruct Y as [[i u] Y]. pose proof (N n H _ Y) as I. cbn [fst] in I. subst i.
  destruct (nth_error_split _ _ Y) as (l1 & l2 & S & LN). exists l1, u, l2. split; [exact S|]. intros x IN.
  apply In_nth_error in IN. destruct IN as [j J]. assert (JL : (j < length l1)%nat) by (apply nth_error_Some; congruence).
  assert (W1 : nth_error (with_index l) j = Some x) by (rewrite S, nth_error_app1; assumption).
  rewrite (N j ltac:(lia) x W1). lia.
Qed.

(** More labels than points: the position of a label is read behind the end of the data
    (labels.cc:66-86, and likewise lines, points and bars). *)
Theorem C113_many_labels_refuted : forall (W : world) (E : env) (p : plot) (tx ty ls : list str) (xs ys : list R) (ax bx ay by_ : R),
  exact_world W -> (forall fn sz dp t q h v r, exists ps, w_text W fn sz dp t q h v r = Ret ps) ->
  Forall2 (reads W) tx xs -> Forall2 (reads W) ty ys -> length xs = length ys -> (length xs < length ls)%nat ->
  linear_over (p_sx p) ax bx -> linear_over (p_sy p) ay by_ ->
  labels_draw W E p [inline "data-x" tx; inline "data-y" ty; EList (ELit (s_ "labels") :: map ELit ls)] = UB.
Proof.
  intros W E p tx ty ls xs ys ax bx ay by_ X TX Fx Fy L LL Lx Ly.
  pose proof (inlined_holds W _ _ Fx) as Hx. pose proof (inlined_holds W _ _ Fy) as Hy.
  unfold labels_draw, labels_configure. set (s0 := mk_labels src0 (p_sx p) (p_sy p) (lbl0 W E)).
  change [inline "data-x" tx; inline "data-y" ty; EList (ELit (s_ "labels") :: map ELit ls)]
    with ([inline "data-x" tx; inline "data-y" ty] ++ [EList (ELit (s_ "labels") :: map ELit ls)]).
  rewrite run_app.
  replace (run (labels_table W E) [inline "data-x" tx; inline "data-y" ty] s0) with
    (Ret (set_t_src (mk_src [] [] [EList (ELit (s_ "list") :: map ELit tx)] [EList (ELit (s_ "list") :: map ELit ty)]) s0)) by reflexivity.
  cbn [bind]. set (s1 := set_t_src _ s0). rewrite run_cons. cbn [option_of].
  change (assoc (s_ "labels") (labels_table W E)) with (Some (updf (fun s => lb_text (t_lbl s)) (rd_strings W) (fun v s => set_t_lbl (set_lb_text v (t_lbl s)) s))).
  cbn iota. unfold updf. unfold rd_strings, data_load_strings. rewrite not_headed, words_read. cbn [ended bind]. rewrite run_nil. cbn [bind].
  set (c := set_t_lbl _ s1). rewrite (points_inlined W (t_src c) tx ty eq_refl). cbn [bind fst snd].
  rewrite (holds_len W _ _ Hx), (holds_len W _ _ Hy), L, Nat.eqb_refl. cbn [negb bind fst snd].
  change (t_sx c) with (p_sx p). change (t_sy c) with (p_sy p).
  rewrite (to_unit_linear W _ _ _ ax bx X Hx Lx). cbn [bind]. rewrite (to_unit_linear W _ _ _ ay by_ X Hy Ly). cbn [bind].
  set (ux := map _ xs). set (uy := map _ ys). assert (LU : length ux = length xs) by apply map_length. assert (LV : length uy = length ys) by apply map_length.
  unfold draw_labels. change (lb_text (t_lbl c)) with ls. unfold with_index.
  destruct (index_split ls (length ux) ltac:(lia)) as (l1 & t & l2 & SP & SM). unfold with_index in SP. rewrite SP.
  apply draw_each_fails.
  - intros [i u] I. specialize (SM _ I). cbn [fst snd] in *. destruct (at_ret ux i ltac:(lia)) as (x & ->). destruct (at_ret uy i ltac:(lia)) as (y & ->).
    cbn [bind]. unfold label_at, draw_text_. match goal with |- context [w_text W ?a ?b ?c ?d ?e ?f ?g ?h] => destruct (TX a b c d e f g h) as (ps & ->) end.
    cbn [bind]. eauto.
  - cbn [fst snd]. rewrite at_none. reflexivity.
Qed.
Print Assumptions C113_many_labels_refuted.

(** Vectors without data-dx and data-dy, or with too few of them. *)
Theorem C113_vectors_refuted : forall (W : world) (E : env) (p : plot) (tx ty : list str) (xs ys : list R) (ax bx ay by_ : R),
  exact_world W -> Forall2 (reads W) tx xs -> Forall2 (reads W) ty ys -> length xs = length ys -> xs <> [] ->
  linear_over (p_sx p) ax bx -> linear_over (p_sy p) ay by_ ->
  vectors_draw W E p [inline "data-x" tx; inline "data-y" ty] = UB.
Proof.
  intros W E p tx ty xs ys ax bx ay by_ X Fx Fy L N Lx Ly.
  pose proof (inlined_holds W _ _ Fx) as Hx. pose proof (inlined_holds W _ _ Fy) as Hy.
  unfold vectors_draw, vectors_configure. match goal with |- context [run _ _ ?z] => set (s0 := z) end.
  replace (run (vectors_table W E) [inline "data-x" tx; inline "data-y" ty] s0) with
    (Ret (set_v_src (mk_src [] [] [EList (ELit (s_ "list") :: map ELit tx)] [EList (ELit (s_ "list") :: map ELit ty)]) s0)) by reflexivity.
  cbn [bind]. set (c := set_v_src _ s0). rewrite (points_inlined W (v_src c) tx ty eq_refl). cbn [bind fst snd].
  rewrite (holds_len W _ _ Hx), (holds_len W _ _ Hy), L, Nat.eqb_refl. cbn [negb].
  change (colors_of W (v_marks c)) with (Ret (@nil color)). change (sizes_of W (v_marks c)) with (Ret (@nil xr)). cbn [bind fst snd].
  change (v_sx c) with (p_sx p). change (v_sy c) with (p_sy p). change (v_dx c) with (@empty). change (v_dy c) with (@empty).
  rewrite (to_unit_linear W _ _ _ ax bx X Hx Lx). cbn [bind]. rewrite (to_unit_linear W _ _ _ ay by_ X Hy Ly). cbn [bind].
  change (magnitudes W (p_sx p) empty) with (Ret (@nil xr)). change (magnitudes W (p_sy p) empty) with (Ret (@nil xr)). cbn [bind].
  rewrite map_length. destruct xs as [|x xs]; [congruence|]. destruct ys as [|y ys]; [discriminate|]. reflexivity.
Qed.
Print Assumptions C113_vectors_refuted.

(** Bars on a categorical scale without categories: the baseline is clamped to a limit below
    zero, std::clamp with its limits the wrong way round; no data is needed. *)
Theorem C113_no_categories_refuted : forall (W : world) (E : env) (p : plot),
  exact_world W -> s_categories (p_sy p) = [] -> s_kind (p_sx p) = Linear ->
  bars_draw W E p [words_ "scale-y" ["categorical"]%string] = UB.
Proof.
  intros W E p [XD XF] N KX. unfold bars_draw, bars_configure.
  replace (run (bars_table W E) [words_ "scale-y" ["categorical"]%string] (bars0 W E p)) with
    (Ret (set_b_sy (set_categorical (p_sy p)) (bars0 W E p))) by reflexivity.
  cbn [bind]. set (c := set_b_sy _ _). change (databuf_len xr (b_x c)) with 0%nat. change (databuf_len xr (b_y c)) with 0%nat.
  change (databuf_len xr (b_xlow c)) with 0%nat. change (databuf_len xr (b_ylow c)) with 0%nat. cbn [Nat.eqb negb andb bind].
  change (b_horiz c) with false. change (b_x c) with (@empty). change (b_y c) with (@empty). change (b_ylow c) with (@empty). cbn iota.
  change (b_sx c) with (p_sx p). change (b_sy c) with (set_categorical (p_sy p)).
  replace (to_unit W (p_sx p) empty) with (Ret (@nil xr)) by (unfold to_unit, translatev_buf; rewrite KX; reflexivity).
  replace (to_unit W (set_categorical (p_sy p)) empty) with (Ret (@nil xr)) by reflexivity.
  cbn [bind]. unfold scale_translate. change (s_kind (set_categorical (p_sy p))) with Categorical. cbn iota. unfold to_unsigned.
  assert (Z0 : Ztrunc 0 = 0%Z) by apply Ztrunc_IZR. rewrite Z0. cbn [Z.leb Z.ltb Z.compare Z.pow andb bind Z.to_nat].
  unfold translate_categorical. change (s_categories (set_categorical (p_sy p))) with (s_categories (p_sy p)). rewrite N. cbn [length INR]. rewrite XD. unfold exact, xsub, xadd, xneg, xlt.
  destruct (Rlt_dec _ _) as [_|H]; [reflexivity|]. exfalso. lra.
Qed.
Print Assumptions C113_no_categories_refuted.
(** ... as in the plot of the cases. *)
Theorem C113_no_categories_case : bars_draw demo demo_env demo_plot [words_ "scale-y" ["categorical"]%string] = UB.
Proof. now apply C113_no_categories_refuted; [exact demo_exact| |]. Qed.
Print Assumptions C113_no_categories_case.

Lemma short_gradient col : gradient exact demo_stod [(Fin 0, col)] (s_ "1") = UB.
Proof.
  unfold gradient. change (demo_stod (s_ "1")) with (Some (Fin 1, 1%nat)). cbn iota. unfold clamp01, xlt.
  destruct (Rlt_dec 1 0); [lra|]. destruct (Rlt_dec 1 1); [lra|]. cbn [lower_bound fst xlt]. destruct (Rlt_dec 0 1); [|lra]. reflexivity.
Qed.
(** A gradient whose last stop is below the value. *)
Theorem C113_gradient_refuted : exists e : list expr, scales_usable demo demo_plot e /\ points_draw demo demo_env demo_plot e = UB.
Proof.
  exists [inline "data-x" [s_ "1"]; inline "data-y" [s_ "3"]; words_ "colors" ["1"]%string;
          EList [ELit (s_ "color-map"); words_ "gradient" ["0"; "#ffffff"]%string]]. split.
  - apply C113_plain_scales; [intro; discriminate|intro; discriminate|not_given|not_given].
  - unfold points_draw, points_configure.
    match goal with |- context [run ?t ?e ?s] => let r := eval hnf in (run t e s) in change (run t e s) with r end. cbn [bind].
    match goal with |- context [load_points demo ?s empty empty] => change (load_points demo s empty empty) with (Ret (inlined [s_ "1"], inlined [s_ "3"])) end.
    cbn [bind fst snd]. change (databuf_len xr (inlined [s_ "1"]) =? databuf_len xr (inlined [s_ "3"]))%nat with true. cbn [negb].
    match goal with |- context [colors_of demo ?m] => assert (C : colors_of demo m = UB) end.
    { match goal with |- colors_of demo ?m = _ => change (colors_of demo m) with (forM (convert_color demo (m_cmap m)) [s_ "1"]) end.
      cbn [forM]. match goal with |- context [convert_color demo (m_cmap ?m) (s_ "1")] =>
        let r := eval hnf in (m_cmap m) in change (m_cmap m) with r end.
      unfold convert_color. match goal with |- bind ?o _ = UB => assert (G : o = UB) by (exact (short_gradient _)); rewrite G end. reflexivity. }
    rewrite C. reflexivity.
Qed.
Print Assumptions C113_gradient_refuted.

(** Polygons on a categorical scale. *)
Theorem C113_polygons_refuted : exists e : list expr, maps_read demo e /\ polygons_draw demo demo_env demo_plot e = UB.
Proof.
  exists [EList [ELit (s_ "data"); words_ "geojson" ["p.json"]%string]; words_ "scale-x" ["categorical"]%string]. split.
  - intros path (a & (x & I & O) & V). cbn [In] in I. repeat (destruct I as [<-|I]; [try discriminate O|]); try destruct I.
    injection O as <-. destruct V as [V|(h & b & r & Q & V)]; [discriminate|]. unfold words_ in Q. cbn [map] in Q. injection Q as <- <- <-.
    injection V as <-. split; discriminate.
  - unfold polygons_draw, polys_configure.
    match goal with |- context [run ?t ?e ?s] => let r := eval hnf in (run t e s) in change (run t e s) with r end. cbn [bind].
    match goal with |- context [boundary_points (g_polys ?c)] => set (c0 := c) end.
    assert (GP : exists b h l, g_polys c0 = ((mk_vec2 (Fin 0) (Fin 0) :: b), h) :: l) by (eexists _, _, _; reflexivity).
    destruct GP as (b & h & l & GP).
    set (xs := map vx _). set (ys := map vy _). set (c := set_g_sy _ _).
    assert (G2 : g_polys c = g_polys c0) by reflexivity. rewrite G2, GP. cbn [forM fst]. cbn [vx].
    assert (U : scale_translate (w_d demo) (w_f demo) (g_sx c) (Fin 0) = UB).
    { assert (KD : s_kind (g_sx c) = Categorical) by (change (g_sx c) with (fit_values xs (g_sx c0)); rewrite fit_kind_; reflexivity).
      assert (KC : s_categories (g_sx c) = []).
      { change (g_sx c) with (fit_values xs (g_sx c0)). assert (N : s_categories (g_sx c0) = []) by reflexivity. revert N. generalize (g_sx c0). clear.
        unfold fit_values. induction xs as [|v xs IH]; intros s N; cbn [fold_left]; [exact N|]. apply IH. unfold fit. destruct s. cbn in *.
        repeat (match goal with |- context [match ?x with _ => _ end] => destruct x end); exact N. }
      unfold scale_translate. rewrite KD. unfold to_unsigned. assert (Z0 : Ztrunc 0 = 0%Z) by apply Ztrunc_IZR. rewrite Z0.
      cbn [Z.leb Z.ltb Z.compare Z.pow andb bind Z.to_nat]. unfold translate_categorical. rewrite KC. cbn [length INR].
      change (w_d demo) with exact. unfold exact, xsub, xadd, xneg, xlt. destruct (Rlt_dec _ _) as [_|H]; [reflexivity|]. exfalso. lra. }
    rewrite U. reflexivity.
Qed.
Print Assumptions C113_polygons_refuted.

(** Two labels for one point, and vectors of one point without differences. *)
Theorem C113_many_labels_case :
  labels_draw demo demo_env demo_plot [inline "data-x" [s_ "1"]; inline "data-y" [s_ "2"]; EList (ELit (s_ "labels") :: map ELit [s_ "a"; s_ "b"])] = UB /\
  vectors_draw demo demo_env demo_plot [inline "data-x" [s_ "1"]; inline "data-y" [s_ "2"]] = UB.
Proof.
  split.
  - apply (C113_many_labels_refuted demo demo_env demo_plot [s_ "1"] [s_ "2"] [s_ "a"; s_ "b"] [1] [2] 0 10 0 10 demo_exact);
      [intros; eexists; reflexivity|demo_numbers|demo_numbers|reflexivity|cbn; lia|exact demo_linear|exact demo_linear].
  - apply (C113_vectors_refuted demo demo_env demo_plot [s_ "1"] [s_ "2"] [1] [2] 0 10 0 10 demo_exact);
      [demo_numbers|demo_numbers|reflexivity|discriminate|exact demo_linear|exact demo_linear].
Qed.
Print Assumptions C113_many_labels_case.
