(** The tables of the elements against their parts. *)
From Coq Require Import Reals Lra.
From Verif Require Import Base Num Sexpr_Model Dispatch_Model Dispatch_Spec Data_Model Data_Spec Data_Proofs Scale_Model Scale_Spec Scale_Proofs
  Units_Model Color_Model Geo_Model Svg_Model Geojson_Model Cmd_Model Cmd_Spec Cmd_Proofs Style_Model Plot_Model Plot_Spec Plot_Proofs.
Local Open Scope R_scope.

Section P.
  Variable W : world.
  Variable E : env.
  Notation d := (w_d W).
  Notation proj H P := (run_proj _ _ _ P _ _ _ H).

  Lemma bars_parts e p c : run (bars_table W E) e (bars0 W E p) = Ret c ->
    element_scale W "x" e (p_sx p) = Ret (b_sx c) /\ element_scale W "y" e (p_sy p) = Ret (b_sy c) /\
    column W ["data-x"; "data-x-high"]%string e = Ret (b_x c) /\ column W ["data-y"; "data-y-high"]%string e = Ret (b_y c) /\
    column W ["data-x-low"]%string e = Ret (b_xlow c) /\ column W ["data-y-low"]%string e = Ret (b_ylow c) /\
    options (stroke_options W E) e (stroke_with (Fin 0) (e_fg E)) = Ret (b_stroke c) /\
    options (fill_options W E) e (solid (e_fg E)) = Ret (b_fill c) /\
    setting "width" (rd_size W E) e (Fin 0) = Ret (b_size c) /\
    options [(s_ "widths", load_measures W)] e [] = Ret (b_sizes c) /\
    setting "offset" (rd_size W E) e (Fin 0) = Ret (b_offset c) /\
    options [(s_ "offsets", load_measures W)] e [] = Ret (b_offsets c) /\
    setting "direction" (expr_to_enum direction_enum) e false = Ret (b_horiz c) /\
    options (label_options W E (rd_measure W)) e (plain_labels W E) = Ret (b_lbl c).
  Proof.
    intro H.
    assert (P1 : projects b_sx (bars_table W E) (scale_options W "x")) by projection.
    assert (P2 : projects b_sy (bars_table W E) (scale_options W "y")) by projection.
    assert (P3 : projects b_x (bars_table W E) (map (fun k => (s_ k, fun a b => load_simple W a b)) ["data-x"; "data-x-high"]%string)) by projection.
    assert (P4 : projects b_y (bars_table W E) (map (fun k => (s_ k, fun a b => load_simple W a b)) ["data-y"; "data-y-high"]%string)) by projection.
    assert (P5 : projects b_xlow (bars_table W E) (map (fun k => (s_ k, fun a b => load_simple W a b)) ["data-x-low"]%string)) by projection.
    assert (P6 : projects b_ylow (bars_table W E) (map (fun k => (s_ k, fun a b => load_simple W a b)) ["data-y-low"]%string)) by projection.
    assert (P7 : projects b_stroke (bars_table W E) (stroke_options W E)) by projection.
    assert (P8 : projects b_fill (bars_table W E) (fill_options W E)) by projection.
    assert (P9 : projects b_size (bars_table W E) [(s_ "width", fun a _ => rd_size W E a)]) by projection.
    assert (P10 : projects b_sizes (bars_table W E) [(s_ "widths", load_measures W)]) by projection.
    assert (P11 : projects b_offset (bars_table W E) [(s_ "offset", fun a _ => rd_size W E a)]) by projection.
    assert (P12 : projects b_offsets (bars_table W E) [(s_ "offsets", load_measures W)]) by projection.
    assert (P13 : projects b_horiz (bars_table W E) [(s_ "direction", fun a _ => expr_to_enum direction_enum a)]) by projection.
    assert (P14 : projects b_lbl (bars_table W E) (label_options W E (rd_measure W))) by projection.
    exact (conj (proj H P1) (conj (proj H P2) (conj (proj H P3) (conj (proj H P4) (conj (proj H P5) (conj (proj H P6)
      (conj (proj H P7) (conj (proj H P8) (conj (setting_opt "width" _ _ _ _ _ _ P9 H) (conj (proj H P10)
      (conj (setting_opt "offset" _ _ _ _ _ _ P11 H) (conj (proj H P12)
      (conj (setting_opt "direction" _ _ _ _ _ _ P13 H) (proj H P14)))))))))))))).
  Qed.

  Lemma areas_parts e p c : run (areas_table W E) e (areas0 E p) = Ret c ->
    element_scale W "x" e (p_sx p) = Ret (a_sx c) /\ element_scale W "y" e (p_sy p) = Ret (a_sy c) /\
    a_src c = source_of e /\
    column W ["data-x-high"]%string e = Ret (a_x c) /\ column W ["data-y-high"]%string e = Ret (a_y c) /\
    column W ["data-x-low"]%string e = Ret (a_xlow c) /\ column W ["data-y-low"]%string e = Ret (a_ylow c) /\
    options (side_options W E "high") e (stroke_with (Fin 0) (e_fg E)) = Ret (a_high c) /\
    options (side_options W E "low") e (stroke_with (Fin 0) (e_fg E)) = Ret (a_low c) /\
    options (fill_options W E) e (solid (e_fg E)) = Ret (a_fill c) /\
    setting "direction" (expr_to_enum direction_enum) e false = Ret (a_horiz c).
  Proof.
    intro H.
    assert (P1 : projects a_sx (areas_table W E) (scale_options W "x")) by projection.
    assert (P2 : projects a_sy (areas_table W E) (scale_options W "y")) by projection.
    assert (P0 : projects a_src (areas_table W E) src_options) by projection.
    assert (P3 : projects a_x (areas_table W E) (map (fun k => (s_ k, fun a b => load_simple W a b)) ["data-x-high"]%string)) by projection.
    assert (P4 : projects a_y (areas_table W E) (map (fun k => (s_ k, fun a b => load_simple W a b)) ["data-y-high"]%string)) by projection.
    assert (P5 : projects a_xlow (areas_table W E) (map (fun k => (s_ k, fun a b => load_simple W a b)) ["data-x-low"]%string)) by projection.
    assert (P6 : projects a_ylow (areas_table W E) (map (fun k => (s_ k, fun a b => load_simple W a b)) ["data-y-low"]%string)) by projection.
    assert (P7 : projects a_high (areas_table W E) (side_options W E "high")) by projection.
    assert (P8 : projects a_low (areas_table W E) (side_options W E "low")) by projection.
    assert (P9 : projects a_fill (areas_table W E) (fill_options W E)) by projection.
    assert (P13 : projects a_horiz (areas_table W E) [(s_ "direction", fun a _ => expr_to_enum direction_enum a)]) by projection.
    exact (conj (proj H P1) (conj (proj H P2) (conj (src_ok _ _ _ (areas0 E p) _ P0 eq_refl H)
      (conj (proj H P3) (conj (proj H P4) (conj (proj H P5) (conj (proj H P6)
      (conj (proj H P7) (conj (proj H P8) (conj (proj H P9) (setting_opt "direction" _ _ _ _ _ _ P13 H))))))))))).
  Qed.
  Lemma err_parts e p c : run (err_table W E) e (err0 W E p) = Ret c ->
    element_scale W "x" e (p_sx p) = Ret (e_sx c) /\ element_scale W "y" e (p_sy p) = Ret (e_sy c) /\
    column W ["data-x"]%string e = Ret (e_x c) /\ column W ["data-y"]%string e = Ret (e_y c) /\
    column W ["data-x-low"]%string e = Ret (e_xlow c) /\ column W ["data-x-high"]%string e = Ret (e_xhigh c) /\
    column W ["data-y-low"]%string e = Ret (e_ylow c) /\ column W ["data-y-high"]%string e = Ret (e_yhigh c) /\
    setting "width" (rd_size W E) e (pt W E 6) = Ret (e_barw c) /\
    setting "stroke-width" (rd_size W E) e (pt W E 1) = Ret (e_strokew c) /\
    options (bar_color_options W E) e (plain_marks E (Fin 0)) = Ret (e_marks c).
  Proof.
    intro H.
    assert (P1 : projects e_sx (err_table W E) (scale_options W "x")) by projection.
    assert (P2 : projects e_sy (err_table W E) (scale_options W "y")) by projection.
    assert (P3 : projects e_x (err_table W E) (map (fun k => (s_ k, fun a b => load_simple W a b)) ["data-x"]%string)) by projection.
    assert (P4 : projects e_y (err_table W E) (map (fun k => (s_ k, fun a b => load_simple W a b)) ["data-y"]%string)) by projection.
    assert (P5 : projects e_xlow (err_table W E) (map (fun k => (s_ k, fun a b => load_simple W a b)) ["data-x-low"]%string)) by projection.
    assert (P6 : projects e_xhigh (err_table W E) (map (fun k => (s_ k, fun a b => load_simple W a b)) ["data-x-high"]%string)) by projection.
    assert (P7 : projects e_ylow (err_table W E) (map (fun k => (s_ k, fun a b => load_simple W a b)) ["data-y-low"]%string)) by projection.
    assert (P8 : projects e_yhigh (err_table W E) (map (fun k => (s_ k, fun a b => load_simple W a b)) ["data-y-high"]%string)) by projection.
    assert (P9 : projects e_barw (err_table W E) [(s_ "width", fun a _ => rd_size W E a)]) by projection.
    assert (P10 : projects e_strokew (err_table W E) [(s_ "stroke-width", fun a _ => rd_size W E a)]) by projection.
    assert (P11 : projects e_marks (err_table W E) (bar_color_options W E)) by projection.
    exact (conj (proj H P1) (conj (proj H P2) (conj (proj H P3) (conj (proj H P4) (conj (proj H P5) (conj (proj H P6)
      (conj (proj H P7) (conj (proj H P8) (conj (setting_opt "width" _ _ _ _ _ _ P9 H)
      (conj (setting_opt "stroke-width" _ _ _ _ _ _ P10 H) (proj H P11))))))))))).
  Qed.

  Lemma labels_parts e p c : run (labels_table W E) e (mk_labels src0 (p_sx p) (p_sy p) (lbl0 W E)) = Ret c ->
    element_scale W "x" e (p_sx p) = Ret (t_sx c) /\ element_scale W "y" e (p_sy p) = Ret (t_sy c) /\
    t_src c = source_of e /\
    options (label_options W E (rd_measure W) ++ font_options W) e (plain_labels W E) = Ret (t_lbl c).
  Proof.
    intro H.
    assert (P1 : projects t_sx (labels_table W E) (scale_options W "x")) by projection.
    assert (P2 : projects t_sy (labels_table W E) (scale_options W "y")) by projection.
    assert (P0 : projects t_src (labels_table W E) src_options) by projection.
    assert (P3 : projects t_lbl (labels_table W E) (label_options W E (rd_measure W) ++ font_options W)) by projection.
    exact (conj (proj H P1) (conj (proj H P2)
      (conj (src_ok _ _ _ (mk_labels src0 (p_sx p) (p_sy p) (lbl0 W E)) _ P0 eq_refl H) (proj H P3)))).
  Qed.

  Lemma vectors_parts e p c :
    run (vectors_table W E) e (mk_vectors src0 empty empty (p_sx p) (p_sy p) (mk_marks (e_fg E) [] None (pt W E 1) [] None)) = Ret c ->
    element_scale W "x" e (p_sx p) = Ret (v_sx c) /\ element_scale W "y" e (p_sy p) = Ret (v_sy c) /\
    v_src c = source_of e /\
    column W ["data-dx"]%string e = Ret (v_dx c) /\ column W ["data-dy"]%string e = Ret (v_dy c) /\
    options (mark_options W E) e (plain_marks E (pt W E 1)) = Ret (v_marks c).
  Proof.
    intro H.
    assert (P1 : projects v_sx (vectors_table W E) (scale_options W "x")) by projection.
    assert (P2 : projects v_sy (vectors_table W E) (scale_options W "y")) by projection.
    assert (P0 : projects v_src (vectors_table W E) src_options) by projection.
    assert (P3 : projects v_dx (vectors_table W E) (map (fun k => (s_ k, fun a b => load_simple W a b)) ["data-dx"]%string)) by projection.
    assert (P4 : projects v_dy (vectors_table W E) (map (fun k => (s_ k, fun a b => load_simple W a b)) ["data-dy"]%string)) by projection.
    assert (P5 : projects v_marks (vectors_table W E) (mark_options W E)) by projection.
    exact (conj (proj H P1) (conj (proj H P2)
      (conj (src_ok _ _ _ (mk_vectors src0 empty empty (p_sx p) (p_sy p) (mk_marks (e_fg E) [] None (pt W E 1) [] None)) _ P0 eq_refl H)
      (conj (proj H P3) (conj (proj H P4) (proj H P5)))))).
  Qed.

  Lemma rects_parts e p c :
    run (rects_table W E) e (mk_rects src0 empty empty (Fin 0) (Fin 0) (p_sx p) (p_sy p) (mk_marks (e_fg E) [] None (Fin 0) [] None)) = Ret c ->
    element_scale W "x" e (p_sx p) = Ret (r_sx c) /\ element_scale W "y" e (p_sy p) = Ret (r_sy c) /\
    r_src c = source_of e /\
    column W ["data-size-x"; "data-size"]%string e = Ret (r_szx c) /\ column W ["data-size-y"; "data-size"]%string e = Ret (r_szy c) /\
    options (size_options W E ["size"; "size-x"]%string) e (Fin 0) = Ret (r_defx c) /\
    options (size_options W E ["size"; "size-y"]%string) e (Fin 0) = Ret (r_defy c) /\
    options (marks_color_options W E) e (plain_marks E (Fin 0)) = Ret (r_marks c).
  Proof.
    intro H.
    assert (P1 : projects r_sx (rects_table W E) (scale_options W "x")) by projection.
    assert (P2 : projects r_sy (rects_table W E) (scale_options W "y")) by projection.
    assert (P0 : projects r_src (rects_table W E) src_options) by projection.
    assert (P3 : projects r_szx (rects_table W E) (map (fun k => (s_ k, fun a b => load_simple W a b)) ["data-size-x"; "data-size"]%string)) by projection.
    assert (P4 : projects r_szy (rects_table W E) (map (fun k => (s_ k, fun a b => load_simple W a b)) ["data-size-y"; "data-size"]%string)) by projection.
    assert (P5 : projects r_defx (rects_table W E) (size_options W E ["size"; "size-x"]%string)) by projection.
    assert (P6 : projects r_defy (rects_table W E) (size_options W E ["size"; "size-y"]%string)) by projection.
    assert (P7 : projects r_marks (rects_table W E) (marks_color_options W E)) by projection.
    exact (conj (proj H P1) (conj (proj H P2)
      (conj (src_ok _ _ _ (mk_rects src0 empty empty (Fin 0) (Fin 0) (p_sx p) (p_sy p) (mk_marks (e_fg E) [] None (Fin 0) [] None)) _ P0 eq_refl H)
      (conj (proj H P3) (conj (proj H P4) (conj (proj H P5) (conj (proj H P6) (proj H P7)))))))).
  Qed.

  Lemma polys_parts e p c : run (polys_table W E) e (polys0 W E p) = Ret c ->
    options (firstn 4 (scale_options W "x")) e (p_sx p) = Ret (g_sx c) /\
    options (firstn 4 (scale_options W "y")) e (p_sy p) = Ret (g_sy c) /\
    options [(s_ "data", load_polys W)] e [] = Ret (g_polys c) /\
    options (stroke_options W E) e (stroke_with (pt W E 1) black) = Ret (g_stroke c) /\
    options (fill_options W E) e fill0 = Ret (g_fill c).
  Proof.
    intro H.
    assert (P1 : projects g_sx (polys_table W E) (firstn 4 (scale_options W "x"))) by projection.
    assert (P2 : projects g_sy (polys_table W E) (firstn 4 (scale_options W "y"))) by projection.
    assert (P3 : projects g_polys (polys_table W E) [(s_ "data", load_polys W)]) by projection.
    assert (P4 : projects g_stroke (polys_table W E) (stroke_options W E)) by projection.
    assert (P5 : projects g_fill (polys_table W E) (fill_options W E)) by projection.
    exact (conj (proj H P1) (conj (proj H P2) (conj (proj H P3) (conj (proj H P4) (proj H P5))))).
  Qed.
End P.
