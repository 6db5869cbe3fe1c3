(** Model of the geometry elements of a plot: /repo/src/plot/lines.cc, points.cc, bars.cc,
    areas.cc, errorbars.cc, labels.cc, vectors.cc, rectangles.cc and polygons.cc, with
    data_load_polylines2, data_load_polys2 and data_load of /repo/src/data.cc.

    For each element: the configuration (its members and the setters for them), the table given
    to expr_walk_map, the checks, and what is drawn. *)
From Coq Require Import Reals.
From Verif Require Import Base Num Sexpr_Model Dispatch_Model Csv_Model Data_Model Geojson_Model Scale_Model
  Units_Model Color_Model Geo_Model Svg_Model Cmd_Model Style_Model.
Local Open Scope R_scope.

Notation poly2 := (list vec2 * list (list vec2))%type.

(** The locals data_ref, data_format, data_x, data_y of the *_configure functions. *)
Record src := mk_src {
  d_ref : str; d_fmt : str; d_x : list expr; d_y : list expr }.
Definition set_d_ref (v : str) (c : src) : src := mk_src v (d_fmt c) (d_x c) (d_y c).
Definition set_d_fmt (v : str) (c : src) : src := mk_src (d_ref c) v (d_x c) (d_y c).
Definition set_d_x (v : list expr) (c : src) : src := mk_src (d_ref c) (d_fmt c) v (d_y c).
Definition set_d_y (v : list expr) (c : src) : src := mk_src (d_ref c) (d_fmt c) (d_x c) v.
(** labels, label_font, label_font_size, label_color, label_padding (a Number or a Measure whose
    value is used). *)
Record lbl := mk_lbl {
  lb_text : list str; lb_font : font; lb_size : xr; lb_color : color; lb_pad : xr }.
Definition set_lb_text (v : list str) (c : lbl) : lbl := mk_lbl v (lb_font c) (lb_size c) (lb_color c) (lb_pad c).
Definition set_lb_font (v : font) (c : lbl) : lbl := mk_lbl (lb_text c) v (lb_size c) (lb_color c) (lb_pad c).
Definition set_lb_size (v : xr) (c : lbl) : lbl := mk_lbl (lb_text c) (lb_font c) v (lb_color c) (lb_pad c).
Definition set_lb_color (v : color) (c : lbl) : lbl := mk_lbl (lb_text c) (lb_font c) (lb_size c) v (lb_pad c).
Definition set_lb_pad (v : xr) (c : lbl) : lbl := mk_lbl (lb_text c) (lb_font c) (lb_size c) (lb_color c) v.
(** color, data_colors, color_map, size, data_sizes, size_map. *)
Record marks := mk_marks {
  m_color : color; m_colors : list str; m_cmap : option (str -> outcome color); m_size : xr; m_sizes : list str; m_smap : option (str -> outcome measure) }.
Definition set_m_color (v : color) (c : marks) : marks := mk_marks v (m_colors c) (m_cmap c) (m_size c) (m_sizes c) (m_smap c).
Definition set_m_colors (v : list str) (c : marks) : marks := mk_marks (m_color c) v (m_cmap c) (m_size c) (m_sizes c) (m_smap c).
Definition set_m_cmap (v : option (str -> outcome color)) (c : marks) : marks := mk_marks (m_color c) (m_colors c) v (m_size c) (m_sizes c) (m_smap c).
Definition set_m_size (v : xr) (c : marks) : marks := mk_marks (m_color c) (m_colors c) (m_cmap c) v (m_sizes c) (m_smap c).
Definition set_m_sizes (v : list str) (c : marks) : marks := mk_marks (m_color c) (m_colors c) (m_cmap c) (m_size c) v (m_smap c).
Definition set_m_smap (v : option (str -> outcome measure)) (c : marks) : marks := mk_marks (m_color c) (m_colors c) (m_cmap c) (m_size c) (m_sizes c) v.
(** PlotLinesConfig, lines.cc:40-55 *)
Record lines_cfg := mk_lines {
  l_src : src; l_sx : scale; l_sy : scale; l_stroke : stroke_style; l_msize : xr; l_marker : marker; l_mcolor : color; l_lbl : lbl }.
Definition set_l_src (v : src) (c : lines_cfg) : lines_cfg := mk_lines v (l_sx c) (l_sy c) (l_stroke c) (l_msize c) (l_marker c) (l_mcolor c) (l_lbl c).
Definition set_l_sx (v : scale) (c : lines_cfg) : lines_cfg := mk_lines (l_src c) v (l_sy c) (l_stroke c) (l_msize c) (l_marker c) (l_mcolor c) (l_lbl c).
Definition set_l_sy (v : scale) (c : lines_cfg) : lines_cfg := mk_lines (l_src c) (l_sx c) v (l_stroke c) (l_msize c) (l_marker c) (l_mcolor c) (l_lbl c).
Definition set_l_stroke (v : stroke_style) (c : lines_cfg) : lines_cfg := mk_lines (l_src c) (l_sx c) (l_sy c) v (l_msize c) (l_marker c) (l_mcolor c) (l_lbl c).
Definition set_l_msize (v : xr) (c : lines_cfg) : lines_cfg := mk_lines (l_src c) (l_sx c) (l_sy c) (l_stroke c) v (l_marker c) (l_mcolor c) (l_lbl c).
Definition set_l_marker (v : marker) (c : lines_cfg) : lines_cfg := mk_lines (l_src c) (l_sx c) (l_sy c) (l_stroke c) (l_msize c) v (l_mcolor c) (l_lbl c).
Definition set_l_mcolor (v : color) (c : lines_cfg) : lines_cfg := mk_lines (l_src c) (l_sx c) (l_sy c) (l_stroke c) (l_msize c) (l_marker c) v (l_lbl c).
Definition set_l_lbl (v : lbl) (c : lines_cfg) : lines_cfg := mk_lines (l_src c) (l_sx c) (l_sy c) (l_stroke c) (l_msize c) (l_marker c) (l_mcolor c) v.
(** PlotPointsConfig, points.cc:40-56 *)
Record points_cfg := mk_points {
  p_src : src; p_sx_ : scale; p_sy_ : scale; p_marks : marks; p_shape : marker; p_shapes : list marker; p_lbl : lbl }.
Definition set_p_src (v : src) (c : points_cfg) : points_cfg := mk_points v (p_sx_ c) (p_sy_ c) (p_marks c) (p_shape c) (p_shapes c) (p_lbl c).
Definition set_p_sx_ (v : scale) (c : points_cfg) : points_cfg := mk_points (p_src c) v (p_sy_ c) (p_marks c) (p_shape c) (p_shapes c) (p_lbl c).
Definition set_p_sy_ (v : scale) (c : points_cfg) : points_cfg := mk_points (p_src c) (p_sx_ c) v (p_marks c) (p_shape c) (p_shapes c) (p_lbl c).
Definition set_p_marks (v : marks) (c : points_cfg) : points_cfg := mk_points (p_src c) (p_sx_ c) (p_sy_ c) v (p_shape c) (p_shapes c) (p_lbl c).
Definition set_p_shape (v : marker) (c : points_cfg) : points_cfg := mk_points (p_src c) (p_sx_ c) (p_sy_ c) (p_marks c) v (p_shapes c) (p_lbl c).
Definition set_p_shapes (v : list marker) (c : points_cfg) : points_cfg := mk_points (p_src c) (p_sx_ c) (p_sy_ c) (p_marks c) (p_shape c) v (p_lbl c).
Definition set_p_lbl (v : lbl) (c : points_cfg) : points_cfg := mk_points (p_src c) (p_sx_ c) (p_sy_ c) (p_marks c) (p_shape c) (p_shapes c) v.
(** PlotBarsConfig, bars.cc:41-64 *)
Record bars_cfg := mk_bars {
  b_x : databuf xr; b_xlow : databuf xr; b_y : databuf xr; b_ylow : databuf xr; b_sx : scale; b_sy : scale; b_stroke : stroke_style; b_fill : fill_style; b_size : xr; b_sizes : list xr; b_offset : xr; b_offsets : list xr; b_horiz : bool; b_lbl : lbl }.
Definition set_b_x (v : databuf xr) (c : bars_cfg) : bars_cfg := mk_bars v (b_xlow c) (b_y c) (b_ylow c) (b_sx c) (b_sy c) (b_stroke c) (b_fill c) (b_size c) (b_sizes c) (b_offset c) (b_offsets c) (b_horiz c) (b_lbl c).
Definition set_b_xlow (v : databuf xr) (c : bars_cfg) : bars_cfg := mk_bars (b_x c) v (b_y c) (b_ylow c) (b_sx c) (b_sy c) (b_stroke c) (b_fill c) (b_size c) (b_sizes c) (b_offset c) (b_offsets c) (b_horiz c) (b_lbl c).
Definition set_b_y (v : databuf xr) (c : bars_cfg) : bars_cfg := mk_bars (b_x c) (b_xlow c) v (b_ylow c) (b_sx c) (b_sy c) (b_stroke c) (b_fill c) (b_size c) (b_sizes c) (b_offset c) (b_offsets c) (b_horiz c) (b_lbl c).
Definition set_b_ylow (v : databuf xr) (c : bars_cfg) : bars_cfg := mk_bars (b_x c) (b_xlow c) (b_y c) v (b_sx c) (b_sy c) (b_stroke c) (b_fill c) (b_size c) (b_sizes c) (b_offset c) (b_offsets c) (b_horiz c) (b_lbl c).
Definition set_b_sx (v : scale) (c : bars_cfg) : bars_cfg := mk_bars (b_x c) (b_xlow c) (b_y c) (b_ylow c) v (b_sy c) (b_stroke c) (b_fill c) (b_size c) (b_sizes c) (b_offset c) (b_offsets c) (b_horiz c) (b_lbl c).
Definition set_b_sy (v : scale) (c : bars_cfg) : bars_cfg := mk_bars (b_x c) (b_xlow c) (b_y c) (b_ylow c) (b_sx c) v (b_stroke c) (b_fill c) (b_size c) (b_sizes c) (b_offset c) (b_offsets c) (b_horiz c) (b_lbl c).
Definition set_b_stroke (v : stroke_style) (c : bars_cfg) : bars_cfg := mk_bars (b_x c) (b_xlow c) (b_y c) (b_ylow c) (b_sx c) (b_sy c) v (b_fill c) (b_size c) (b_sizes c) (b_offset c) (b_offsets c) (b_horiz c) (b_lbl c).
Definition set_b_fill (v : fill_style) (c : bars_cfg) : bars_cfg := mk_bars (b_x c) (b_xlow c) (b_y c) (b_ylow c) (b_sx c) (b_sy c) (b_stroke c) v (b_size c) (b_sizes c) (b_offset c) (b_offsets c) (b_horiz c) (b_lbl c).
Definition set_b_size (v : xr) (c : bars_cfg) : bars_cfg := mk_bars (b_x c) (b_xlow c) (b_y c) (b_ylow c) (b_sx c) (b_sy c) (b_stroke c) (b_fill c) v (b_sizes c) (b_offset c) (b_offsets c) (b_horiz c) (b_lbl c).
Definition set_b_sizes (v : list xr) (c : bars_cfg) : bars_cfg := mk_bars (b_x c) (b_xlow c) (b_y c) (b_ylow c) (b_sx c) (b_sy c) (b_stroke c) (b_fill c) (b_size c) v (b_offset c) (b_offsets c) (b_horiz c) (b_lbl c).
Definition set_b_offset (v : xr) (c : bars_cfg) : bars_cfg := mk_bars (b_x c) (b_xlow c) (b_y c) (b_ylow c) (b_sx c) (b_sy c) (b_stroke c) (b_fill c) (b_size c) (b_sizes c) v (b_offsets c) (b_horiz c) (b_lbl c).
Definition set_b_offsets (v : list xr) (c : bars_cfg) : bars_cfg := mk_bars (b_x c) (b_xlow c) (b_y c) (b_ylow c) (b_sx c) (b_sy c) (b_stroke c) (b_fill c) (b_size c) (b_sizes c) (b_offset c) v (b_horiz c) (b_lbl c).
Definition set_b_horiz (v : bool) (c : bars_cfg) : bars_cfg := mk_bars (b_x c) (b_xlow c) (b_y c) (b_ylow c) (b_sx c) (b_sy c) (b_stroke c) (b_fill c) (b_size c) (b_sizes c) (b_offset c) (b_offsets c) v (b_lbl c).
Definition set_b_lbl (v : lbl) (c : bars_cfg) : bars_cfg := mk_bars (b_x c) (b_xlow c) (b_y c) (b_ylow c) (b_sx c) (b_sy c) (b_stroke c) (b_fill c) (b_size c) (b_sizes c) (b_offset c) (b_offsets c) (b_horiz c) v.
(** PlotAreaConfig, areas.cc:37-53 *)
Record areas_cfg := mk_areas {
  a_src : src; a_x : databuf xr; a_xlow : databuf xr; a_y : databuf xr; a_ylow : databuf xr; a_sx : scale; a_sy : scale; a_high : stroke_style; a_low : stroke_style; a_fill : fill_style; a_horiz : bool }.
Definition set_a_src (v : src) (c : areas_cfg) : areas_cfg := mk_areas v (a_x c) (a_xlow c) (a_y c) (a_ylow c) (a_sx c) (a_sy c) (a_high c) (a_low c) (a_fill c) (a_horiz c).
Definition set_a_x (v : databuf xr) (c : areas_cfg) : areas_cfg := mk_areas (a_src c) v (a_xlow c) (a_y c) (a_ylow c) (a_sx c) (a_sy c) (a_high c) (a_low c) (a_fill c) (a_horiz c).
Definition set_a_xlow (v : databuf xr) (c : areas_cfg) : areas_cfg := mk_areas (a_src c) (a_x c) v (a_y c) (a_ylow c) (a_sx c) (a_sy c) (a_high c) (a_low c) (a_fill c) (a_horiz c).
Definition set_a_y (v : databuf xr) (c : areas_cfg) : areas_cfg := mk_areas (a_src c) (a_x c) (a_xlow c) v (a_ylow c) (a_sx c) (a_sy c) (a_high c) (a_low c) (a_fill c) (a_horiz c).
Definition set_a_ylow (v : databuf xr) (c : areas_cfg) : areas_cfg := mk_areas (a_src c) (a_x c) (a_xlow c) (a_y c) v (a_sx c) (a_sy c) (a_high c) (a_low c) (a_fill c) (a_horiz c).
Definition set_a_sx (v : scale) (c : areas_cfg) : areas_cfg := mk_areas (a_src c) (a_x c) (a_xlow c) (a_y c) (a_ylow c) v (a_sy c) (a_high c) (a_low c) (a_fill c) (a_horiz c).
Definition set_a_sy (v : scale) (c : areas_cfg) : areas_cfg := mk_areas (a_src c) (a_x c) (a_xlow c) (a_y c) (a_ylow c) (a_sx c) v (a_high c) (a_low c) (a_fill c) (a_horiz c).
Definition set_a_high (v : stroke_style) (c : areas_cfg) : areas_cfg := mk_areas (a_src c) (a_x c) (a_xlow c) (a_y c) (a_ylow c) (a_sx c) (a_sy c) v (a_low c) (a_fill c) (a_horiz c).
Definition set_a_low (v : stroke_style) (c : areas_cfg) : areas_cfg := mk_areas (a_src c) (a_x c) (a_xlow c) (a_y c) (a_ylow c) (a_sx c) (a_sy c) (a_high c) v (a_fill c) (a_horiz c).
Definition set_a_fill (v : fill_style) (c : areas_cfg) : areas_cfg := mk_areas (a_src c) (a_x c) (a_xlow c) (a_y c) (a_ylow c) (a_sx c) (a_sy c) (a_high c) (a_low c) v (a_horiz c).
Definition set_a_horiz (v : bool) (c : areas_cfg) : areas_cfg := mk_areas (a_src c) (a_x c) (a_xlow c) (a_y c) (a_ylow c) (a_sx c) (a_sy c) (a_high c) (a_low c) (a_fill c) v.
(** ErrorbarsElement, errorbars.cc:38-51 *)
Record err_cfg := mk_err {
  e_x : databuf xr; e_xlow : databuf xr; e_xhigh : databuf xr; e_y : databuf xr; e_ylow : databuf xr; e_yhigh : databuf xr; e_sx : scale; e_sy : scale; e_barw : xr; e_strokew : xr; e_marks : marks }.
Definition set_e_x (v : databuf xr) (c : err_cfg) : err_cfg := mk_err v (e_xlow c) (e_xhigh c) (e_y c) (e_ylow c) (e_yhigh c) (e_sx c) (e_sy c) (e_barw c) (e_strokew c) (e_marks c).
Definition set_e_xlow (v : databuf xr) (c : err_cfg) : err_cfg := mk_err (e_x c) v (e_xhigh c) (e_y c) (e_ylow c) (e_yhigh c) (e_sx c) (e_sy c) (e_barw c) (e_strokew c) (e_marks c).
Definition set_e_xhigh (v : databuf xr) (c : err_cfg) : err_cfg := mk_err (e_x c) (e_xlow c) v (e_y c) (e_ylow c) (e_yhigh c) (e_sx c) (e_sy c) (e_barw c) (e_strokew c) (e_marks c).
Definition set_e_y (v : databuf xr) (c : err_cfg) : err_cfg := mk_err (e_x c) (e_xlow c) (e_xhigh c) v (e_ylow c) (e_yhigh c) (e_sx c) (e_sy c) (e_barw c) (e_strokew c) (e_marks c).
Definition set_e_ylow (v : databuf xr) (c : err_cfg) : err_cfg := mk_err (e_x c) (e_xlow c) (e_xhigh c) (e_y c) v (e_yhigh c) (e_sx c) (e_sy c) (e_barw c) (e_strokew c) (e_marks c).
Definition set_e_yhigh (v : databuf xr) (c : err_cfg) : err_cfg := mk_err (e_x c) (e_xlow c) (e_xhigh c) (e_y c) (e_ylow c) v (e_sx c) (e_sy c) (e_barw c) (e_strokew c) (e_marks c).
Definition set_e_sx (v : scale) (c : err_cfg) : err_cfg := mk_err (e_x c) (e_xlow c) (e_xhigh c) (e_y c) (e_ylow c) (e_yhigh c) v (e_sy c) (e_barw c) (e_strokew c) (e_marks c).
Definition set_e_sy (v : scale) (c : err_cfg) : err_cfg := mk_err (e_x c) (e_xlow c) (e_xhigh c) (e_y c) (e_ylow c) (e_yhigh c) (e_sx c) v (e_barw c) (e_strokew c) (e_marks c).
Definition set_e_barw (v : xr) (c : err_cfg) : err_cfg := mk_err (e_x c) (e_xlow c) (e_xhigh c) (e_y c) (e_ylow c) (e_yhigh c) (e_sx c) (e_sy c) v (e_strokew c) (e_marks c).
Definition set_e_strokew (v : xr) (c : err_cfg) : err_cfg := mk_err (e_x c) (e_xlow c) (e_xhigh c) (e_y c) (e_ylow c) (e_yhigh c) (e_sx c) (e_sy c) (e_barw c) v (e_marks c).
Definition set_e_marks (v : marks) (c : err_cfg) : err_cfg := mk_err (e_x c) (e_xlow c) (e_xhigh c) (e_y c) (e_ylow c) (e_yhigh c) (e_sx c) (e_sy c) (e_barw c) (e_strokew c) v.
(** PlotLabelsConfig, labels.cc:37-47 *)
Record labels_cfg := mk_labels {
  t_src : src; t_sx : scale; t_sy : scale; t_lbl : lbl }.
Definition set_t_src (v : src) (c : labels_cfg) : labels_cfg := mk_labels v (t_sx c) (t_sy c) (t_lbl c).
Definition set_t_sx (v : scale) (c : labels_cfg) : labels_cfg := mk_labels (t_src c) v (t_sy c) (t_lbl c).
Definition set_t_sy (v : scale) (c : labels_cfg) : labels_cfg := mk_labels (t_src c) (t_sx c) v (t_lbl c).
Definition set_t_lbl (v : lbl) (c : labels_cfg) : labels_cfg := mk_labels (t_src c) (t_sx c) (t_sy c) v.
(** PlotVectorsConfig, vectors.cc:41-54; the only shape is the default arrow. *)
Record vectors_cfg := mk_vectors {
  v_src : src; v_dx : databuf xr; v_dy : databuf xr; v_sx : scale; v_sy : scale; v_marks : marks }.
Definition set_v_src (v : src) (c : vectors_cfg) : vectors_cfg := mk_vectors v (v_dx c) (v_dy c) (v_sx c) (v_sy c) (v_marks c).
Definition set_v_dx (v : databuf xr) (c : vectors_cfg) : vectors_cfg := mk_vectors (v_src c) v (v_dy c) (v_sx c) (v_sy c) (v_marks c).
Definition set_v_dy (v : databuf xr) (c : vectors_cfg) : vectors_cfg := mk_vectors (v_src c) (v_dx c) v (v_sx c) (v_sy c) (v_marks c).
Definition set_v_sx (v : scale) (c : vectors_cfg) : vectors_cfg := mk_vectors (v_src c) (v_dx c) (v_dy c) v (v_sy c) (v_marks c).
Definition set_v_sy (v : scale) (c : vectors_cfg) : vectors_cfg := mk_vectors (v_src c) (v_dx c) (v_dy c) (v_sx c) v (v_marks c).
Definition set_v_marks (v : marks) (c : vectors_cfg) : vectors_cfg := mk_vectors (v_src c) (v_dx c) (v_dy c) (v_sx c) (v_sy c) v.
(** PlotRectanglesConfig, rectangles.cc:41-52 *)
Record rects_cfg := mk_rects {
  r_src : src; r_szx : databuf xr; r_szy : databuf xr; r_defx : xr; r_defy : xr; r_sx : scale; r_sy : scale; r_marks : marks }.
Definition set_r_src (v : src) (c : rects_cfg) : rects_cfg := mk_rects v (r_szx c) (r_szy c) (r_defx c) (r_defy c) (r_sx c) (r_sy c) (r_marks c).
Definition set_r_szx (v : databuf xr) (c : rects_cfg) : rects_cfg := mk_rects (r_src c) v (r_szy c) (r_defx c) (r_defy c) (r_sx c) (r_sy c) (r_marks c).
Definition set_r_szy (v : databuf xr) (c : rects_cfg) : rects_cfg := mk_rects (r_src c) (r_szx c) v (r_defx c) (r_defy c) (r_sx c) (r_sy c) (r_marks c).
Definition set_r_defx (v : xr) (c : rects_cfg) : rects_cfg := mk_rects (r_src c) (r_szx c) (r_szy c) v (r_defy c) (r_sx c) (r_sy c) (r_marks c).
Definition set_r_defy (v : xr) (c : rects_cfg) : rects_cfg := mk_rects (r_src c) (r_szx c) (r_szy c) (r_defx c) v (r_sx c) (r_sy c) (r_marks c).
Definition set_r_sx (v : scale) (c : rects_cfg) : rects_cfg := mk_rects (r_src c) (r_szx c) (r_szy c) (r_defx c) (r_defy c) v (r_sy c) (r_marks c).
Definition set_r_sy (v : scale) (c : rects_cfg) : rects_cfg := mk_rects (r_src c) (r_szx c) (r_szy c) (r_defx c) (r_defy c) (r_sx c) v (r_marks c).
Definition set_r_marks (v : marks) (c : rects_cfg) : rects_cfg := mk_rects (r_src c) (r_szx c) (r_szy c) (r_defx c) (r_defy c) (r_sx c) (r_sy c) v.
(** PlotPolygonsConfig, polygons.cc:39-45 *)
Record polys_cfg := mk_polys {
  g_polys : list poly2; g_sx : scale; g_sy : scale; g_fill : fill_style; g_stroke : stroke_style }.
Definition set_g_polys (v : list poly2) (c : polys_cfg) : polys_cfg := mk_polys v (g_sx c) (g_sy c) (g_fill c) (g_stroke c).
Definition set_g_sx (v : scale) (c : polys_cfg) : polys_cfg := mk_polys (g_polys c) v (g_sy c) (g_fill c) (g_stroke c).
Definition set_g_sy (v : scale) (c : polys_cfg) : polys_cfg := mk_polys (g_polys c) (g_sx c) v (g_fill c) (g_stroke c).
Definition set_g_fill (v : fill_style) (c : polys_cfg) : polys_cfg := mk_polys (g_polys c) (g_sx c) (g_sy c) v (g_stroke c).
Definition set_g_stroke (v : stroke_style) (c : polys_cfg) : polys_cfg := mk_polys (g_polys c) (g_sx c) (g_sy c) (g_fill c) v.

Definition src0 : src := mk_src [] [] [] [].
Definition empty : databuf xr := empty_buf xr.

Section Elements.
  Variable W : world.
  Variable E : env.
  Notation d := (w_d W).
  Notation pt := (pt W E).
  Notation buf := (databuf xr).
  Notation len := (databuf_len xr).
  Notation rd_color := (rd_color W E).
  Notation rd_size := (rd_size W E).
  Notation to_unit := (to_unit W).
  Notation load_simple := (load_simple W).
  Notation k := (k W).

  (* ---------------- loaders of data.cc ---------------- *)
  Definition stod_val (s : str) : option xr := match w_stod W s with Some (v, _) => Some v | None => None end.
  (** geojson_read_file: the shapes delivered to the callbacks, if the file is read to its end.
      The stream is opened like the file of read_file. *)
  Definition geojson_shapes (path : str) : outcome (list (shape xr)) :=
    match w_read_file W path with
    | None => Err
    | Some t => let '(o, _, ev) := geojson_read xr (Fin 0) stod_val t in let* _ := o in Ret ev
    end.
  (** data_load_points2_geojson, data.cc:461-476. *)
  Definition add_pts (pts : list (xr * xr)) (b : buf * buf) : buf * buf :=
    fold_left (fun b p => (databuf_add_num xr (fst b) (fst p), databuf_add_num xr (snd b) (snd p))) pts b.
  Definition load_geojson_points (path : str) (bx by_ : buf) : (buf * buf) * outcome unit :=
    match geojson_shapes path with
    | Ret ev => (add_pts (points_xy xr ev) (bx, by_), Ret tt)
    | Err => ((bx, by_), Err) | Throw => ((bx, by_), Throw) | UB => ((bx, by_), UB) | Diverge => ((bx, by_), Diverge)
    end.
  (** data_load_points2, data.cc:478-533 (Data_Model). *)
  Definition load_points (s : src) (bx by_ : buf) : outcome (buf * buf) :=
    ended (data_load_points2 xr (w_read_file W) load_geojson_points (d_ref s) (d_fmt s) (d_x s) (d_y s) bx by_).

  (** The callback of data_load_polylines2_geojson, data.cc:334-350. *)
  Definition flat (p : xr * xr * xr) : xr * xr := (fst (fst p), snd (fst p)).
  Fixpoint add_lines (ls : list (list (xr * xr * xr))) (b : buf * buf) (ix : list nat) : (buf * buf) * list nat :=
    match ls with
    | [] => (b, ix)
    | l :: r =>
        let n := Nat.min (len (fst b)) (len (snd b)) in
        add_lines r (add_pts (map flat l) b) (if (0 <? n)%nat then ix ++ [n] else ix)
    end.
  Fixpoint add_line_shapes (ev : list (shape xr)) (b : buf * buf) (ix : list nat) : (buf * buf) * list nat :=
    match ev with
    | [] => (b, ix)
    | Lines ls :: r => let '(b, ix) := add_lines ls b ix in add_line_shapes r b ix
    | _ :: r => add_line_shapes r b ix
    end.
  (** data_load_polylines2_csv, data.cc:302-332. *)
  Definition add_column (data : list (list str)) (key : str) (b : buf) : outcome buf :=
    let '(vs, o) := csv_extract_column data key in
    let* _ := o in Ret (fold_left (databuf_add_text xr) vs b).
  Definition key_of (ref : list expr) (dflt : str) : str :=
    match value_of ref with Some v => v | None => dflt end.
  Definition load_lines_csv (s : src) (bx by_ : buf) : outcome (buf * buf) :=
    match w_read_file W (d_ref s) with
    | None => Err
    | Some txt =>
        let* data := csv_parse (length txt) txt in
        let* bx := add_column data (key_of (d_x s) (s_ "x")) bx in
        let* by_ := add_column data (key_of (d_y s) (s_ "y")) by_ in
        Ret (bx, by_)
    end.
  (** data_load_polylines2, data.cc:358-414. *)
  Definition load_inline_ref (ref : list expr) (b : buf) : outcome buf :=
    match ref with EList _ :: _ => load_simple ref b | _ => Ret b end.
  Definition load_lines (s : src) : outcome ((buf * buf) * list nat) :=
    let* bx := load_inline_ref (d_x s) empty in
    let* by_ := load_inline_ref (d_y s) empty in
    match d_ref s with
    | [] => Ret ((bx, by_), [])
    | path =>
        let fmt := detect_format path (d_fmt s) in
        if str_eqb fmt (s_ "csv") then let* b := load_lines_csv s bx by_ in Ret (b, [])
        else if str_eqb fmt (s_ "geojson") then
          let* ev := geojson_shapes path in Ret (add_line_shapes ev (bx, by_) [])
        else Err
    end.
  (** data_load_polys2 and data_load_polys2_geojson, data.cc:416-459. *)
  Definition to_vec (p : xr * xr * xr) : vec2 := mk_vec2 (fst (fst p)) (snd (fst p)).
  Definition polys_of (ev : list (shape xr)) : list poly2 :=
    flat_map (fun s => match s with
                       | Polygons ps => map (fun p => (map to_vec (fst p), map (map to_vec) (snd p))) ps
                       | _ => [] end) ev.
  Definition load_polys (e : list expr) (old : list poly2) : outcome (list poly2) :=
    match e with
    | EList (ELit h :: args) :: _ =>
        if str_eqb h (s_ "geojson") then
          match value_of args with
          | Some path => let* ev := geojson_shapes path in Ret (old ++ polys_of ev)
          | None => Err
          end
        else Err
    | _ => Err
    end.
  (** data_load and data_load_csv, data.cc:191-212,535-552; the values of the Measures. An
      inline list is passed to measure_read_list as a whole, which rejects it. *)
  Definition load_measures (e : list expr) (old : list xr) : outcome (list xr) :=
    match e with
    | EList items :: _ =>
        let inline := ended (let '(l, o) := expr_tov (measure_read d (w_stod W)) e [] in (map m_value l, o)) in
        match items with
        | ELit h :: args =>
            if str_eqb h (s_ "csv") then
              let* vs := ended (load_csv (w_read_file W) args) in
              let* ns := forM (fun v => match stod_val v with Some x => Ret x | None => Err end) vs in
              Ret (old ++ ns)
            else inline
        | _ => inline
        end
    | _ => Err
    end.

  (* ---------------- common parts ---------------- *)
  Definition src_entries {S} (get : S -> src) (put : src -> S -> S) : list (str * cmd S) :=
    let set {T} (rd : list expr -> outcome T) (st : T -> src -> src) : cmd S :=
      upd rd (fun v s => put (st v (get s)) s) in
    [(s_ "data", set expr_to_string set_d_ref); (s_ "data-format", set expr_to_string set_d_fmt);
     (s_ "data-x", set expr_to_copy set_d_x); (s_ "data-y", set expr_to_copy set_d_y)].

  (** The function made by color_map_read, color_reader.cc:138-220, color_map.cc. *)
  Definition rd_color_map (e : list expr) : outcome (str -> outcome color) :=
    let* (kind, stops) := color_map_read (w_f W) (w_stod W) (e_palette E) e in
    Ret (match kind with
         | Gradient => gradient d (w_stod W) (w_sort_stops W stops)
         | Steps => steps (w_stod W) (w_sort_stops W stops)
         end).
  Definition rd_size_map (e : list expr) : outcome (str -> outcome measure) :=
    measure_map_read d (w_stod W) (e_layer E) e.
  Definition color_entries {S} (get : S -> marks) (put : marks -> S -> S) : list (str * cmd S) :=
    [(s_ "color", updf (fun s => m_color (get s)) rd_color (fun v s => put (set_m_color v (get s)) s));
     (s_ "colors", updf (fun s => m_colors (get s)) (rd_strings W) (fun v s => put (set_m_colors v (get s)) s));
     (s_ "color-map", upd rd_color_map (fun v s => put (set_m_cmap (Some v) (get s)) s))].
  Definition size_entries {S} (get : S -> marks) (put : marks -> S -> S) : list (str * cmd S) :=
    [(s_ "size", upd rd_size (fun v s => put (set_m_size v (get s)) s));
     (s_ "sizes", updf (fun s => m_sizes (get s)) (rd_strings W) (fun v s => put (set_m_sizes v (get s)) s));
     (s_ "size-map", upd rd_size_map (fun v s => put (set_m_smap (Some v) (get s)) s))].
  (** The conversion of colour and size data, e.g. points.cc:209-243. *)
  Definition convert_color (cmap : option (str -> outcome color)) (v : str) : outcome color :=
    match cmap with
    | Some m => m v
    | None => let* (ok, c) := parse (w_f W) v black in if ok then Ret c else Err
    end.
  Definition convert_size (smap : option (str -> outcome measure)) (v : str) : outcome xr :=
    let* m := match smap with Some m => m v | None => parse_measure d (w_stod W) v end in Ret (m_value m).
  Definition colors_of (m : marks) : outcome (list color) := forM (convert_color (m_cmap m)) (m_colors m).
  Definition sizes_of (m : marks) : outcome (list xr) := forM (convert_size (m_smap m)) (m_sizes m).

  Definition label_entries {S} (rd_pad : list expr -> outcome xr) (get : S -> lbl) (put : lbl -> S -> S) : list (str * cmd S) :=
    [(s_ "labels", updf (fun s => lb_text (get s)) (rd_strings W) (fun v s => put (set_lb_text v (get s)) s));
     (s_ "label-font-size", upd (rd_font_size W E) (fun v s => put (set_lb_size v (get s)) s));
     (s_ "label-color", updf (fun s => lb_color (get s)) rd_color (fun v s => put (set_lb_color v (get s)) s));
     (s_ "label-padding", upd rd_pad (fun v s => put (set_lb_pad v (get s)) s))].
  Definition font_entries {S} (get : S -> lbl) (put : lbl -> S -> S) : list (str * cmd S) :=
    [(s_ "label-font", updf (fun s => lb_font (get s)) (rd_font W) (fun v s => put (set_lb_font v (get s)) s));
     (s_ "font", updf (fun s => lb_font (get s)) (rd_font W) (fun v s => put (set_lb_font v (get s)) s))].
  (** label_font = layer_get_font, label_font_size = layer_get_font_size; label_color is black
      and the padding 0 by default. *)
  Definition lbl0 : lbl := mk_lbl [] (e_font E) (page_font_size W E) black (Fin 0).
  Definition label_at (l : lbl) (t : str) (p : vec2) (ax : halign) (ay : valign) : outcome (list draw_command) :=
    draw_text_ W E (lb_font l) (lb_size l) (lb_color l) t p ax ay (Fin 0).
  Definition with_index {A} (l : list A) : list (nat * A) := combine (seq 0 (length l)) l.
  (** The loop over the labels, whose positions are read from the columns (config.labels may be
      longer than they are). *)
  Definition draw_labels (l : lbl) (pos : nat -> outcome vec2) (ax : halign) (ay : valign) : outcome (list draw_command) :=
    draw_each (fun it => let* p := pos (fst it) in label_at l (snd it) p ax ay) (with_index (lb_text l)).
  (** x.value ? x : y *)
  Definition nonzero_or (v dflt : xr) : xr := if xeq v (Fin 0) then dflt else v.
  Definition half_ (v : xr) : xr := xmul d v (Fin (1 / 2)).
  Definition stroke_with (w : xr) (c : color) : stroke_style := ss_with_width w (ss_with_color c stroke0).
  Definition solid (c : color) : fill_style := fs_with_color (Some c) fill0.
  (** MOVE to the first point, LINE to the others. *)
  Definition polyline (l : list vec2) : path :=
    match l with [] => [] | p :: r => MoveTo p :: map LineTo r end.
  Definition points_of (c : rectangle) (xs ys : list xr) : list vec2 :=
    map (fun q => place_pt W c (fst q) (snd q)) (combine xs ys).
  (** scale_fit of a column to the plot's scales, in the order of the *_autorange functions. *)
  Definition fit_x (b : buf) (p : plot) : outcome plot :=
    let* s := fit_data W (p_sx p) b in Ret (mk_plot s (p_sy p) (p_margins p) (p_stack p)).
  Definition fit_y (b : buf) (p : plot) : outcome plot :=
    let* s := fit_data W (p_sy p) b in Ret (mk_plot (p_sx p) s (p_margins p) (p_stack p)).

  (* ---------------- lines.cc ---------------- *)
  (** lines_configure, lines.cc:57-142: the configuration, the columns and the group starts. *)
  Definition lines_table : list (str * cmd lines_cfg) :=
    src_entries l_src set_l_src ++ scale_entries W l_sx l_sy set_l_sx set_l_sy ++
    [(s_ "color", call_each [updf (fun c => s_color (l_stroke c)) rd_color (fun v c => set_l_stroke (ss_with_color v (l_stroke c)) c);
                             updf l_mcolor rd_color set_l_mcolor]);
     (s_ "stroke-width", upd rd_size (fun v c => set_l_stroke (ss_with_width v (l_stroke c)) c));
     (s_ "stroke-style", updf l_stroke (stroke_style_read W E) set_l_stroke);
     (s_ "stroke-color", updf (fun c => s_color (l_stroke c)) rd_color (fun v c => set_l_stroke (ss_with_color v (l_stroke c)) c));
     (s_ "marker-size", upd rd_size set_l_msize);
     (s_ "marker-shape", upd (marker_configure W) set_l_marker);
     (s_ "marker-color", updf l_mcolor rd_color set_l_mcolor)] ++
    label_entries rd_size l_lbl set_l_lbl.
  Definition lines0 (p : plot) : lines_cfg :=
    mk_lines src0 (p_sx p) (p_sy p) (stroke_with (pt (15 / 10)) (e_fg E)) (Fin 0) Disk (e_fg E) lbl0.
  Definition lines_configure (p : plot) (e : list expr) : outcome (lines_cfg * (buf * buf) * list nat) :=
    let* c := run lines_table e (lines0 p) in
    let* (b, groups) := load_lines (l_src c) in
    if negb (len (fst b) =? len (snd b))%nat then Err
    else if (len (fst b) =? 0)%nat then Err
    else Ret (c, b, groups).
  (** The loop over the groups, lines.cc:163-183: the vertices from one group start to the next
      (xs[i], ys[i] out of bounds is undefined). *)
  Definition group_ends (groups : list nat) (n : nat) : list (nat * nat) :=
    combine (0%nat :: groups) (groups ++ [n]).
  Definition group_points (c : rectangle) (xs ys : list xr) (b e : nat) : outcome (list vec2) :=
    forM (fun i => let* x := at_ xs i in let* y := at_ ys i in Ret (place_pt W c x y)) (seq b (e - b)).
  (** lines_draw, lines.cc:144-227. *)
  Definition lines_draw (p : plot) (e : list expr) : outcome (list draw_command) :=
    let* (c, b, groups) := lines_configure p e in
    let clip := plot_clip W E p in
    let* xs := to_unit (l_sx c) (fst b) in
    let* ys := to_unit (l_sy c) (snd b) in
    let* ls := draw_each (fun g => let* pts := group_points clip xs ys (fst g) (snd g) in
                                   Ret (draw_path_ (polyline pts) (l_stroke c) fill0))
                 (group_ends groups (Nat.min (length xs) (length ys))) in
    let* ms := if xlt (Fin 0) (l_msize c)
               then draw_each (fun i => let* x := at_ xs i in let* y := at_ ys i in
                                        draw_marker W E (l_marker c) (place_pt W clip x y) (l_msize c) (l_mcolor c))
                      (seq 0 (length xs))
               else Ret [] in
    let l := l_lbl c in
    let pad := nonzero_or (lb_pad l) (unit_from_em d (k (4 / 10)) (lb_size l)) in
    let* ts := draw_labels l (fun i =>
                 let* x := at_ xs i in let* y := at_ ys i in
                 Ret (mk_vec2 (px_ W clip x) (xadd d (xadd d (py_ W clip y) (l_msize c)) pad))) HCenter VBottom in
    Ret (ls ++ ms ++ ts).
  (** lines_autorange, lines.cc:242-260. *)
  Definition lines_autorange (p : plot) (e : list expr) : outcome plot :=
    let* (c, b, _) := lines_configure p e in
    let* p := fit_x (fst b) p in fit_y (snd b) p.

  (* ---------------- points.cc ---------------- *)
  (** points_configure, points.cc:130-246. *)
  Definition points_table : list (str * cmd points_cfg) :=
    src_entries p_src set_p_src ++ scale_entries W p_sx_ p_sy_ set_p_sx_ set_p_sy_ ++
    [(s_ "shape", upd (marker_configure W) set_p_shape);
     (s_ "shapes", updf p_shapes (marker_configure_list W) set_p_shapes)] ++
    size_entries p_marks set_p_marks ++ color_entries p_marks set_p_marks ++
    label_entries rd_size p_lbl set_p_lbl ++ font_entries p_lbl set_p_lbl.
  Definition points0 (p : plot) : points_cfg :=
    mk_points src0 (p_sx p) (p_sy p) (mk_marks (e_fg E) [] None (pt 4) [] None) Disk [] lbl0.
  Definition points_configure (p : plot) (e : list expr)
    : outcome (points_cfg * (buf * buf) * list color * list xr) :=
    let* c := run points_table e (points0 p) in
    let* b := load_points (p_src c) empty empty in
    if negb (len (fst b) =? len (snd b))%nat then Err
    else
      let* cols := colors_of (p_marks c) in
      let* szs := sizes_of (p_marks c) in
      Ret (c, b, cols, szs).
  (** points_draw, points.cc:59-128. *)
  Definition points_draw (p : plot) (e : list expr) : outcome (list draw_command) :=
    let* (c, b, cols, szs) := points_configure p e in
    let clip := plot_clip W E p in
    let* xs := to_unit (p_sx_ c) (fst b) in
    let* ys := to_unit (p_sy_ c) (snd b) in
    let* ms := draw_each (fun i =>
                 let* x := at_ xs i in let* y := at_ ys i in
                 draw_marker W E (cycle (p_shapes c) i (p_shape c)) (place_pt W clip x y)
                   (cycle szs i (m_size (p_marks c))) (cycle cols i (m_color (p_marks c))))
               (seq 0 (length xs)) in
    let l := p_lbl c in
    let pad i := xadd d (half_ (cycle szs i (Fin 0)))
                   (nonzero_or (lb_pad l) (xmul d (lb_size l) (k (2 / 10)))) in
    let* ts := draw_labels l (fun i =>
                 let* x := at_ xs i in let* y := at_ ys i in
                 Ret (mk_vec2 (px_ W clip x) (xadd d (py_ W clip y) (pad i)))) HCenter VBottom in
    Ret (ms ++ ts).
  (** points_autorange, points.cc:261-279. *)
  Definition points_autorange (p : plot) (e : list expr) : outcome plot :=
    let* (_, b, _, _) := points_configure p e in
    let* p := fit_x (fst b) p in fit_y (snd b) p.

  (* ---------------- bars.cc ---------------- *)
  Definition direction_enum : list (str * bool) := [(s_ "horizontal", true); (s_ "vertical", false)].
  (** bars_configure, bars.cc:232-314. *)
  Definition bars_table : list (str * cmd bars_cfg) :=
    [(s_ "data-x", updf b_x load_simple set_b_x); (s_ "data-y", updf b_y load_simple set_b_y);
     (s_ "data-x-high", updf b_x load_simple set_b_x); (s_ "data-y-high", updf b_y load_simple set_b_y);
     (s_ "data-x-low", updf b_xlow load_simple set_b_xlow); (s_ "data-y-low", updf b_ylow load_simple set_b_ylow);
     (s_ "width", upd rd_size set_b_size); (s_ "widths", updf b_sizes load_measures set_b_sizes);
     (s_ "offset", upd rd_size set_b_offset); (s_ "offsets", updf b_offsets load_measures set_b_offsets);
     (s_ "stroke-color", updf (fun c => s_color (b_stroke c)) rd_color (fun v c => set_b_stroke (ss_with_color v (b_stroke c)) c));
     (s_ "stroke-width", upd rd_size (fun v c => set_b_stroke (ss_with_width v (b_stroke c)) c));
     (s_ "stroke-style", updf b_stroke (stroke_style_read W E) set_b_stroke);
     (s_ "fill", updf b_fill (fill_style_read W E) set_b_fill)] ++
    scale_entries W b_sx b_sy set_b_sx set_b_sy ++
    [(s_ "color", call_each [updf (fun c => s_color (b_stroke c)) rd_color (fun v c => set_b_stroke (ss_with_color v (b_stroke c)) c);
                             updf b_fill (fill_style_read_solid W E) set_b_fill]);
     (s_ "direction", upd (expr_to_enum direction_enum) set_b_horiz)] ++
    label_entries (rd_measure W) b_lbl set_b_lbl.
  Definition bars0 (p : plot) : bars_cfg :=
    mk_bars empty empty empty empty (p_sx p) (p_sy p) (stroke_with (Fin 0) (e_fg E)) (solid (e_fg E))
      (Fin 0) [] (Fin 0) [] false lbl0.
  Definition bars_configure (p : plot) (e : list expr) : outcome bars_cfg :=
    let* c := run bars_table e (bars0 p) in
    if negb (len (b_x c) =? len (b_y c))%nat then Err
    else if (negb (len (b_xlow c) =? 0) && negb (len (b_x c) =? len (b_xlow c)))%nat then Err
    else if (negb (len (b_ylow c) =? 0) && negb (len (b_y c) =? len (b_ylow c)))%nat then Err
    else Ret c.
  (** The baseline: the zero of the scale, clamped to the plot area, or the low column. *)
  Definition base_at (zero : xr) (low : list xr) (i : nat) : outcome xr :=
    match low with [] => Ret zero | _ => at_ low i end.
  (** bars_draw_horizontal and bars_draw_vertical, bars.cc:66-230: one bar ... *)
  Definition bar_path (horiz : bool) (clip : rectangle) (x y lo offset size : xr) : path :=
    if horiz then
      let sy := py_ W clip y in
      let sx1 := px_ W clip lo in let sx2 := px_ W clip x in
      let y1 := xsub d (xadd d sy (xneg offset)) (half_ size) in
      let y2 := xadd d (xadd d sy (xneg offset)) (half_ size) in
      [MoveTo (mk_vec2 sx1 y1); LineTo (mk_vec2 sx2 y1); LineTo (mk_vec2 sx2 y2); LineTo (mk_vec2 sx1 y2); Close]
    else
      let sx := px_ W clip x in
      let sy1 := py_ W clip lo in let sy2 := py_ W clip y in
      let x1 := xsub d (xadd d sx offset) (half_ size) in
      let x2 := xadd d (xadd d sx offset) (half_ size) in
      [MoveTo (mk_vec2 x1 sy1); LineTo (mk_vec2 x1 sy2); LineTo (mk_vec2 x2 sy2); LineTo (mk_vec2 x2 sy1); Close].
  (** ... and one label. *)
  Definition bar_label_pos (horiz : bool) (clip : rectangle) (x y offset pad : xr) : vec2 :=
    if horiz then mk_vec2 (xadd d (px_ W clip x) pad)
                    (xadd d (xadd d (ry clip) (xneg offset)) (xmul d y (rh clip)))
    else mk_vec2 (xadd d (xadd d (rx clip) offset) (xmul d x (rw clip))) (xadd d (py_ W clip y) pad).
  Definition bars_draw (p : plot) (e : list expr) : outcome (list draw_command) :=
    let* c := bars_configure p e in
    let h := b_horiz c in
    let clip := plot_clip W E p in
    let* xs := to_unit (b_sx c) (b_x c) in
    let* ys := to_unit (b_sy c) (b_y c) in
    let* lows := to_unit (if h then b_sx c else b_sy c) (if h then b_xlow c else b_ylow c) in
    let* z := scale_translate d (w_f W) (if h then b_sx c else b_sy c) (Fin 0) in
    let size i := cycle (b_sizes c) i (nonzero_or (b_size c) (pt 10)) in
    let offset i := cycle (b_offsets c) i (b_offset c) in
    let* bs := draw_each (fun i =>
                 let* x := at_ xs i in let* y := at_ ys i in
                 let* lo := base_at (clamp01 z) lows i in
                 Ret (draw_path_ (bar_path h clip x y lo (offset i) (size i)) (b_stroke c) (b_fill c)))
               (seq 0 (length xs)) in
    let l := b_lbl c in
    let pad := nonzero_or (lb_pad l) (xmul d (k (6 / 10)) (lb_size l)) in
    let* ts := draw_labels l (fun i =>
                 let* x := at_ xs i in let* y := at_ ys i in
                 Ret (bar_label_pos h clip x y (offset i) pad))
               (if h then HLeft else HCenter) (if h then VCenter else VBottom) in
    Ret (bs ++ ts).
  (** bars_autorange, bars.cc:336-362. *)
  Definition bars_autorange (p : plot) (e : list expr) : outcome plot :=
    let* c := bars_configure p e in
    let* p := fit_x (b_x c) p in let* p := fit_x (b_xlow c) p in
    let* p := fit_y (b_y c) p in fit_y (b_ylow c) p.

  (* ---------------- areas.cc ---------------- *)
  (** areas_configure, areas.cc:198-315. *)
  Definition areas_table : list (str * cmd areas_cfg) :=
    let both {T} (g : stroke_style -> T) (rd : list expr -> T -> outcome T) (st : T -> stroke_style -> stroke_style) :=
      [updf (fun c => g (a_high c)) rd (fun v c => set_a_high (st v (a_high c)) c);
       updf (fun c => g (a_low c)) rd (fun v c => set_a_low (st v (a_low c)) c)] in
    let whole {T} (v : T) (_ : T) := v in
    let one {T} (rd : list expr -> outcome T) (e : list expr) (_ : T) := rd e in
    src_entries a_src set_a_src ++
    [(s_ "data-x-high", updf a_x load_simple set_a_x); (s_ "data-y-high", updf a_y load_simple set_a_y);
     (s_ "data-x-low", updf a_xlow load_simple set_a_xlow); (s_ "data-y-low", updf a_ylow load_simple set_a_ylow)] ++
    scale_entries W a_sx a_sy set_a_sx set_a_sy ++
    [(s_ "stroke-color", call_each (both s_color rd_color ss_with_color));
     (s_ "stroke-width", call_each (both s_width (one rd_size) ss_with_width));
     (s_ "stroke-style", call_each (both (fun s => s) (stroke_style_read W E) whole));
     (s_ "stroke-high-color", updf (fun c => s_color (a_high c)) rd_color (fun v c => set_a_high (ss_with_color v (a_high c)) c));
     (s_ "stroke-high-width", upd rd_size (fun v c => set_a_high (ss_with_width v (a_high c)) c));
     (s_ "stroke-high-style", updf a_high (stroke_style_read W E) set_a_high);
     (s_ "stroke-low-color", updf (fun c => s_color (a_low c)) rd_color (fun v c => set_a_low (ss_with_color v (a_low c)) c));
     (s_ "stroke-low-width", upd rd_size (fun v c => set_a_low (ss_with_width v (a_low c)) c));
     (s_ "stroke-low-style", updf a_low (stroke_style_read W E) set_a_low);
     (s_ "fill", updf a_fill (fill_style_read W E) set_a_fill);
     (s_ "color", call_each (both s_color rd_color ss_with_color ++ [updf a_fill (fill_style_read_solid W E) set_a_fill]));
     (s_ "direction", upd (expr_to_enum direction_enum) set_a_horiz)].
  Definition areas0 (p : plot) : areas_cfg :=
    mk_areas src0 empty empty empty empty (p_sx p) (p_sy p) (stroke_with (Fin 0) (e_fg E)) (stroke_with (Fin 0) (e_fg E))
      (solid (e_fg E)) false.
  Definition areas_configure (p : plot) (e : list expr) : outcome areas_cfg :=
    let* c := run areas_table e (areas0 p) in
    let* b := load_points (a_src c) (a_x c) (a_y c) in
    let c := set_a_y (snd b) (set_a_x (fst b) c) in
    if negb (len (a_x c) =? len (a_y c))%nat then Err
    else if (negb (len (a_xlow c) =? 0) && negb (len (a_x c) =? len (a_xlow c)))%nat then Err
    else if (negb (len (a_ylow c) =? 0) && negb (len (a_y c) =? len (a_ylow c)))%nat then Err
    else Ret c.
  (** areas_draw_horizontal and areas_draw_vertical, areas.cc:54-196 (the int loop counter of the
      second loop is not modelled: fewer than 2^31 points). *)
  Definition areas_draw (p : plot) (e : list expr) : outcome (list draw_command) :=
    let* c := areas_configure p e in
    let h := a_horiz c in
    let clip := plot_clip W E p in
    let* xs := to_unit (a_sx c) (a_x c) in
    let* xlows := to_unit (a_sx c) (a_xlow c) in
    let* ys := to_unit (a_sy c) (a_y c) in
    let* ylows := to_unit (a_sy c) (a_ylow c) in
    let lows := if h then xlows else ylows in
    let* high := forM (fun i => let* x := at_ xs i in let* y := at_ ys i in Ret (place_pt W clip x y))
                   (seq 0 (length xs)) in
    let* z := scale_translate d (w_f W) (if h then a_sx c else a_sy c) (Fin 0) in
    let* low := forM (fun i => let* x := at_ xs i in let* y := at_ ys i in
                               let* lo := base_at (clamp01 z) lows i in
                               Ret (if h then place_pt W clip lo y else place_pt W clip x lo))
                  (rev (seq 0 (length xs))) in
    Ret ([shape_of (polyline high ++ map LineTo low ++ [Close]) stroke0 (a_fill c) None;
          shape_of (polyline high) (a_high c) fill0 None;
          shape_of (polyline low) (a_low c) fill0 None]).
  (** areas_autorange, areas.cc:337-363. *)
  Definition areas_autorange (p : plot) (e : list expr) : outcome plot :=
    let* c := areas_configure p e in
    let* p := fit_x (a_x c) p in let* p := fit_x (a_xlow c) p in
    let* p := fit_y (a_y c) p in fit_y (a_ylow c) p.

  (* ---------------- errorbars.cc ---------------- *)
  (** errorbars_configure, errorbars.cc:163-273. *)
  Definition err_table : list (str * cmd err_cfg) :=
    [(s_ "data-x", updf e_x load_simple set_e_x); (s_ "data-y", updf e_y load_simple set_e_y);
     (s_ "data-x-low", updf e_xlow load_simple set_e_xlow); (s_ "data-x-high", updf e_xhigh load_simple set_e_xhigh);
     (s_ "data-y-low", updf e_ylow load_simple set_e_ylow); (s_ "data-y-high", updf e_yhigh load_simple set_e_yhigh)] ++
    scale_entries W e_sx e_sy set_e_sx set_e_sy ++
    [(s_ "width", upd rd_size set_e_barw)] ++ color_entries e_marks set_e_marks ++
    [(s_ "stroke-color", updf (fun c => m_color (e_marks c)) rd_color (fun v c => set_e_marks (set_m_color v (e_marks c)) c));
     (s_ "stroke-width", upd rd_size set_e_strokew)].
  Definition err0 (p : plot) : err_cfg :=
    mk_err empty empty empty empty empty empty (p_sx p) (p_sy p) (pt 6) (pt 1)
      (mk_marks (e_fg E) [] None (Fin 0) [] None).
  Definition err_configure (p : plot) (e : list expr) : outcome (err_cfg * list color) :=
    let* c := run err_table e (err0 p) in
    let vert := ((0 <? len (e_x c)) && (0 <? len (e_ylow c)) && (0 <? len (e_yhigh c)) && (len (e_y c) =? 0))%nat in
    let horiz := ((0 <? len (e_y c)) && (0 <? len (e_xlow c)) && (0 <? len (e_xhigh c)) && (len (e_x c) =? 0))%nat in
    if (vert && (negb (len (e_x c) =? len (e_ylow c)) || negb (len (e_x c) =? len (e_yhigh c))))%nat then Err
    else if (horiz && (negb (len (e_y c) =? len (e_xlow c)) || negb (len (e_y c) =? len (e_xhigh c))))%nat then Err
    else if negb (vert || horiz) then Err
    else let* cols := colors_of (e_marks c) in Ret (c, cols).
  (** errorbars_draw_bar, errorbars.cc:53-81. *)
  Definition err_bar (from to : vec2) (width strokew : xr) (c : color) : list draw_command :=
    let dir := normalize d (vsub d to from) in
    let ortho := mk_vec2 (vy dir) (xmul d (vx dir) (Fin (-1))) in
    let st := stroke_with strokew c in
    let off p s := vadd d p (vmul d ortho (xmul d width (Fin s))) in
    draw_line_ from to st ++
    draw_line_ (off from (- (1 / 2))) (off from (1 / 2)) st ++
    draw_line_ (off to (- (1 / 2))) (off to (1 / 2)) st.
  (** errorbars_draw, errorbars.cc:83-161; the end of a horizontal bar is placed with
      clip.x + y * clip.h (:140-142). *)
  Definition min3 (a b c : nat) : nat := Nat.min (Nat.min a b) c.
  Definition errorbars_draw (p : plot) (e : list expr) : outcome (list draw_command) :=
    let* (c, cols) := err_configure p e in
    let clip := plot_clip W E p in
    let* x := to_unit (e_sx c) (e_x c) in
    let* xl := to_unit (e_sx c) (e_xlow c) in
    let* xh := to_unit (e_sx c) (e_xhigh c) in
    let* y := to_unit (e_sy c) (e_y c) in
    let* yl := to_unit (e_sy c) (e_ylow c) in
    let* yh := to_unit (e_sy c) (e_yhigh c) in
    let bar i from to := err_bar from to (e_barw c) (e_strokew c) (cycle cols i (m_color (e_marks c))) in
    let* vs := draw_each (fun i =>
                 let* x := at_ x i in let* lo := at_ yl i in let* hi := at_ yh i in
                 Ret (bar i (place_pt W clip x lo) (place_pt W clip x hi)))
               (seq 0 (min3 (length x) (length yl) (length yh))) in
    let* hs := draw_each (fun i =>
                 let* y := at_ y i in let* lo := at_ xl i in let* hi := at_ xh i in
                 Ret (bar i (place_pt W clip lo y) (mk_vec2 (px_ W clip hi) (xadd d (rx clip) (xmul d y (rh clip))))))
               (seq 0 (min3 (length y) (length xl) (length xh))) in
    Ret (vs ++ hs).
  (** errorbars_autorange, errorbars.cc:288-322. *)
  Definition errorbars_autorange (p : plot) (e : list expr) : outcome plot :=
    let* (c, _) := err_configure p e in
    let* p := fit_x (e_x c) p in let* p := fit_x (e_xlow c) p in let* p := fit_x (e_xhigh c) p in
    let* p := fit_y (e_y c) p in let* p := fit_y (e_ylow c) p in fit_y (e_yhigh c) p.

  (* ---------------- labels.cc ---------------- *)
  (** labels_configure, labels.cc:91-156. *)
  Definition labels_table : list (str * cmd labels_cfg) :=
    src_entries t_src set_t_src ++ scale_entries W t_sx t_sy set_t_sx set_t_sy ++
    label_entries (rd_measure W) t_lbl set_t_lbl ++ font_entries t_lbl set_t_lbl.
  Definition labels_configure (p : plot) (e : list expr) : outcome (labels_cfg * (buf * buf)) :=
    let* c := run labels_table e (mk_labels src0 (p_sx p) (p_sy p) lbl0) in
    let* b := load_points (t_src c) empty empty in
    if negb (len (fst b) =? len (snd b))%nat then Err else Ret (c, b).
  (** labels_draw, labels.cc:48-89. *)
  Definition labels_draw (p : plot) (e : list expr) : outcome (list draw_command) :=
    let* (c, b) := labels_configure p e in
    let clip := plot_clip W E p in
    let* xs := to_unit (t_sx c) (fst b) in
    let* ys := to_unit (t_sy c) (snd b) in
    let l := t_lbl c in
    let pad := nonzero_or (lb_pad l) (xmul d (k (8 / 10)) (lb_size l)) in
    draw_labels l (fun i =>
      let* x := at_ xs i in let* y := at_ ys i in
      Ret (mk_vec2 (px_ W clip x) (xsub d (py_ W clip (xsub d (Fin 1) y)) pad))) HCenter VBottom.
  Definition labels_autorange (p : plot) (e : list expr) : outcome plot :=
    let* (_, b) := labels_configure p e in
    let* p := fit_x (fst b) p in fit_y (snd b) p.

  (* ---------------- vectors.cc ---------------- *)
  (** vectors_configure, vectors.cc:109-217. *)
  Definition vectors_table : list (str * cmd vectors_cfg) :=
    src_entries v_src set_v_src ++
    [(s_ "data-dx", updf v_dx load_simple set_v_dx); (s_ "data-dy", updf v_dy load_simple set_v_dy)] ++
    scale_entries W v_sx v_sy set_v_sx set_v_sy ++
    color_entries v_marks set_v_marks ++ size_entries v_marks set_v_marks.
  Definition vectors_configure (p : plot) (e : list expr)
    : outcome (vectors_cfg * (buf * buf) * list color * list xr) :=
    let* c := run vectors_table e
                (mk_vectors src0 empty empty (p_sx p) (p_sy p) (mk_marks (e_fg E) [] None (pt 1) [] None)) in
    let* b := load_points (v_src c) empty empty in
    if negb (len (fst b) =? len (snd b))%nat then Err
    else
      let* cols := colors_of (v_marks c) in
      let* szs := sizes_of (v_marks c) in
      Ret (c, b, cols, szs).
  (** vectors_draw, vectors.cc:55-107. *)
  Definition magnitudes (s : scale) (b : buf) : outcome (list xr) :=
    translate_magnitudev d (w_f W) (w_stod W) s b.
  Definition vectors_draw (p : plot) (e : list expr) : outcome (list draw_command) :=
    let* (c, b, cols, szs) := vectors_configure p e in
    let clip := plot_clip W E p in
    let* xs := to_unit (v_sx c) (fst b) in
    let* ys := to_unit (v_sy c) (snd b) in
    let* dxs := magnitudes (v_sx c) (v_dx c) in
    let* dys := magnitudes (v_sy c) (v_dy c) in
    draw_each (fun i =>
      let* x := at_ xs i in let* y := at_ ys i in
      let* dx := at_ dxs i in let* dy := at_ dys i in
      let s := mk_vec2 (xadd d (rx clip) (xmul d (rw clip) x)) (xadd d (ry clip) (xmul d (rh clip) y)) in
      let t := mk_vec2 (xadd d (vx s) (xmul d dx (rw clip))) (xadd d (vy s) (xmul d dy (rh clip))) in
      Ret (draw_arrow W s t (cycle szs i (m_size (v_marks c))) (cycle cols i (m_color (v_marks c)))))
    (seq 0 (length xs)).
  Definition vectors_autorange (p : plot) (e : list expr) : outcome plot :=
    let* (_, b, _, _) := vectors_configure p e in
    let* p := fit_x (fst b) p in fit_y (snd b) p.

  (* ---------------- rectangles.cc ---------------- *)
  (** rectangles_configure, rectangles.cc:110-211. *)
  Definition rects_table : list (str * cmd rects_cfg) :=
    src_entries r_src set_r_src ++
    [(s_ "data-size-x", updf r_szx load_simple set_r_szx); (s_ "data-size-y", updf r_szy load_simple set_r_szy);
     (s_ "data-size", call_each [updf r_szx load_simple set_r_szx; updf r_szy load_simple set_r_szy])] ++
    scale_entries W r_sx r_sy set_r_sx set_r_sy ++
    [(s_ "size", call_each [upd rd_size set_r_defx; upd rd_size set_r_defy]);
     (s_ "size-x", upd rd_size set_r_defx); (s_ "size-y", upd rd_size set_r_defy)] ++
    color_entries r_marks set_r_marks.
  Definition rects_configure (p : plot) (e : list expr) : outcome (rects_cfg * (buf * buf) * list color) :=
    let* c := run rects_table e
                (mk_rects src0 empty empty (Fin 0) (Fin 0) (p_sx p) (p_sy p) (mk_marks (e_fg E) [] None (Fin 0) [] None)) in
    let* b := load_points (r_src c) empty empty in
    if negb (len (fst b) =? len (snd b))%nat then Err
    else let* cols := colors_of (r_marks c) in Ret (c, b, cols).
  (** rectangles_draw, rectangles.cc:54-108. *)
  Definition rectangles_draw (p : plot) (e : list expr) : outcome (list draw_command) :=
    let* (c, b, cols) := rects_configure p e in
    let clip := plot_clip W E p in
    let* xs := to_unit (r_sx c) (fst b) in
    let* ys := to_unit (r_sy c) (snd b) in
    let* szx := magnitudes (r_sx c) (r_szx c) in
    let* szy := magnitudes (r_sy c) (r_szy c) in
    draw_each (fun i =>
      let* x := at_ xs i in let* y := at_ ys i in
      let w := cycle (map (fun s => xmul d s (rw clip)) szx) i (r_defx c) in
      let h := cycle (map (fun s => xmul d s (rh clip)) szy) i (r_defy c) in
      let o := mk_vec2 (xadd d (rx clip) (xmul d (rw clip) x)) (xadd d (ry clip) (xmul d (rh clip) y)) in
      Ret [shape_of (add_rectangle_centered d [] o (mk_vec2 w h)) stroke0
             (solid (cycle cols i (m_color (r_marks c)))) (Some false)])
    (seq 0 (length xs)).
  Definition rectangles_autorange (p : plot) (e : list expr) : outcome plot :=
    let* (_, b, _) := rects_configure p e in
    let* p := fit_x (fst b) p in fit_y (snd b) p.

  (* ---------------- polygons.cc ---------------- *)
  (** polygons_configure, polygons.cc:47-95 (no scale paddings). The fit goes to the limit
      hints, which the copies of a scale share: [fst] is the configuration with fitted scales,
      [snd] the plot with the same hints. *)
  Definition polys_table : list (str * cmd polys_cfg) :=
    [(s_ "data", updf g_polys load_polys set_g_polys)] ++
    firstn 8 (scale_entries W g_sx g_sy set_g_sx set_g_sy) ++
    [(s_ "color", call_each [updf (fun c => s_color (g_stroke c)) rd_color (fun v c => set_g_stroke (ss_with_color v (g_stroke c)) c);
                             updf g_fill (fill_style_read_solid W E) set_g_fill]);
     (s_ "fill", updf g_fill (fill_style_read W E) set_g_fill);
     (s_ "stroke-color", updf (fun c => s_color (g_stroke c)) rd_color (fun v c => set_g_stroke (ss_with_color v (g_stroke c)) c));
     (s_ "stroke-width", upd rd_size (fun v c => set_g_stroke (ss_with_width v (g_stroke c)) c));
     (s_ "stroke-style", updf g_stroke (stroke_style_read W E) set_g_stroke)].
  Definition polys0 (p : plot) : polys_cfg :=
    mk_polys [] (p_sx p) (p_sy p) fill0 (stroke_with (pt 1) black).
  Definition boundary_points (ps : list poly2) : list vec2 := flat_map fst ps.
  Definition fit_values (vs : list xr) (s : scale) : scale := fold_left fit vs s.
  Definition polys_configure (p : plot) (e : list expr) : outcome (polys_cfg * plot) :=
    let* c := run polys_table e (polys0 p) in
    let xs := map vx (boundary_points (g_polys c)) in
    let ys := map vy (boundary_points (g_polys c)) in
    Ret (set_g_sy (fit_values ys (g_sy c)) (set_g_sx (fit_values xs (g_sx c)) c),
         mk_plot (fit_values xs (p_sx p)) (fit_values ys (p_sy p)) (p_margins p) (p_stack p)).
  (** polygons_draw, polygons.cc:97-131: the holes stay as they are. *)
  Definition polygons_draw (p : plot) (e : list expr) : outcome (plot * list draw_command) :=
    let* (c, p1) := polys_configure p e in
    let bbox := plot_clip W E p in
    let* ps := forM (fun q : poly2 =>
                 let* b := forM (fun v =>
                             let* x := scale_translate d (w_f W) (g_sx c) (vx v) in
                             let* y := scale_translate d (w_f W) (g_sy c) (vy v) in
                             Ret (mk_vec2 (xadd d (xmul d (clamp01 x) (rw bbox)) (rx bbox))
                                          (xadd d (xmul d (clamp01 y) (rh bbox)) (ry bbox))))
                           (fst q) in
                 Ret (b, snd q)) (g_polys c) in
    Ret (p1, map (fun q => shape_of (path_from_poly2 q) (g_stroke c) (g_fill c) None) ps).
  Definition polygons_autorange (p : plot) (e : list expr) : outcome plot :=
    let* (_, p1) := polys_configure p e in Ret p1.
End Elements.
