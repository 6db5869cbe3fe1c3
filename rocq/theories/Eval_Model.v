(** Model of the commands of a program, /repo/src/plot/plotgen.cc, /repo/src/figure/legend.cc
    (plot_legend), /repo/src/eval.cc, /repo/src/layer.cc (layer_create), /repo/src/cli.cc,
    /repo/src/utils/flagparser.cc and /repo/src/api.cc. *)
From Coq Require Import Reals.
From Verif Require Import Base Num Sexpr_Model Dispatch_Model Str_Model Data_Model Scale_Model Units_Model Color_Model
  Geo_Model Svg_Model Legend_Model Plist_Model Cmd_Model Style_Model Plot_Model Axis_Model.
Local Open Scope R_scope.

(** LegendItem, /repo/src/figure/legend_item.h:20-32. *)
Record item := mk_item {
  i_label : str; i_align : halign; i_margin : xr; i_color : color; i_font : font; i_size : xr;
  i_marker : marker; i_malign : halign; i_mmargin : xr; i_mcolor : color; i_msize : xr }.
Definition set_i_label v c := mk_item v (i_align c) (i_margin c) (i_color c) (i_font c) (i_size c) (i_marker c) (i_malign c) (i_mmargin c) (i_mcolor c) (i_msize c).
Definition set_i_align v c := mk_item (i_label c) v (i_margin c) (i_color c) (i_font c) (i_size c) (i_marker c) (i_malign c) (i_mmargin c) (i_mcolor c) (i_msize c).
Definition set_i_margin v c := mk_item (i_label c) (i_align c) v (i_color c) (i_font c) (i_size c) (i_marker c) (i_malign c) (i_mmargin c) (i_mcolor c) (i_msize c).
Definition set_i_color v c := mk_item (i_label c) (i_align c) (i_margin c) v (i_font c) (i_size c) (i_marker c) (i_malign c) (i_mmargin c) (i_mcolor c) (i_msize c).
Definition set_i_font v c := mk_item (i_label c) (i_align c) (i_margin c) (i_color c) v (i_size c) (i_marker c) (i_malign c) (i_mmargin c) (i_mcolor c) (i_msize c).
Definition set_i_size v c := mk_item (i_label c) (i_align c) (i_margin c) (i_color c) (i_font c) v (i_marker c) (i_malign c) (i_mmargin c) (i_mcolor c) (i_msize c).
Definition set_i_marker v c := mk_item (i_label c) (i_align c) (i_margin c) (i_color c) (i_font c) (i_size c) v (i_malign c) (i_mmargin c) (i_mcolor c) (i_msize c).
Definition set_i_malign v c := mk_item (i_label c) (i_align c) (i_margin c) (i_color c) (i_font c) (i_size c) (i_marker c) v (i_mmargin c) (i_mcolor c) (i_msize c).
Definition set_i_mmargin v c := mk_item (i_label c) (i_align c) (i_margin c) (i_color c) (i_font c) (i_size c) (i_marker c) (i_malign c) v (i_mcolor c) (i_msize c).
Definition set_i_mcolor v c := mk_item (i_label c) (i_align c) (i_margin c) (i_color c) (i_font c) (i_size c) (i_marker c) (i_malign c) (i_mmargin c) v (i_msize c).
Definition set_i_msize v c := mk_item (i_label c) (i_align c) (i_margin c) (i_color c) (i_font c) (i_size c) (i_marker c) (i_malign c) (i_mmargin c) (i_mcolor c) v.

(** LegendConfig, legend.cc:36-48: the sides are top, right, bottom, left. *)
Record legend_cfg := mk_lcfg {
  k_pos : halign * valign; k_rowpad : xr; k_colpad : xr; k_flow : bool;
  k_margins : xr * xr * xr * xr; k_padding : xr * xr * xr * xr;
  k_borders : stroke_style * stroke_style * stroke_style * stroke_style;
  k_bg : option color; k_items : list item }.
Definition set_k_pos v c := mk_lcfg v (k_rowpad c) (k_colpad c) (k_flow c) (k_margins c) (k_padding c) (k_borders c) (k_bg c) (k_items c).
Definition set_k_rowpad v c := mk_lcfg (k_pos c) v (k_colpad c) (k_flow c) (k_margins c) (k_padding c) (k_borders c) (k_bg c) (k_items c).
Definition set_k_colpad v c := mk_lcfg (k_pos c) (k_rowpad c) v (k_flow c) (k_margins c) (k_padding c) (k_borders c) (k_bg c) (k_items c).
Definition set_k_flow v c := mk_lcfg (k_pos c) (k_rowpad c) (k_colpad c) v (k_margins c) (k_padding c) (k_borders c) (k_bg c) (k_items c).
Definition set_k_margins v c := mk_lcfg (k_pos c) (k_rowpad c) (k_colpad c) (k_flow c) v (k_padding c) (k_borders c) (k_bg c) (k_items c).
Definition set_k_padding v c := mk_lcfg (k_pos c) (k_rowpad c) (k_colpad c) (k_flow c) (k_margins c) v (k_borders c) (k_bg c) (k_items c).
Definition set_k_borders v c := mk_lcfg (k_pos c) (k_rowpad c) (k_colpad c) (k_flow c) (k_margins c) (k_padding c) v (k_bg c) (k_items c).
Definition set_k_bg v c := mk_lcfg (k_pos c) (k_rowpad c) (k_colpad c) (k_flow c) (k_margins c) (k_padding c) (k_borders c) v (k_items c).
Definition set_k_items v c := mk_lcfg (k_pos c) (k_rowpad c) (k_colpad c) (k_flow c) (k_margins c) (k_padding c) (k_borders c) (k_bg c) v.

Section Eval.
  Variable W : world.
  Notation d := (w_d W).

  Section Layer.
  Variable E : env.
  Notation rd_color := (rd_color W E).
  Notation rd_size := (rd_size W E).
  Notation rd_font_size := (rd_font_size W E).
  Notation k := (k W).
  Notation em v := (unit_from_em d (k v) (page_font_size W E)).

  (* ---------------- legend.cc, legend_item.cc ---------------- *)
  Definition align_lr : list (str * halign) := [(s_ "left", HLeft); (s_ "right", HRight)].
  (** legend_item_configure, legend_item.cc:145-198. *)
  Definition item_table : list (str * cmd item) :=
    [(s_ "font", updf i_font (rd_font W) set_i_font);
     (s_ "label", upd expr_to_string set_i_label);
     (s_ "label-align", upd (expr_to_enum align_lr) set_i_align);
     (s_ "label-margin", upd rd_size set_i_margin);
     (s_ "label-color", updf i_color rd_color set_i_color);
     (s_ "label-font", updf i_font (rd_font W) set_i_font);
     (s_ "label-font-size", upd rd_font_size set_i_size);
     (s_ "marker-shape", upd (marker_configure W) set_i_marker);
     (s_ "marker-align", upd (expr_to_enum align_lr) set_i_malign);
     (s_ "marker-margin", upd rd_size set_i_mmargin);
     (s_ "marker-color", updf i_mcolor rd_color set_i_mcolor);
     (s_ "marker-size", upd rd_font_size set_i_msize);
     (s_ "color", updf i_mcolor rd_color set_i_mcolor)].
  Definition item0 : item :=
    let fs := page_font_size W E in
    let ms := xmul d fs (Fin (3 / 4)) in
    mk_item [] HLeft (em (11 / 10)) (e_text_color E) (e_font E) fs Disk HLeft
      (unit_from_em d (k (2 / 10)) ms) (e_text_color E) ms.
  Definition item_configure (e : list expr) : outcome item := run item_table e item0.
  (** legend_item_calculate_size, :34-64, called by the two layouts. *)
  Definition item_extent (i : item) : outcome (xr * xr) :=
    let* b := w_measure W (i_font i) (i_size i) (dpi E) (i_label i) in
    Ret (item_size d (rw b) (rh b) (i_margin i)).
  (** draw_label, draw_marker and legend_item_draw, :66-145. *)
  Definition item_draw (i : item) (b : rectangle) : outcome (list draw_command) :=
    let* l := draw_text_ W E (i_font i) (i_size i) (i_color i) (i_label i)
                (anchor d (i_align i) (i_margin i) b) (i_align i) VCenter (Fin 0) in
    let* m := draw_marker W E (i_marker i) (anchor d (i_malign i) (i_mmargin i) b) (i_msize i) (i_mcolor i) in
    Ret (l ++ m).

  Definition side4 {A} (b : A * A * A * A) (i : nat) : A :=
    let '(t, r, b, l) := b in match i with O => t | 1%nat => r | 2%nat => b | _ => l end.
  Definition set_side4 {A} (i : nat) (v : A) (b : A * A * A * A) : A * A * A * A :=
    let '(t, r, b, l) := b in
    match i with O => (v, r, b, l) | 1%nat => (t, v, b, l) | 2%nat => (t, r, v, l) | _ => (t, r, b, v) end.
  Definition c_side {A} (get : legend_cfg -> A * A * A * A) (put : A * A * A * A -> legend_cfg -> legend_cfg)
      (rd : list expr -> A -> outcome A) (i : nat) : cmd legend_cfg :=
    updf (fun c => side4 (get c) i) rd (fun v c => put (set_side4 i v (get c)) c).
  (** plot_legend(ctx, plot, expr), legend.cc:443-554. *)
  Definition legend_table : list (str * cmd legend_cfg) :=
    let size (e : list expr) (_ : xr) := rd_size e in
    let pad := c_side k_padding set_k_padding size in
    let mar := c_side k_margins set_k_margins size in
    let bor := c_side k_borders set_k_borders border_style_read in
    let bcol := c_side k_borders set_k_borders (fun e s => let* c := rd_color e (s_color s) in Ret (ss_with_color c s)) in
    let bwid := c_side k_borders set_k_borders (fun e s => let* w := rd_size e in Ret (ss_with_width w s)) in
    let each4 (c : nat -> cmd legend_cfg) := call_each [c 0%nat; c 1%nat; c 2%nat; c 3%nat] in
    [(s_ "position", updf k_pos configure_position set_k_pos);
     (s_ "item-row-padding", upd rd_size set_k_rowpad);
     (s_ "item-column-padding", upd rd_size set_k_colpad);
     (s_ "item-flow", upd expr_to_switch set_k_flow);
     (s_ "item", fun e c => let* i := item_configure e in Ret (set_k_items (k_items c ++ [i]) c));
     (s_ "padding", each4 pad);
     (s_ "padding-top", pad 0%nat); (s_ "padding-right", pad 1%nat);
     (s_ "padding-bottom", pad 2%nat); (s_ "padding-left", pad 3%nat);
     (s_ "margin", each4 mar);
     (s_ "margin-top", mar 0%nat); (s_ "margin-right", mar 1%nat);
     (s_ "margin-bottom", mar 2%nat); (s_ "margin-left", mar 3%nat);
     (s_ "border", each4 bor);
     (s_ "border-color", each4 bcol);
     (s_ "border-top-color", bcol 0%nat); (s_ "border-right-color", bcol 1%nat);
     (s_ "border-bottom-color", bcol 2%nat); (s_ "border-left-color", bcol 3%nat);
     (s_ "border-width", each4 bwid);
     (s_ "border-top-width", bwid 0%nat); (s_ "border-right-width", bwid 1%nat);
     (s_ "border-bottom-width", bwid 2%nat); (s_ "border-left-width", bwid 3%nat);
     (s_ "background", upd (fun e => rd_color e black) (fun v => set_k_bg (Some v)))].
  Definition legend0 : legend_cfg :=
    let b := ss_with_color (e_fg E) stroke0 in
    mk_lcfg (HLeft, VTop) (em (3 / 10)) (em (14 / 10)) false
      (em (6 / 10), em (6 / 10), em (6 / 10), em (6 / 10)) (em (6 / 10), em 1, em (6 / 10), em 1)
      (b, b, b, b) None [].
  Definition map4 {A B} (f : A -> B) (b : A * A * A * A) : B * B * B * B :=
    let '(t, r, b, l) := b in (f t, f r, f b, f l).
  Definition geometry (c : legend_cfg) : legend :=
    mk_legend (fst (k_pos c)) (snd (k_pos c)) (k_rowpad c) (k_colpad c) (k_flow c) (k_margins c) (k_padding c)
      (map4 s_width (k_borders c)).
  (** plot_legend(ctx, plot, config), legend.cc:297-384, with plot_legend_borders and
      plot_legend_items: the lines of the borders are solid. *)
  Definition legend_draw (clip : rectangle) (c : legend_cfg) : outcome (list draw_command) :=
    let* sizes := forM item_extent (k_items c) in
    let* (border, boxes) := plot_legend d (geometry c) clip sizes in
    let bg := match k_bg c with
              | Some col => [shape_of (add_rectangle d [] border) stroke0 (solid col) None]
              | None => []
              end in
    let lines := flat_map (fun it : nat * (vec2 * vec2) =>
                   let st := side4 (k_borders c) (fst it) in
                   draw_line_ (fst (snd it)) (snd (snd it)) (stroke_with (s_width st) (s_color st)))
                 (borders d (geometry c) border) in
    let* items := draw_each (fun it => item_draw (fst it) (snd it)) (combine (k_items c) boxes) in
    Ret (bg ++ lines ++ items).
  Definition legend_cmd (p : plot) (e : list expr) : outcome (list draw_command) :=
    let* c := run legend_table e legend0 in legend_draw (plot_clip W E p) c.

  (* ---------------- plotgen.cc ---------------- *)
  (** plot_set_background, plotgen.cc:154-189. *)
  Definition background_table : list (str * cmd (stroke_style * fill_style)) :=
    let scol := updf (fun s => s_color (fst s)) rd_color (fun v s => (ss_with_color v (fst s), snd s)) in
    [(s_ "color", call_each [scol; updf snd (fill_style_read_solid W E) (fun v s => (fst s, v))]);
     (s_ "fill", updf snd (fill_style_read W E) (fun v s => (fst s, v)));
     (s_ "stroke-color", scol);
     (s_ "stroke-width", upd rd_size (fun v s => (ss_with_width v (fst s), snd s)));
     (s_ "stroke-style", updf fst (stroke_style_read W E) (fun v s => (v, snd s)))].
  Definition set_background (p : plot) (e : list expr) : outcome (list draw_command) :=
    let* (st, fl) := run background_table e (ss_with_width (pt W E 1) stroke0, fill0) in
    Ret (draw_path_ (add_rectangle d [] (plot_clip W E p)) st fl).

  (** PlotConfig(), plotgen.h:21-27. *)
  Definition plot0 : plot := mk_plot scale0 scale0 (Fin 0, Fin 0, Fin 0, Fin 0) [].
  Definition set_sx (s : scale) (p : plot) : plot := mk_plot s (p_sy p) (p_margins p) (p_stack p).
  Definition set_sy (s : scale) (p : plot) : plot := mk_plot (p_sx p) s (p_margins p) (p_stack p).
  Definition set_margins (m : xr * xr * xr * xr) (p : plot) : plot := mk_plot (p_sx p) (p_sy p) m (p_stack p).
  (** plot_prepare, plotgen.cc:44-74. *)
  Definition ranges (f : plot -> list expr -> outcome plot) : cmd plot := fun e p => f p e.
  Definition prepare_table : list (str * cmd plot) :=
    scale_entries W p_sx p_sy set_sx set_sy ++
    [(s_ "areas", ranges (areas_autorange W E)); (s_ "bars", ranges (bars_autorange W E));
     (s_ "errorbars", ranges (errorbars_autorange W E)); (s_ "labels", ranges (labels_autorange W E));
     (s_ "lines", ranges (lines_autorange W E)); (s_ "points", ranges (points_autorange W E));
     (s_ "polygons", ranges (polygons_autorange W E)); (s_ "rectangles", ranges (rectangles_autorange W E));
     (s_ "vectors", ranges (vectors_autorange W E))].
  Definition plot_prepare (e : list expr) (p : plot) : outcome plot :=
    let* (p, _) := run_collect prepare_table e p in Ret p.
  (** plot_draw, plotgen.cc:76-117: the state is the plot and what has been drawn. *)
  Notation st := (plot * list draw_command)%type.
  Definition shows (f : plot -> list expr -> outcome (list draw_command)) : cmd st := fun e s =>
    let* l := f (fst s) e in Ret (fst s, snd s ++ l).
  Definition shows_and_moves (f : plot -> list expr -> outcome (plot * list draw_command)) : cmd st := fun e s =>
    let* (p, l) := f (fst s) e in Ret (p, snd s ++ l).
  Definition draw_table : list (str * cmd st) :=
    margin_entries W E (fun s => p_margins (fst s)) (fun m s => (set_margins m (fst s), snd s)) ++
    [(s_ "axes", shows_and_moves (plot_axes W E)); (s_ "axis", shows (plot_axis W E));
     (s_ "grid", shows (plot_grid W E)); (s_ "background", shows set_background);
     (s_ "legend", shows legend_cmd);
     (s_ "areas", shows (areas_draw W E)); (s_ "bars", shows (bars_draw W E));
     (s_ "errorbars", shows (errorbars_draw W E)); (s_ "labels", shows (labels_draw W E));
     (s_ "lines", shows (lines_draw W E)); (s_ "points", shows (points_draw W E));
     (s_ "polygons", shows_and_moves (polygons_draw W E)); (s_ "rectangles", shows (rectangles_draw W E));
     (s_ "vectors", shows (vectors_draw W E))].
  Definition plot_draw (e : list expr) (s : st) : outcome st :=
    let* (s, _) := run_collect draw_table e s in Ret s.
  (** plot_eval, plotgen.cc:119-135. *)
  Definition plot_eval (e : list expr) : outcome (list draw_command) :=
    let* p := plot_prepare e plot0 in
    let* s := plot_draw e (p, []) in
    Ret (snd s).
  End Layer.

  (* ---------------- eval.cc ---------------- *)
  Definition with_layer (l : layer) (E : env) : env :=
    mk_env l (e_font E) (e_bg E) (e_fg E) (e_text_color E) (e_palette E) (e_default E).
  Definition with_font (f : font) (E : env) : env :=
    mk_env (e_layer E) f (e_bg E) (e_fg E) (e_text_color E) (e_palette E) (e_default E).
  (** layer_set_font_cmd, layer.cc:261-277. *)
  Definition set_font_cmd (e : list expr) (old : font) : outcome font :=
    match e with [a] => rd_font W [a] old | _ => Err end.
  (** eval(ctx, expr), eval.cc:51-93: the state is the layer and the name of the module. *)
  Definition eval_table : list (str * cmd (env * str)) :=
    let lay (c : layer -> list expr -> layer * outcome unit) : cmd (env * str) :=
      updf (fun s => e_layer (fst s)) (fun e l => ended (c l e)) (fun v s => (with_layer v (fst s), snd s)) in
    [(s_ "class", upd expr_to_string (fun v s => (fst s, v)));
     (s_ "size", lay (layer_resize_cmd d (w_stod W)));
     (s_ "dpi", lay (layer_set_dpi_cmd (w_stod W)));
     (s_ "font", updf (fun s => e_font (fst s)) set_font_cmd (fun v s => (with_font v (fst s), snd s)));
     (s_ "font-size", lay (layer_set_font_size_cmd d (w_stod W)))].
  Definition modules : list (str * (env -> list expr -> outcome (list draw_command))) :=
    [(s_ "draw", draw_eval W); (s_ "plot", plot_eval)].
  (** The layer afterwards and what has been added to its draw list. With no module arguments
      a null unique_ptr is dereferenced (:91). *)
  Definition eval_exprs (E : env) (e : list expr) : outcome (env * list draw_command) :=
    let* (s, args) := run_collect eval_table e (E, s_ "plot") in
    let '(E, name) := s in
    match name with
    | [] => Err
    | _ => match assoc name modules with
           | None => Err
           | Some m => match args with
                       | [] => UB
                       | _ => let* l := m E args in Ret (E, l)
                       end
           end
    end.
  (** eval(ctx, input), eval.cc:95-106. *)
  Definition eval_text (E : env) (input : str) : outcome (env * list draw_command) :=
    let* e := plist_parse input in eval_exprs E e.

  (* ---------------- layer.cc, context.cc, cli.cc ---------------- *)
  Definition white : color := from_rgb (Fin 1) (Fin 1) (Fin 1).
  (** Layer::Layer(), layer.cc:24-35, and layer_create, :37-57; [defaults] is font_load_defaults. *)
  Definition layer_create (defaults : outcome font) (fonts : list str) : outcome env :=
    let* pal := color_palette_default (w_f W) (s_ "fnord") in
    let* f := defaults in
    let* f := (fix load (l : list str) (f : font) : outcome font :=
                 match l with [] => Ret f | n :: r => let* f := w_font_load W n f in load r f end) fonts f in
    Ret (mk_env layer0 f white black black pal (mk_compound [black] [] [] [])).
  (** export_svg(layer, buffer), /repo/src/graphics/export_svg.cc:450-490. *)
  Definition svg_of (version : str) (E : env) (l : list draw_command) : outcome str :=
    export_svg d (w_sort_cw W) (w_fuel W) (page_width W E) (page_height W E) version (e_bg E) l.

  (** What getopt_long (GNU C library) reports for a command line: a long option by its index,
      a short option, or the '?' of an error, with the argument; then the rest. *)
  Inductive opt := Long (i : nat) (arg : str) | Short (c : ascii) (arg : str) | Bad.
  Record flags := mk_flags { fl_export : str; fl_format : str; fl_fonts : list str; fl_help : bool; fl_version : bool }.
  (** The flags that main adds, cli.cc:58-75, and their callbacks, flagparser.cc:21-69. The debug
      switch has no effect. *)
  Definition flag_cb := (str -> flags -> flags)%type.
  Definition flag_list : list (option ascii * flag_cb) :=
    [(Some "e"%char, fun v f => mk_flags v (fl_format f) (fl_fonts f) (fl_help f) (fl_version f));
     (Some "f"%char, fun v f => mk_flags (fl_export f) v (fl_fonts f) (fl_help f) (fl_version f));
     (None, fun v f => mk_flags (fl_export f) (fl_format f) (fl_fonts f ++ [v]) (fl_help f) (fl_version f));
     (Some "d"%char, fun _ f => f);
     (Some "h"%char, fun _ f => mk_flags (fl_export f) (fl_format f) (fl_fonts f) true (fl_version f));
     (Some "v"%char, fun _ f => mk_flags (fl_export f) (fl_format f) (fl_fonts f) (fl_help f) true)].
  Definition find_flag (o : opt) : option flag_cb :=
    match o with
    | Long i _ => option_map snd (nth_error flag_list i)
    | Short c _ => option_map snd (find (fun f => match fst f with Some c' => Ascii.eqb c c' | None => false end) flag_list)
    | Bad => None
    end.
  Definition opt_arg (o : opt) : str := match o with Long _ a | Short _ a => a | Bad => [] end.
  (** flags_parse, flagparser.cc:71-147. *)
  Fixpoint flags_parse (l : list opt) (f : flags) : outcome flags :=
    match l with
    | [] => Ret f
    | o :: r => match find_flag o with Some cb => flags_parse r (cb (opt_arg o) f) | None => Err end
    end.

  (** What the process leaves behind: the exit status, the text that reached stdout, and the file
      it has created or emptied, with the contents. *)
  Record result := mk_result { exit_code : nat; stdout : str; written : option (str * str) }.
  Definition failure : result := mk_result 1 [] None.
  Inductive out_format := SVG | PNG.
  Definition choose_format (f : flags) : outcome out_format :=
    match fl_format f with
    | [] => Ret (if ends_with (fl_export f) (s_ ".png") then PNG else SVG)
    | fmt => if str_eqb fmt (s_ "svg") then Ret SVG
             else if str_eqb fmt (s_ "png") then Ret PNG else Err
    end.
  (** The operating system: [os_open path]: open(2) with O_CREAT and O_TRUNC succeeds;
      [os_write path n]: how many of n bytes write(2) accepts, None for an error; [os_stdout n]:
      how many of n bytes reach stdout. *)
  Record os := mk_os { os_open : str -> bool; os_write : str -> nat -> option nat; os_stdout : nat -> nat }.
  (** FileUtil::write, /repo/src/utils/fileutil.cc:182-188, with File::openFile and File::write,
      /repo/src/utils/file.cc:24-70,122-128: one write(2) whose result is compared with the
      length; an exception is not caught, and crash() (cli.cc:36-52) exits with a failure. *)
  Definition file_write (o : os) (path text : str) : result :=
    if os_open o path then
      match os_write o path (length text) with
      | None => mk_result 1 [] (Some (path, []))
      | Some n => mk_result (if Nat.eqb n (length text) then 0 else 1) [] (Some (path, firstn n text))
      end
    else failure.
  (** main, cli.cc:54-199. The state of std::cout is not looked at. *)
  Definition cli_run (version : str) (defaults : outcome font) (stdin : str)
      (o : os) (f : flags) (args : list str) : outcome result :=
    if fl_version f then Ret (mk_result 0 [] None)
    else match fl_help f, args with
    | false, [path] =>
        let* fmt := choose_format f in
        let* E := layer_create defaults (fl_fonts f) in
        let* input := if str_eqb path (s_ "-") then Ret stdin
                      else match w_read_file W path with Some t => Ret t | None => Err end in
        let* (E, l) := eval_text E input in
        match fl_export f with
        | [] => Ret (mk_result 0 [] None)
        | target =>
            let* text := match fmt with SVG => svg_of version E l | PNG => Ret [] end in
            if str_eqb target (s_ "-") then Ret (mk_result 0 (firstn (os_stdout o (length text)) text) None)
            else Ret (file_write o target text)
        end
    | _, _ => Ret (mk_result 0 [] None)
    end.
  Definition flags0 : flags := mk_flags [] [] [] false false.
  (** An error or an exception that is not caught ends with a failure status. *)
  Definition main_ (version : str) (defaults : outcome font) (stdin : str)
      (o : os) (opts : list opt) (args : list str) : outcome result :=
    match (let* f := flags_parse opts flags0 in cli_run version defaults stdin o f args) with
    | Err | Throw => Ret failure
    | o => o
    end.
End Eval.

(** /repo/src/api.cc: clip_eval (:45-51) ignores its argument; clip_set_output_format (:58-73)
    ignores the path. *)
Record handle := mk_handle { h_format : out_format; h_buffer : str; h_error : str }.
Definition clip_init : handle := mk_handle SVG [] [].
Definition clip_eval (h : handle) (text : str) : handle * bool := (h, true).
Definition clip_get_result (h : handle) : str := h_buffer h.
Definition clip_set_output_format (h : handle) (fmt : str) : handle * bool :=
  if str_eqb fmt (s_ "svg") then (mk_handle SVG (h_buffer h) (h_error h), true)
  else if str_eqb fmt (s_ "png") then (mk_handle PNG (h_buffer h) (h_error h), true)
  else (mk_handle (h_format h) (h_buffer h) (s_ "invalid output format: " ++ fmt), false).
