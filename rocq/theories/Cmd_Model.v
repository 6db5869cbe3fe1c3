(** The vocabulary in which the commands of a program are modelled: command tables
    (/repo/src/sexpr_util.cc), the layer that is drawn on (/repo/src/layer.h) and the outside
    world. *)
From Coq Require Import Reals.
From Verif Require Import Base Num Sexpr_Model Dispatch_Model Data_Model Scale_Model Units_Model
  Color_Model Geo_Model Svg_Model Format_Model.
Local Open Scope R_scope.

(** A command bound into a table given to expr_walk_map: it gets the chain behind the keyword
    and changes the state. A command that fails ends the program, so what it left behind is not
    modelled. *)
Definition cmd (S : Type) := list expr -> S -> outcome S.

Section Walk.
  Context {S : Type}.
  Variable fns : list (str * cmd S).

  (** expr_walk_map(expr, unparsed, fns), /repo/src/sexpr_util.cc:55-91: as Dispatch_Model.walk,
      for commands that can also throw or be undefined. Of two entries with the same key the
      unordered_map keeps the first. *)
  Fixpoint walkx (collect : bool) (l : list expr) (u t : list expr) (s : S)
    : outcome (S * list expr) :=
    match l with
    | [] => Ret (s, u ++ t)
    | EList args :: rest =>
        match value_of args with
        | None => Err
        | Some k =>
            match assoc k fns with
            | None => if collect then walkx collect rest (u ++ [EList args]) rest s else Err
            | Some f => let* s' := f (tl args) s in walkx collect rest u t s'
            end
        end
    | _ :: _ => Err
    end.
  (** expr_walk_map(expr, fns), strict, /repo/src/sexpr_util.cc:37-42, and
      expr_walk_map(expr, nullptr, fns). *)
  Definition run (l : list expr) (s : S) : outcome S :=
    let* (s', _) := walkx false l [] [] s in Ret s'.
  (** expr_walk_map(expr, &unparsed, fns): unknown commands are skipped and collected. *)
  Definition run_collect (l : list expr) (s : S) : outcome (S * list expr) := walkx true l [] [] s.
  (** expr_walk_map_wrapped(expr, fns), /repo/src/sexpr_util.cc:44-53. *)
  Definition run_wrapped (l : list expr) (s : S) : outcome S :=
    match l with EList items :: _ => run items s | _ => Err end.
End Walk.

(** std::bind of a reader and the place its result goes to. *)
Definition upd {S T} (read : list expr -> outcome T) (put : T -> S -> S) : cmd S :=
  fun e s => let* v := read e in Ret (put v s).
(** The same for a reader that also looks at the old contents. *)
Definition updf {S T} (get : S -> T) (read : list expr -> T -> outcome T) (put : T -> S -> S) : cmd S :=
  fun e s => let* v := read e (get s) in Ret (put v s).
(** expr_calln_fn, /repo/src/sexpr_util.cc:129-143: each function gets the same arguments. *)
Fixpoint call_each {S} (fs : list (cmd S)) : cmd S :=
  fun e s => match fs with [] => Ret s | f :: r => let* s' := f e s in call_each r e s' end.

(** The second component says how it ended. *)
Definition ended {A} (r : A * outcome unit) : outcome A :=
  let '(a, o) := r in let* _ := o in Ret a.

(** expr_to_copy, /repo/src/sexpr_conv.cc:216-219: a clone of the first node only. *)
Definition expr_to_copy (e : list expr) : outcome (list expr) :=
  Ret match e with x :: _ => [x] | [] => [] end.

Fixpoint forM {A B} (f : A -> outcome B) (l : list A) : outcome (list B) :=
  match l with
  | [] => Ret []
  | a :: r => let* b := f a in let* t := forM f r in Ret (b :: t)
  end.
(** A sequence of drawing steps. *)
Fixpoint draw_each {A B} (f : A -> outcome (list B)) (l : list A) : outcome (list B) :=
  match l with
  | [] => Ret []
  | a :: r => let* b := f a in let* t := draw_each f r in Ret (b ++ t)
  end.
(** v[i] of a std::vector. *)
Definition at_ {A} (l : list A) (i : nat) : outcome A :=
  match nth_error l i with Some a => Ret a | None => UB end.
(** v.empty() ? x : v[i % v.size()]. *)
Definition cycle {A} (l : list A) (i : nat) (x : A) : A :=
  match l with [] => x | _ => nth (i mod length l) l x end.

(** FontInfo is opaque: what fontconfig found. *)
Definition font : Type := list nat.

(** What lies outside of the code that is modelled: rounding of double and float, the C library
    (stod, to_string, strftime), the file system, std::sort, fontconfig, and the text rendering
    of Text_Model: the glyph shapes of a text at a position ([w_text font size dpi text pos
    halign valign rotate]) and its bounding box ([w_measure]). [w_fuel] bounds the loops. *)
Record world := mk_world {
  w_d : R -> R; w_f : R -> R;
  w_stod : str -> option (xr * nat); w_show : xr -> str; w_is_number : str -> bool;
  w_read_file : str -> option str; w_strftime : str -> Z -> str;
  w_sort_stops : list (xr * color) -> list (xr * color);
  w_sort_cw : list vec2 -> list vec2;
  w_font_load : str -> font -> outcome font;
  w_text : font -> xr -> xr -> str -> vec2 -> halign -> valign -> xr -> outcome (list path);
  w_measure : font -> xr -> xr -> str -> outcome rectangle;
  w_fuel : nat }.

(** Layer, /repo/src/layer.h:25-48, without the draw list. *)
Record env := mk_env {
  e_layer : layer; e_font : font; e_bg : color; e_fg : color; e_text_color : color;
  e_palette : list color; e_default : compound }.

(** PlotConfig, /repo/src/plot/plotgen.h:21-27; margins: top, right, bottom, left. The head of
    the layout stack is its back(). *)
Record plot := mk_plot {
  p_sx : scale; p_sy : scale; p_margins : xr * xr * xr * xr; p_stack : list rectangle }.

Section Env.
  Variable W : world.
  Notation d := (w_d W).
  Notation f := (w_f W).
  Variable E : env.
  Notation L := (e_layer E).

  Definition dpi : xr := l_dpi L.
  Definition pt (v : R) : xr := unit_from_pt d (Fin v) dpi.
  (** A double constant of the source. *)
  Definition k (v : R) : xr := Fin (d v).
  Definition page_width : xr := layer_get_width d L.
  Definition page_height : xr := layer_get_height d L.
  Definition page_font_size : xr := layer_get_font_size d L.

  (** Readers, bound to the layer. *)
  Definition rd_float : list expr -> outcome xr := expr_to_float64 (w_stod W).
  Definition rd_size : list expr -> outcome xr := expr_to_size d (w_stod W) L.
  Definition rd_font_size : list expr -> outcome xr := expr_to_font_size d (w_stod W) L.
  (** measure_readn, and its result read as a double (Measure::operator double). *)
  Definition rd_measuren (e : list expr) : outcome xr :=
    let* m := measure_readn d (w_stod W) L e in Ret (m_value m).
  (** measure_read: no conversion of units. *)
  Definition rd_measure (e : list expr) : outcome xr :=
    let* m := measure_read d (w_stod W) e in Ret (m_value m).
  Definition rd_color (e : list expr) (c : color) : outcome color :=
    expr_to_color f (w_stod W) (e_palette E) e c.
  Definition rd_strings (e : list expr) (old : list str) : outcome (list str) :=
    ended (data_load_strings (w_read_file W) e old).
  (** expr_call_string of font_load_best, /repo/src/sexpr_util.cc:161-173. *)
  Definition rd_font (e : list expr) (old : font) : outcome font :=
    match value_of e with Some v => w_font_load W v old | None => Err end.
  Definition rd_kind (e : list expr) (s : scale) : outcome scale :=
    ended (configure_kind (w_stod W) (w_read_file W) e s).
  (** expr_to_float64_opt_pair into the limits of a scale. *)
  Definition with_min (v : xr) (s : scale) : scale :=
    mk_scale (s_kind s) (Some v) (s_max s) (s_log_base s) (s_inverted s) (s_padding s)
      (h_min s) (h_max s) (s_categories s) (s_cmap s).
  Definition with_max (v : xr) (s : scale) : scale :=
    mk_scale (s_kind s) (s_min s) (Some v) (s_log_base s) (s_inverted s) (s_padding s)
      (h_min s) (h_max s) (s_categories s) (s_cmap s).
  Definition with_padding (v : xr) (s : scale) : scale :=
    mk_scale (s_kind s) (s_min s) (s_max s) (s_log_base s) (s_inverted s) v
      (h_min s) (h_max s) (s_categories s) (s_cmap s).
  Definition rd_limits (e : list expr) (s : scale) : outcome scale :=
    match ended (expr_to_float64_opt_pair (w_stod W) e (s_min s) (s_max s)) with
    | Ret (Some a, Some b) => Ret (with_max b (with_min a s))
    | Ret _ => UB     (* not reached: both are set when the call succeeds *)
    | Err => Err | Throw => Throw | UB => UB | Diverge => Diverge
    end.

  (** The table entries limit-x ... scale-y-padding that plot_prepare and most geometry
      elements share, e.g. /repo/src/plot/lines.cc:85-94. *)
  Definition scale_entries {S} (gx gy : S -> scale) (px py : scale -> S -> S) : list (str * cmd S) :=
    [(s_ "limit-x", updf gx rd_limits px);
     (s_ "limit-x-min", updf gx (fun e s => let* v := rd_float e in Ret (with_min v s)) px);
     (s_ "limit-x-max", updf gx (fun e s => let* v := rd_float e in Ret (with_max v s)) px);
     (s_ "limit-y", updf gy rd_limits py);
     (s_ "limit-y-min", updf gy (fun e s => let* v := rd_float e in Ret (with_min v s)) py);
     (s_ "limit-y-max", updf gy (fun e s => let* v := rd_float e in Ret (with_max v s)) py);
     (s_ "scale-x", updf gx rd_kind px);
     (s_ "scale-y", updf gy rd_kind py);
     (s_ "scale-x-padding", updf gx (fun e s => let* v := rd_float e in Ret (with_padding v s)) px);
     (s_ "scale-y-padding", updf gy (fun e s => let* v := rd_float e in Ret (with_padding v s)) py)].

  (** Columns and scales. *)
  Notation databuf := (databuf xr).
  Definition to_unit (s : scale) (b : databuf) : outcome (list xr) :=
    translatev_buf d f (w_show W) (w_stod W) (w_is_number W) s b.
  Definition fit_data (s : scale) (b : databuf) : outcome scale :=
    fit_buf d (w_show W) (w_stod W) s b.
  Definition load_simple (e : list expr) (b : databuf) : outcome databuf :=
    ended (data_load_simple xr (w_read_file W) e b).

  (** draw_shape, draw_path, draw_line (/repo/src/graphics/draw_cmd.cc:24-108). *)
  Definition no_style : compound := mk_compound [] [] [] [].
  Definition shape_of (p : path) (s : stroke_style) (fl : fill_style) (aa : option bool) : draw_command :=
    draw_shape (mk_cmd p no_style s fl aa).
  Definition draw_path_ (p : path) (s : stroke_style) (fl : fill_style) : list draw_command :=
    [shape_of p s fl None].
  Definition draw_line_ (a b : vec2) (s : stroke_style) : list draw_command :=
    [shape_of (add_line [] a b) s fill0 None].
  (** draw_text, draw_cmd.cc:110-153, and draw::text, /repo/src/draw/text.cc:43-120: one shape
      per glyph, filled with the colour. *)
  Definition text_shapes (st : compound) (ps : list path) : list draw_command :=
    map (fun p => draw_shape (mk_cmd p st stroke0 fill0 None)) ps.
  Definition draw_text_ (fnt : font) (size : xr) (col : color) (t : str) (p : vec2)
      (ax : halign) (ay : valign) (rotate : xr) : outcome (list draw_command) :=
    let* ps := w_text W fnt size dpi t p ax ay rotate in
    Ret (text_shapes (mk_compound [col] [] [] []) ps).

  (** plot_get_clip, /repo/src/plot/plotgen.cc:137-152. *)
  Definition plot_clip (p : plot) : rectangle :=
    match p_stack p with
    | [] => let '(t, r, b, l) := p_margins p in
            layout_margin_box d (mk_rect (Fin 0) (Fin 0) page_width page_height) t r b l
    | box :: _ => box
    end.
  (** clip.x + x * clip.w and clip.y + y * clip.h. *)
  Definition px_ (c : rectangle) (x : xr) : xr := xadd d (rx c) (xmul d x (rw c)).
  Definition py_ (c : rectangle) (y : xr) : xr := xadd d (ry c) (xmul d y (rh c)).
  Definition place_pt (c : rectangle) (x y : xr) : vec2 := mk_vec2 (px_ c x) (py_ c y).
End Env.
