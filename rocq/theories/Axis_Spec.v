(** Vocabulary for axes and grids. *)
From Coq Require Import Reals.
From Verif Require Import Base Num Sexpr_Model Dispatch_Model Data_Model Scale_Model Scale_Spec Units_Model Color_Model
  Geo_Model Svg_Model Format_Model Cmd_Model Cmd_Spec Style_Model Plot_Model Plot_Spec Axis_Model.
Local Open Scope R_scope.

(** The point of an axis at the fraction [t] of its length, for the plot area x0 y0 w h, and the
    same moved off the axis. *)
Definition on_axis (g : axis_align) (x0 y0 w h : R) (t off : R) : vec2 :=
  match g with
  | ABottom => vec (x0 + t * w) (y0 + off)
  | ATop => vec (x0 + t * w) (y0 + h + off)
  | AX => vec (x0 + t * w) (y0 + h / 2 + off)
  | ALeft => vec (x0 + off) (y0 + t * h)
  | ARight => vec (x0 + w + off) (y0 + t * h)
  | AY => vec (x0 + w / 2 + off) (y0 + t * h)
  end.
Definition stroke_line (a b : vec2) (s : stroke_style) : draw_command := shape_of [MoveTo a; LineTo b] s fill0 None.
(** Where a tick of length [len] with the offset [o] (between -1 and 1) begins. *)
Definition tick_start (len o : R) : R := len * (o + 1) / 2 - len.

(** The value of the i-th tick of an axis from a to b divided into n parts. *)
Definition division (inverted : bool) (a b : R) (n i : nat) : R :=
  if inverted then b - (b - a) * (INR i / INR n) else a + (b - a) * (INR i / INR n).

(** The point beside the plot area [c] that has the position [t] along the side and the other
    coordinate [across]. The first coordinate is that of data with the same position. *)
Definition beside (g : axis_align) (d : R -> R) (c : rectangle) (t across : xr) : vec2 :=
  if is_horizontal g then mk_vec2 (vx (spot d c (t, Fin 0))) across
  else mk_vec2 across (vy (spot d c (Fin 0, t))).
(** A position and a label that belong to the same value of the scale [s]: the position is that
    of data with this value, and the label what the format makes of it. *)
Definition tick_of (W : world) (s : scale) (fm : formatter) (i : nat) (t : xr) (lab : str) : Prop :=
  exists v, scale_translate (w_d W) (w_f W) s v = Ret t /\ fm i (w_show W v) = Ret lab.
Definition ticks_for (W : world) (s : scale) (fm : formatter) (l : layout) : Prop :=
  length (positions l) = length (labels l) /\
  forall i t lab, nth_error (positions l) i = Some t -> nth_error (labels l) i = Some lab -> tick_of W s fm i t lab.
(** Placements of ticks by value. *)
Definition by_value (p : placement) : Prop :=
  match p with PLinear _ | PAlign _ | PAlignAt _ _ | PInterval _ _ _ | PExp _ | PNone => True | _ => False end.

(** The settings of one axis; NAME applies to all axes, NAME-x to those at the top and bottom,
    NAME-left to that at the left. *)
Definition axis_settings (W : world) (E : env) : list (string * cmd axis) :=
  [("scale"%string, c_scale W); ("limit"%string, c_limit W);
   ("label-placement"%string, c_lplace W); ("tick-placement"%string, c_tickplace W); ("label-format"%string, c_lformat W);
   ("label-attach"%string, c_attach); ("label-offset"%string, c_loff W); ("label-padding"%string, c_lpad W);
   ("label-rotate"%string, c_lrotate W); ("label-font"%string, c_lfont W); ("label-font-size"%string, c_lsize W E);
   ("label-color"%string, c_lcolor W E); ("tick-offset"%string, c_tickoff W); ("tick-length"%string, c_ticklen W);
   ("title"%string, c_title); ("title-font"%string, c_tfont W); ("title-font-size"%string, c_tsize W E);
   ("title-color"%string, c_tcolor W E); ("title-offset"%string, c_toff W); ("title-padding"%string, c_tpad W);
   ("title-rotate"%string, c_trotate W); ("border-width"%string, c_bwidth W E); ("border-color"%string, c_bcolor W E);
   ("border-style"%string, c_bstyle)].
Definition side_name (g : axis_align) : string :=
  match g with AX => "x" | AY => "y" | ATop => "top" | ARight => "right" | ABottom => "bottom" | ALeft => "left" end.
Definition dim_name (g : axis_align) : string := if is_horizontal g then "x" else "y".
Definition side_table (W : world) (E : env) (g : axis_align) : list (str * cmd axis) :=
  flat_map (fun nc => [(s_ (fst nc), snd nc); (s_ (fst nc) ++ s_ "-" ++ s_ (dim_name g), snd nc);
                       (s_ (fst nc) ++ s_ "-" ++ s_ (side_name g), snd nc)]) (axis_settings W E) ++
  [(s_ "font", call_each [c_lfont W; c_tfont W]); (s_ "font-size", call_each [c_tsize W E; c_lsize W E]);
   (s_ "position", fun e a => Ret (set_a_enable (existsb (fun x => is_word [x] (side_name g)) e) a))].
Definition the_sides : list axis_align := [ATop; ARight; ABottom; ALeft].
Definition side_scale (g : axis_align) (p : plot) : scale := if is_horizontal g then p_sx p else p_sy p.
(** The axis that the options [e] of the axes command configure at the side [g]. *)
Definition side_axis (W : world) (E : env) (p : plot) (e : list expr) (g : axis_align) (a : axis) : Prop :=
  options (side_table W E g) e (axis0 W E g (side_scale g p)) = Ret a.
(** Options of the axes command that change the scale of the axis at the side [g], or its ticks. *)
Definition side_keys (g : axis_align) (names : list string) : list str :=
  flat_map (fun n => [s_ n; s_ n ++ s_ "-" ++ s_ (dim_name g); s_ n ++ s_ "-" ++ s_ (side_name g)]) names.

(** A rectangle inside another one. *)
Definition rect_within (x y w h x0 y0 w0 h0 : R) : Prop := x0 <= x /\ y0 <= y /\ x + w <= x0 + w0 /\ y + h <= y0 + h0.

(** Placements whose ticks belong to values. *)
Definition valued (p : placement) : Prop :=
  by_value p \/ exists n : nat, (0 < n)%nat /\ (Z.of_nat n < 2 ^ 32)%Z /\ p = PSubdivide (Fin (INR n)).
(** The format of the labels: by default one decimal. *)
Definition label_format (W : world) (a : axis) : formatter :=
  match a_lformat a with Some fm => fm | None => format_fixed (stod_val W) 1 end.
(** What one axis of a linear scale draws on the plot area x0 y0 w h: a line along the side, a
    mark across it for each tick, all of the same length, then the labels and the title. Every
    tick and every label stands where data of a value would stand, and the label is that value. *)
Definition axis_shown (W : world) (E : env) (x0 y0 w h : R) (a : axis) (out : list draw_command) : Prop :=
  let at_ := beside (a_align a) exact (rect x0 y0 w h) in
  exists ticks labs q len q' texts title,
    out = stroke_line (on_axis (a_align a) x0 y0 w h 0 0) (on_axis (a_align a) x0 y0 w h 1 0) (a_border a) ::
          map (fun t => stroke_line (at_ t q) (at_ t (xadd exact q len)) (a_border a)) ticks ++ concat texts ++ title /\
    Forall (fun t => exists v, scale_translate exact exact (a_scale a) v = Ret t) ticks /\
    Forall2 (fun tl part => draw_text_ W E (a_lfont a) (a_lsize a) (a_lcolor a) (snd tl) (at_ (fst tl) q')
                              (fst (attach_align (a_attach a))) (snd (attach_align (a_attach a))) (a_lrotate a) = Ret part) labs texts /\
    (forall i t lab, nth_error labs i = Some (t, lab) -> tick_of W (a_scale a) (label_format W a) i t lab) /\
    (a_title a = [] -> title = []).

(** The margins of the axes command: margin sets all four, margin-top ... one, the last one
    counts. Here as top, right, bottom, left. *)
Definition margin_options (W : world) (E : env) : list (str * cmd (xr * xr * xr * xr)) :=
  [(s_ "margin", fun a _ => let* v := rd_size W E a in Ret (v, v, v, v));
   (s_ "margin-top", fun a '(t, r, b, l) => let* v := rd_size W E a in Ret (v, r, b, l));
   (s_ "margin-right", fun a '(t, r, b, l) => let* v := rd_size W E a in Ret (t, v, b, l));
   (s_ "margin-bottom", fun a '(t, r, b, l) => let* v := rd_size W E a in Ret (t, r, v, l));
   (s_ "margin-left", fun a '(t, r, b, l) => let* v := rd_size W E a in Ret (t, r, b, v))].
(** The space that an axis needs: none if it is not shown. *)
Definition needs (W : world) (E : env) (a : axis) (pad : xr) : Prop :=
  if a_enable a then axis_layout W E (axis_set_defaults W a) = Ret pad else pad = Fin 0.

(** A vertical and a horizontal line across the plot area. *)
Definition vertical (x0 y0 w h x : R) (s : stroke_style) : draw_command := stroke_line (vec x y0) (vec x (y0 + h)) s.
Definition horizontal (x0 y0 w h y : R) (s : stroke_style) : draw_command := stroke_line (vec x0 y) (vec (x0 + w) y) s.
(** The placement of the grid lines: the last option, or the default of the scale. *)
Definition grid_placement (W : world) (k : string) (e : list expr) (s : scale) (p : placement) : Prop :=
  match last_args (s_ k) e with
  | Some a => configure_layout (w_stod W) a = Ret p
  | None => p = match s_kind s with
                | Categorical => PCategoricalBounds
                | Logarithmic => if xeq (s_log_base s) (Fin 10) then PExpSteps (Fin 10) (Fin 10) else PExp (s_log_base s)
                | Linear => PSubdivide (Fin 10)
                end
  end.
Definition grid_stroke_options (W : world) (E : env) : list (str * cmd stroke_style) :=
  [(s_ "color", updf s_color (rd_color W E) ss_with_color);
   (s_ "stroke-color", updf s_color (rd_color W E) ss_with_color);
   (s_ "stroke-width", upd (rd_size W E) ss_with_width);
   (s_ "stroke-style", stroke_style_read W E)].
