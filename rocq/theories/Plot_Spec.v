(** Vocabulary for the properties of the plot elements. *)
From Coq Require Import Reals.
From Verif Require Import Base Num Sexpr_Model Dispatch_Model Data_Model Data_Spec Data_Proofs Scale_Model Scale_Spec Units_Model Color_Model
  Geo_Model Svg_Model Cmd_Model Cmd_Spec Style_Model Plot_Model.
Local Open Scope R_scope.

(** Where the data of an element comes from: the last options data, data-format, data-x and
    data-y (of the last two the first argument). *)
Definition word_of (k : string) (e : list expr) : str :=
  match last_args (s_ k) e with
  | Some a => match value_of a with Some v => v | None => [] end
  | None => []
  end.
Definition ref_of (k : string) (e : list expr) : list expr :=
  match last_args (s_ k) e with Some (x :: _) => [x] | _ => [] end.
Definition source_of (e : list expr) : src :=
  mk_src (word_of "data" e) (word_of "data-format" e) (ref_of "data-x" e) (ref_of "data-y" e).

(** The columns that are given by one or more options, each adding to the column. *)
Definition column (W : world) (keys : list string) (e : list expr) : outcome (databuf xr) :=
  options (map (fun k => (s_ k, fun a b => load_simple W a b)) keys) e empty.

(** The style options of an element, applied to a default. *)
Definition stroke_options (W : world) (E : env) : list (str * cmd stroke_style) :=
  [(s_ "color", updf s_color (rd_color W E) ss_with_color);
   (s_ "stroke-width", upd (rd_size W E) ss_with_width);
   (s_ "stroke-style", stroke_style_read W E);
   (s_ "stroke-color", updf s_color (rd_color W E) ss_with_color)].
Definition fill_options (W : world) (E : env) : list (str * cmd fill_style) :=
  [(s_ "fill", fill_style_read W E); (s_ "color", fill_style_read_solid W E)].
Definition setting {T} (k : string) (rd : list expr -> outcome T) (e : list expr) (dflt : T) : outcome T :=
  match last_args (s_ k) e with Some a => rd a | None => Ret dflt end.
Definition color_options (W : world) (E : env) (keys : list string) : list (str * cmd color) :=
  map (fun k => (s_ k, fun a c => rd_color W E a c)) keys.
Definition label_options (W : world) (E : env) (rd_pad : list expr -> outcome xr) : list (str * cmd lbl) :=
  [(s_ "labels", updf lb_text (rd_strings W) set_lb_text);
   (s_ "label-font-size", upd (rd_font_size W E) set_lb_size);
   (s_ "label-color", updf lb_color (rd_color W E) set_lb_color);
   (s_ "label-padding", upd rd_pad set_lb_pad)].
Definition font_options (W : world) : list (str * cmd lbl) :=
  [(s_ "label-font", updf lb_font (rd_font W) set_lb_font); (s_ "font", updf lb_font (rd_font W) set_lb_font)].
(** Labels in the font of the page, black. *)
Definition plain_labels (W : world) (E : env) : lbl := mk_lbl [] (e_font E) (page_font_size W E) black (Fin 0).
(** Colours and sizes of points, vectors, rectangles, error bars: one for all, or data, with a
    function that turns it into colours and sizes. *)
Definition marks_color_options (W : world) (E : env) : list (str * cmd marks) :=
  [(s_ "color", updf m_color (rd_color W E) set_m_color);
   (s_ "colors", updf m_colors (rd_strings W) set_m_colors);
   (s_ "color-map", upd (rd_color_map W E) (fun f => set_m_cmap (Some f)))].
Definition mark_options (W : world) (E : env) : list (str * cmd marks) :=
  marks_color_options W E ++
  [(s_ "size", upd (rd_size W E) set_m_size);
   (s_ "sizes", updf m_sizes (rd_strings W) set_m_sizes);
   (s_ "size-map", upd (rd_size_map W E) (fun f => set_m_smap (Some f)))].
Definition plain_marks (E : env) (size : xr) : marks := mk_marks (e_fg E) [] None size [] None.
(** The i-th of some values taken in turn, or else the given one. *)
Definition turn {A} (l : list A) (i : nat) (x : A) : A := nth (i mod length l) l x.
(** The colours and sizes that the data asks for. *)
Definition colors_read (W : world) (m : marks) (cols : list color) : Prop :=
  Forall2 (fun t c => match m_cmap m with
                      | Some f => f t = Ret c
                      | None => parse (w_f W) t black = Ret (true, c)
                      end) (m_colors m) cols.
Definition sizes_read (W : world) (m : marks) (szs : list xr) : Prop :=
  Forall2 (fun t s => exists v, s = m_value v /\
                      match m_smap m with
                      | Some f => f t = Ret v
                      | None => parse_measure (w_d W) (w_stod W) t = Ret v
                      end) (m_sizes m) szs.

(** The outline of the upper or lower side of an area. *)
Definition side_options (W : world) (E : env) (side : string) : list (str * cmd stroke_style) :=
  [(s_ "stroke-color", updf s_color (rd_color W E) ss_with_color);
   (s_ "stroke-width", upd (rd_size W E) ss_with_width);
   (s_ "stroke-style", stroke_style_read W E);
   (s_ "stroke-" ++ s_ side ++ s_ "-color", updf s_color (rd_color W E) ss_with_color);
   (s_ "stroke-" ++ s_ side ++ s_ "-width", upd (rd_size W E) ss_with_width);
   (s_ "stroke-" ++ s_ side ++ s_ "-style", stroke_style_read W E);
   (s_ "color", updf s_color (rd_color W E) ss_with_color)].
(** The colours of error bars. *)
Definition bar_color_options (W : world) (E : env) : list (str * cmd marks) :=
  marks_color_options W E ++
  [(s_ "stroke-color", updf m_color (rd_color W E) set_m_color)].
Definition size_options (W : world) (E : env) (keys : list string) : list (str * cmd xr) :=
  map (fun k => (s_ k, fun a (_ : xr) => rd_size W E a)) keys.

(** The point of a rectangle at the given fractions of its width and height. *)
Definition spot (d : R -> R) (c : rectangle) (q : xr * xr) : vec2 :=
  mk_vec2 (xadd d (rx c) (xmul d (fst q) (rw c))) (xadd d (ry c) (xmul d (snd q) (rh c))).
(** The same for exact numbers, and being inside. *)
Definition inside (x0 y0 w h : R) (v : vec2) : Prop :=
  exists a b, v = mk_vec2 (Fin a) (Fin b) /\ x0 <= a <= x0 + w /\ y0 <= b <= y0 + h.

(** Each of [l] with its number. *)
Definition numbered {A} (l : list A) : list (nat * A) := combine (seq 0 (length l)) l.
(** [out] is what [draw i a] gives for the elements of [l], in order. *)
Definition drawn {A} (draw : nat -> A -> outcome (list draw_command)) (l : list A) (out : list draw_command) : Prop :=
  exists parts, Forall2 (fun ia part => draw (fst ia) (snd ia) = Ret part) (numbered l) parts /\ out = concat parts.
(** The labels [ls] beside the points [ps], moved by [off i]. *)
Definition labels_beside (W : world) (E : env) (l : lbl) (ax : halign) (ay : valign)
    (ps : list vec2) (out : list draw_command) : Prop :=
  (length (lb_text l) <= length ps)%nat /\
  drawn (fun _ (tp : str * vec2) =>
           draw_text_ W E (lb_font l) (lb_size l) (lb_color l) (fst tp) (snd tp) ax ay (Fin 0))
    (combine (lb_text l) ps) out.

(** A closed outline through the given corners. *)
Definition outline (l : list vec2) : path :=
  match l with [] => [Close] | p :: r => MoveTo p :: map LineTo r ++ [Close] end.
(** The base line of bars and areas: the low column, or without one the position of zero, moved
    into the plot area. *)
Definition base_line (W : world) (s : scale) (low : databuf xr) (n : nat) (bases : list xr) : Prop :=
  if (databuf_len xr low =? 0)%nat
  then exists z, scale_translate (w_d W) (w_f W) s (Fin 0) = Ret z /\ bases = repeat (clamp01 z) n
  else to_unit W s low = Ret bases.
(** A bar: around the position of the value on the base axis, moved by the offset, of the given
    width, and from the base line to the value on the other axis. In the horizontal direction a
    positive offset moves downwards. *)
Definition bar_corners (d : R -> R) (horizontal : bool) (clip : rectangle) (x y lo offset width : xr) : list vec2 :=
  let half := xmul d width (Fin (1 / 2)) in
  let tip := spot d clip (x, y) in
  if horizontal then
    let base := spot d clip (lo, y) in
    let c := xadd d (vy tip) (xneg offset) in
    [mk_vec2 (vx base) (xsub d c half); mk_vec2 (vx tip) (xsub d c half);
     mk_vec2 (vx tip) (xadd d c half); mk_vec2 (vx base) (xadd d c half)]
  else
    let base := spot d clip (x, lo) in
    let c := xadd d (vx tip) offset in
    [mk_vec2 (xsub d c half) (vy base); mk_vec2 (xsub d c half) (vy tip);
     mk_vec2 (xadd d c half) (vy tip); mk_vec2 (xadd d c half) (vy base)].
(** The place of the label of a bar: its tip, moved by the offset and away from the bar. *)
Definition bar_label (d : R -> R) (horizontal : bool) (clip : rectangle) (x y offset pad : xr) : vec2 :=
  if horizontal then mk_vec2 (xadd d (vx (spot d clip (x, y))) pad) (xadd d (xadd d (ry clip) (xneg offset)) (xmul d y (rh clip)))
  else mk_vec2 (xadd d (xadd d (rx clip) offset) (xmul d x (rw clip))) (xadd d (vy (spot d clip (x, y))) pad).
Definition vec (x y : R) : vec2 := mk_vec2 (Fin x) (Fin y).
Definition rect (x y w h : R) : rectangle := mk_rect (Fin x) (Fin y) (Fin w) (Fin h).
(** Calculating without rounding. *)
Definition exact_world (W : world) : Prop := w_d W = exact /\ w_f W = exact.
(** A column that holds the numbers [vs]. *)
Definition holds (W : world) (b : databuf xr) (vs : list R) : Prop :=
  exists cells, repr xr b cells /\ map (as_num xr (parse_f64 (w_stod W))) cells = map Fin vs /\
    Forall (fun c => match c with AddText t => w_is_number W t = true | AddNum _ => True end) cells.
(** The coordinates of the values of two linear axes on the plot area. *)
Definition on_page (sx sy : scale) (ax bx ay by_ : R) (x0 y0 w h : R) (q : R * R) : vec2 :=
  vec (x0 + unit_pos (s_inverted sx) ax bx (fst q) * w) (y0 + unit_pos (s_inverted sy) ay by_ (snd q) * h).

Definition segment (a b : vec2) (width : xr) (c : color) : draw_command :=
  shape_of [MoveTo a; LineTo b] (stroke_with width c) fill0 None.
(** An error bar: the line between its ends, and a cap across each end. *)
Definition error_bar (d : R -> R) (from to : vec2) (width stroke : xr) (c : color) : list draw_command :=
  let n := normalize d (vsub d to from) in
  let side v s := vadd d v (vmul d (mk_vec2 (vy n) (xmul d (vx n) (Fin (-1)))) (xmul d width (Fin s))) in
  [segment from to stroke c;
   segment (side from (-(1/2))) (side from (1/2)) stroke c;
   segment (side to (-(1/2))) (side to (1/2)) stroke c].
(** An arrow: the line, and a filled head whose base is centred on the end of the line. *)
Definition arrow (d : R -> R) (from to : vec2) (size : xr) (c : color) : list draw_command :=
  let n := normalize d (vsub d to from) in
  let side := vmul d (mk_vec2 (vy n) (xmul d (vx n) (Fin (-1)))) (xmul d size (Fin 2)) in
  [segment from to size c;
   shape_of (outline [vadd d to side; vsub d to side; vadd d to (vmul d n (xmul d size (Fin 4)))]) stroke0 (solid c) None].
(** The fractions of the axis that belong to the numbers of a column. *)
Definition lengths (W : world) (s : scale) (b : databuf xr) (l : list xr) : Prop :=
  exists vs, databuf_to_numbers xr (parse_f64 (w_stod W)) b [] = Ret vs /\
    l = map (translate_magnitude (w_d W) (w_f W) s) vs.
Definition moved (d : R -> R) (v : vec2) (clip : rectangle) (q : xr * xr) : vec2 :=
  mk_vec2 (xadd d (vx v) (xmul d (fst q) (rw clip))) (xadd d (vy v) (xmul d (snd q) (rh clip))).
(** The place of a data point for vectors and rectangles. *)
Definition place (d : R -> R) (clip : rectangle) (q : xr * xr) : vec2 :=
  mk_vec2 (xadd d (rx clip) (xmul d (rw clip) (fst q))) (xadd d (ry clip) (xmul d (rh clip) (snd q))).
(** A rectangle around a point. *)
Definition box_around (d : R -> R) (c : vec2) (w h : xr) : path :=
  let hw := xdiv d w (Fin 2) in let hh := xdiv d h (Fin 2) in
  outline [mk_vec2 (xadd d (vx c) hw) (xadd d (vy c) hh); mk_vec2 (xadd d (vx c) hw) (xsub d (vy c) hh);
           mk_vec2 (xsub d (vx c) hw) (xsub d (vy c) hh); mk_vec2 (xsub d (vx c) hw) (xadd d (vy c) hh)].
(** A polygon with holes: one ring after the other. *)
Definition ring (l : list vec2) : path := match l with [] => [] | _ => outline l end.
Definition limited (d : R -> R) (clip : rectangle) (q : xr * xr) : vec2 :=
  mk_vec2 (xadd d (xmul d (clamp01 (fst q)) (rw clip)) (rx clip)) (xadd d (xmul d (clamp01 (snd q)) (rh clip)) (ry clip)).
Definition polygon_path (boundary : list vec2) (holes : list (list vec2)) : path :=
  ring boundary ++ flat_map ring holes.

(** An option with numbers written out, as in (data-x (list 1 2 3)). *)
Definition inline (k : string) (ts : list str) : expr := EList [ELit (s_ k); EList (ELit (s_ "list") :: map ELit ts)].
(** The text is a number for the C library and for the program. *)
Definition reads (W : world) (t : str) (v : R) : Prop := (exists n, w_stod W t = Some (Fin v, n)) /\ w_is_number W t = true.
