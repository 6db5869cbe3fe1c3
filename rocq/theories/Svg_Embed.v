(** Drawings with real coordinates, for the statements about SVG output, and what has to be
    painted for them. *)
From Verif Require Import Base Num Color_Model Color_Spec Geo_Model Svg_Model Svg_Spec.
Local Open Scope R_scope.

Definition P2 (x y : R) : vec2 := mk_vec2 (Fin x) (Fin y).
Definition command (s : seg R) : path_cmd :=
  match s with
  | SMove x y => MoveTo (P2 x y)
  | SLine x y => LineTo (P2 x y)
  | SQuad a b x y => QuadTo (P2 a b) (P2 x y)
  | SCubic a b c e x y => CubicTo (P2 a b) (P2 c e) (P2 x y)
  | SClose => Close
  end.
(** A hatching: colour, angle, offset, stride, width; a stroke: colour, width; a dashed stroke
    has a pattern and an offset as well. *)
Record hatching := mk_hatching { h_color : rgba; h_angle : R; h_offset : R; h_stride : R; h_width : R }.
Record line_style := mk_line { l_color : rgba; l_width : R; l_pattern : list R; l_offset : R }.
Record shape := mk_shape {
  sh_outline : list (seg R); sh_fills : list rgba; sh_hatches : list hatching;
  sh_strokes : list (rgba * R); sh_dashes : list line_style; sh_aa : option bool }.

Definition compound_of (s : shape) : compound :=
  mk_compound (map col (sh_fills s))
    (map (fun h => mk_hatch (col (h_color h)) (Fin (h_angle h)) (Fin (h_offset h)) (Fin (h_stride h)) (Fin (h_width h))) (sh_hatches s))
    (map (fun p => mk_stroke (col (fst p)) (Fin (snd p))) (sh_strokes s))
    (map (fun l => mk_dash (col (l_color l)) (Fin (l_width l)) (map Fin (l_pattern l)) (Fin (l_offset l))) (sh_dashes s)).
Definition command_of (s : shape) (ss : stroke_style) (fs : fill_style) : draw_command :=
  mk_cmd (map command (sh_outline s)) (compound_of s) ss fs (sh_aa s).

(** y points up in a drawing and down in a file of height [h]; one double operation. *)
Definition flip (h : R) (s : seg R) : seg R :=
  let f y := rnd64 (h - y) in
  match s with
  | SMove x y => SMove x (f y)
  | SLine x y => SLine x (f y)
  | SQuad a b x y => SQuad a (f b) x (f y)
  | SCubic a b c e x y => SCubic a (f b) c (f e) x (f y)
  | SClose => SClose
  end.
(** The fills, then the hatchings (with these outlines), the strokes, the dashed strokes. *)
Definition expected (h : R) (s : shape) (hs : list (list (seg R))) : list (paint R rgba) :=
  let crisp := match sh_aa s with Some false => true | _ => false end in
  let o := map (flip h) (sh_outline s) in
  map (fun c => Fill o c (q_a c) crisp) (sh_fills s) ++
  map (fun p => Fill (map (flip h) (snd p)) (h_color (fst p)) (q_a (h_color (fst p))) crisp) (combine (sh_hatches s) hs) ++
  map (fun p => Stroke o (fst p) (q_a (fst p)) (snd p) [] 0 crisp) (sh_strokes s) ++
  map (fun l => Stroke o (l_color l) (q_a (l_color l)) (l_width l) (l_pattern l) (l_offset l) crisp) (sh_dashes s).

(** The coordinates of a segment. *)
Definition coords (s : seg R) : list R :=
  match s with
  | SMove x y | SLine x y => [x; y]
  | SQuad a b x y => [a; b; x; y]
  | SCubic a b c e x y => [a; b; c; e; x; y]
  | SClose => []
  end.
(** The outline of the hatching lines of a shape, by shape_hatch (see C62 and C63). *)
Definition hatched sort_cw fuel (s : shape) (h : hatching) (o : list (seg R)) : Prop :=
  shape_hatch rnd64 sort_cw fuel (path_to_polygon_simple (map command (sh_outline s)))
    (Fin (h_angle h)) (Fin (h_offset h)) (Fin (h_stride h)) (Fin (h_width h)) = Ret (map command o).
(** Coordinates are doubles; colour channels are in [0, 1]. *)
Definition good_outline (o : list (seg R)) : Prop := Forall (fun s => Forall is64 (coords s)) o.
Definition good_shape (s : shape) : Prop :=
  good_outline (sh_outline s) /\ Forall unit_interval (sh_fills s) /\
  Forall (fun h => unit_interval (h_color h)) (sh_hatches s) /\
  Forall (fun p => unit_interval (fst p)) (sh_strokes s) /\
  Forall (fun l => unit_interval (l_color l)) (sh_dashes s).
(** A colour level from 0 to 255 for each channel: the fraction is dropped. *)
Definition channel (x : R) (n : nat) : Prop := INR n <= rnd64 (x * 255) < INR n + 1.
Definition shown (c : rgba) (l : level) : Prop :=
  channel (q_r c) (fst (fst l)) /\ channel (q_g c) (snd (fst l)) /\ channel (q_b c) (snd l).

(** An entry of the draw list: the shape, the outlines of its hatchings, and the style fields
    of the command that the SVG output does not use. *)
Record item := mk_item { i_shape : shape; i_lines : list (list (seg R)); i_stroke : stroke_style; i_fill : fill_style }.
Definition good_item sort_cw fuel (i : item) : Prop :=
  good_shape (i_shape i) /\ Forall2 (hatched sort_cw fuel (i_shape i)) (sh_hatches (i_shape i)) (i_lines i) /\
  Forall good_outline (i_lines i).
Definition item_cmd (i : item) : draw_command := command_of (i_shape i) (i_stroke i) (i_fill i).
(** The rectangle from (0,0) to (w,h). *)
Definition rect (w h : R) : list (seg R) := [SMove 0 0; SLine w 0; SLine w h; SLine 0 h; SClose].

(** How a caller describes the inside and the outline of a shape. *)
Inductive inside := NoFill | Solid (c : rgba) | Hatched (h : hatching).
Inductive edge := NoLine | Line (c : rgba) (w : R) | Dashed (l : line_style).
Definition fill_style_of (f : inside) : fill_style :=
  match f with
  | NoFill => fill0
  | Solid c => mk_fill (Some (col c)) false (Fin 0) (Fin 0) (Fin 0) (Fin 0)
  | Hatched h => mk_fill (Some (col (h_color h))) true (Fin (h_angle h)) (Fin (h_offset h)) (Fin (h_stride h)) (Fin (h_width h))
  end.
Definition stroke_style_of (e : edge) : stroke_style :=
  match e with
  | NoLine => stroke0
  | Line c w => mk_stroke_style (Fin w) (col c) false (Fin 0) []
  | Dashed l => mk_stroke_style (Fin (l_width l)) (col (l_color l)) true (Fin (l_offset l)) (map Fin (l_pattern l))
  end.
Definition line_width (e : edge) : R := match e with NoLine => 0 | Line _ w => w | Dashed l => l_width l end.
(** A shape with one more fill and one more line. *)
Definition with_style (f : inside) (e : edge) (s : shape) : shape :=
  mk_shape (sh_outline s)
    (sh_fills s ++ match f with Solid c => [c] | _ => [] end)
    (sh_hatches s ++ match f with Hatched h => [h] | _ => [] end)
    (sh_strokes s ++ match e with Line c w => [(c, w)] | _ => [] end)
    (sh_dashes s ++ match e with Dashed l => [l] | _ => [] end)
    (sh_aa s).

(** All numbers of a shape are below 2^29 in magnitude. *)
Definition small (x : R) : Prop := Rabs x <= 536870912.
Definition small_outline (o : list (seg R)) : Prop := Forall (fun s => Forall small (coords s)) o.
Definition small_item (i : item) : Prop :=
  small_outline (sh_outline (i_shape i)) /\ Forall small_outline (i_lines i) /\
  Forall (fun p => small (snd p)) (sh_strokes (i_shape i)) /\
  Forall (fun l => small (l_width l) /\ Forall small (l_pattern l) /\ small (l_offset l)) (sh_dashes (i_shape i)).
