(** Vocabulary for the automatic ranges of a plot: the data of its elements. *)
From Coq Require Import Reals.
From Verif Require Import Base Num Sexpr_Model Dispatch_Model Data_Model Scale_Model Geo_Model Svg_Model Cmd_Model Cmd_Spec Plot_Model Plot_Spec Axis_Model Eval_Model.
Local Open Scope R_scope.

Inductive axis_ := X | Y.
Definition of {A} (ax : axis_) (x y : A) : A := match ax with X => x | Y => y end.
Definition name (ax : axis_) : string := of ax "x"%string "y"%string.
(** The scale of an axis of a plot, and of its options. *)
Definition scale_of (ax : axis_) (p : plot) : scale := of ax (p_sx p) (p_sy p).

(** The numbers in a column. *)
Definition numbers (W : world) (b : databuf xr) : outcome (list xr) := databuf_to_numbers xr (parse_f64 (w_stod W)) b [].
Fixpoint all_numbers (W : world) (bs : list (databuf xr)) : outcome (list xr) :=
  match bs with
  | [] => Ret []
  | b :: r => let* v := numbers W b in let* vs := all_numbers W r in Ret (v ++ vs)
  end.
(** The data of each kind of element on an axis. For vectors and rectangles this is where they
    are, for bars and areas without a low column only the far side. *)
Definition points_data (W : world) (ax : axis_) (a : list expr) : outcome (list xr) :=
  let* (bx, by_) := load_points W (source_of a) empty empty in numbers W (of ax bx by_).
Definition element_data (W : world) (ax : axis_) : list (str * (list expr -> outcome (list xr))) :=
  let col k a := column W k a in
  [(s_ "lines", fun a => let* (b, _) := load_lines W (source_of a) in numbers W (of ax (fst b) (snd b)));
   (s_ "points", points_data W ax); (s_ "labels", points_data W ax);
   (s_ "vectors", points_data W ax); (s_ "rectangles", points_data W ax);
   (s_ "bars", fun a =>
      let* hi := col (of ax ["data-x"; "data-x-high"] ["data-y"; "data-y-high"])%string a in
      let* lo := col (of ax ["data-x-low"] ["data-y-low"])%string a in all_numbers W [hi; lo]);
   (s_ "areas", fun a =>
      let* hx := col ["data-x-high"]%string a in let* hy := col ["data-y-high"]%string a in
      let* (bx, by_) := load_points W (source_of a) hx hy in
      let* lo := col (of ax ["data-x-low"] ["data-y-low"])%string a in all_numbers W [of ax bx by_; lo]);
   (s_ "errorbars", fun a =>
      let* v := col (of ax ["data-x"] ["data-y"])%string a in
      let* lo := col (of ax ["data-x-low"] ["data-y-low"])%string a in
      let* hi := col (of ax ["data-x-high"] ["data-y-high"])%string a in all_numbers W [v; lo; hi]);
   (s_ "polygons", fun a =>
      let* ps := options [(s_ "data", load_polys W)] a [] in
      Ret (map (fun v => of ax (vx v) (vy v)) (flat_map fst ps)))].
(** All data of a program on an axis. *)
Fixpoint plot_data (W : world) (ax : axis_) (e : list expr) : outcome (list xr) :=
  match e with
  | [] => Ret []
  | x :: r =>
      let* v := match option_of x with
                | Some (k, a) => match assoc k (element_data W ax) with Some f => f a | None => Ret [] end
                | None => Err
                end in
      let* vs := plot_data W ax r in Ret (v ++ vs)
  end.
(** No element stands behind an option that makes the axis categorical. *)
Definition numeric_axis (W : world) (ax : axis_) (e : list expr) (s0 : scale) : Prop :=
  forall pre post s, e = pre ++ post -> element_scale W (name ax) pre s0 = Ret s -> s_kind s <> Categorical.

(** What each command of a plot draws. *)
Definition drawings (W : world) (E : env) : list (str * (plot -> list expr -> outcome (list draw_command))) :=
  [(s_ "lines", lines_draw W E); (s_ "points", points_draw W E); (s_ "labels", labels_draw W E);
   (s_ "bars", bars_draw W E); (s_ "areas", areas_draw W E); (s_ "errorbars", errorbars_draw W E);
   (s_ "vectors", vectors_draw W E); (s_ "rectangles", rectangles_draw W E);
   (s_ "polygons", fun p a => let* (_, l) := polygons_draw W E p a in Ret l);
   (s_ "axes", fun p a => let* (_, l) := plot_axes W E p a in Ret l);
   (s_ "axis", plot_axis W E); (s_ "grid", plot_grid W E); (s_ "background", set_background W E);
   (s_ "legend", legend_cmd W E)].
(** An axis without limits of its own. *)
Definition free_axis (s : scale) (pad : R) : Prop :=
  s_kind s = Linear /\ s_min s = None /\ s_max s = None /\ s_padding s = Fin pad.
