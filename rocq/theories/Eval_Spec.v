(** Vocabulary for whole programs and for the command line tool. *)
From Coq Require Import Reals.
From Verif Require Import Base Num Sexpr_Model Dispatch_Model Str_Model Data_Model Scale_Model Units_Model Color_Model
  Geo_Model Svg_Model Legend_Model Plist_Model Cmd_Model Cmd_Spec Style_Model Plot_Model Axis_Model Eval_Model.
Local Open Scope R_scope.

(** The settings of the page. *)
Definition setting_words : list str := [s_ "class"; s_ "size"; s_ "dpi"; s_ "font"; s_ "font-size"].
Definition is_setting (x : expr) : bool :=
  match option_of x with Some (k, _) => existsb (str_eqb k) setting_words | None => false end.
(** Every entry is of the form (word ...). *)
Definition well_formed (e : list expr) : Prop := Forall (fun x => option_of x <> None) e.

(** The size of a page: the name of a paper format or two lengths. *)
Definition page_measures (W : world) (a : list expr) (wd ht : measure) : Prop :=
  match a with
  | [n] => exists w h, assoc (node_text n) paper_sizes = Some (w, h) /\ wd = from_mm w /\ ht = from_mm h
  | [x; y] => measure_read (w_d W) (w_stod W) [x] = Ret wd /\ measure_read (w_d W) (w_stod W) [y] = Ret ht
  | _ => False
  end.
Definition last_or {T} (k : string) (e : list expr) (given : list expr -> T -> Prop) (old v : T) : Prop :=
  match last_args (s_ k) e with Some a => given a v | None => v = old end.
(** The page that the settings of a program describe, from a page with the defaults. *)
Definition page_of (W : world) (E : env) (e : list expr) (E' : env) : Prop :=
  last_or "size" e (fun a s => page_measures W a (fst s) (snd s)) (l_width (e_layer E), l_height (e_layer E)) (l_width (e_layer E'), l_height (e_layer E')) /\
  last_or "dpi" e (fun a v => exists n, a = [n] /\ expr_to_float64 (w_stod W) [n] = Ret v) (l_dpi (e_layer E)) (l_dpi (e_layer E')) /\
  last_or "font-size" e (fun a v => exists n, a = [n] /\ measure_read (w_d W) (w_stod W) [n] = Ret v) (l_font_size (e_layer E)) (l_font_size (e_layer E')) /\
  options [(s_ "font", set_font_cmd W)] e (e_font E) = Ret (e_font E') /\
  e_bg E' = e_bg E /\ e_fg E' = e_fg E /\ e_text_color E' = e_text_color E /\ e_palette E' = e_palette E /\ e_default E' = e_default E.
(** The class of a program. *)
Definition class_of (e : list expr) (name : str) : Prop := last_or "class" e (fun a v => expr_to_string a = Ret v) (s_ "plot") name.

(** The words that each command knows. *)
Definition words (l : list string) : list str := map s_ l.
Definition only_words (l : list str) (e : list expr) : Prop :=
  Forall (fun x => exists k a, option_of x = Some (k, a) /\ In k l) e.

(** The options of the commands of a plot. *)
Definition option_words : list (string * list string) :=
  [("lines"%string,
     ["data"; "data-format"; "data-x"; "data-y"; "limit-x"; "limit-x-min"; "limit-x-max"; "limit-y"; "limit-y-min";
     "limit-y-max"; "scale-x"; "scale-y"; "scale-x-padding"; "scale-y-padding"; "color"; "stroke-width";
     "stroke-style"; "stroke-color"; "marker-size"; "marker-shape"; "marker-color"; "labels"; "label-font-size";
     "label-color"; "label-padding"]%string);
   ("points"%string,
     ["data"; "data-format"; "data-x"; "data-y"; "limit-x"; "limit-x-min"; "limit-x-max"; "limit-y"; "limit-y-min";
     "limit-y-max"; "scale-x"; "scale-y"; "scale-x-padding"; "scale-y-padding"; "shape"; "shapes"; "size"; "sizes";
     "size-map"; "color"; "colors"; "color-map"; "labels"; "label-font-size"; "label-color"; "label-padding";
     "label-font"; "font"]%string);
   ("bars"%string,
     ["data-x"; "data-y"; "data-x-high"; "data-y-high"; "data-x-low"; "data-y-low"; "width"; "widths"; "offset";
     "offsets"; "stroke-color"; "stroke-width"; "stroke-style"; "fill"; "limit-x"; "limit-x-min"; "limit-x-max";
     "limit-y"; "limit-y-min"; "limit-y-max"; "scale-x"; "scale-y"; "scale-x-padding"; "scale-y-padding"; "color";
     "direction"; "labels"; "label-font-size"; "label-color"; "label-padding"]%string);
   ("areas"%string,
     ["data"; "data-format"; "data-x"; "data-y"; "data-x-high"; "data-y-high"; "data-x-low"; "data-y-low";
     "limit-x"; "limit-x-min"; "limit-x-max"; "limit-y"; "limit-y-min"; "limit-y-max"; "scale-x"; "scale-y";
     "scale-x-padding"; "scale-y-padding"; "stroke-color"; "stroke-width"; "stroke-style"; "stroke-high-color";
     "stroke-high-width"; "stroke-high-style"; "stroke-low-color"; "stroke-low-width"; "stroke-low-style"; "fill";
     "color"; "direction"]%string);
   ("errorbars"%string,
     ["data-x"; "data-y"; "data-x-low"; "data-x-high"; "data-y-low"; "data-y-high"; "limit-x"; "limit-x-min";
     "limit-x-max"; "limit-y"; "limit-y-min"; "limit-y-max"; "scale-x"; "scale-y"; "scale-x-padding";
     "scale-y-padding"; "width"; "color"; "colors"; "color-map"; "stroke-color"; "stroke-width"]%string);
   ("labels"%string,
     ["data"; "data-format"; "data-x"; "data-y"; "limit-x"; "limit-x-min"; "limit-x-max"; "limit-y"; "limit-y-min";
     "limit-y-max"; "scale-x"; "scale-y"; "scale-x-padding"; "scale-y-padding"; "labels"; "label-font-size";
     "label-color"; "label-padding"; "label-font"; "font"]%string);
   ("vectors"%string,
     ["data"; "data-format"; "data-x"; "data-y"; "data-dx"; "data-dy"; "limit-x"; "limit-x-min"; "limit-x-max";
     "limit-y"; "limit-y-min"; "limit-y-max"; "scale-x"; "scale-y"; "scale-x-padding"; "scale-y-padding"; "color";
     "colors"; "color-map"; "size"; "sizes"; "size-map"]%string);
   ("rectangles"%string,
     ["data"; "data-format"; "data-x"; "data-y"; "data-size-x"; "data-size-y"; "data-size"; "limit-x";
     "limit-x-min"; "limit-x-max"; "limit-y"; "limit-y-min"; "limit-y-max"; "scale-x"; "scale-y";
     "scale-x-padding"; "scale-y-padding"; "size"; "size-x"; "size-y"; "color"; "colors"; "color-map"]%string);
   ("polygons"%string,
     ["data"; "limit-x"; "limit-x-min"; "limit-x-max"; "limit-y"; "limit-y-min"; "limit-y-max"; "scale-x";
     "scale-y"; "color"; "fill"; "stroke-color"; "stroke-width"; "stroke-style"]%string);
   ("grid"%string,
     ["limit-x"; "limit-x-min"; "limit-x-max"; "limit-y"; "limit-y-min"; "limit-y-max"; "scale-x"; "scale-y";
     "scale-x-padding"; "scale-y-padding"; "tick-placement-x"; "tick-placement-y"; "color"; "stroke-color";
     "stroke-width"; "stroke-style"]%string);
   ("legend"%string,
     ["position"; "item-row-padding"; "item-column-padding"; "item-flow"; "item"; "padding"; "padding-top";
     "padding-right"; "padding-bottom"; "padding-left"; "margin"; "margin-top"; "margin-right"; "margin-bottom";
     "margin-left"; "border"; "border-color"; "border-top-color"; "border-right-color"; "border-bottom-color";
     "border-left-color"; "border-width"; "border-top-width"; "border-right-width"; "border-bottom-width";
     "border-left-width"; "background"]%string);
   ("background"%string,
     ["color"; "fill"; "stroke-color"; "stroke-width"; "stroke-style"]%string);
   ("axes"%string,
     ["position"; "scale-x"; "scale-y"; "scale-top"; "scale-right"; "scale-bottom"; "scale-left"; "limit-x";
     "limit-y"; "limit-top"; "limit-right"; "limit-bottom"; "limit-left"; "label-placement-x"; "label-placement-y";
     "label-placement-top"; "label-placement-right"; "label-placement-bottom"; "label-placement-left";
     "label-format"; "label-format-x"; "label-format-y"; "label-attach-top"; "label-attach-right";
     "label-attach-bottom"; "label-attach-left"; "label-offset-top"; "label-offset-right"; "label-offset-bottom";
     "label-offset-left"; "label-padding-top"; "label-padding-right"; "label-padding-bottom"; "label-padding-left";
     "label-rotate-top"; "label-rotate-right"; "label-rotate-bottom"; "label-rotate-left"; "label-format-top";
     "label-format-right"; "label-format-bottom"; "label-format-left"; "label-font-size"; "label-color";
     "label-color-x"; "label-color-y"; "label-color-top"; "label-color-right"; "label-color-bottom";
     "label-color-left"; "label-font"; "label-font-top"; "label-font-right"; "label-font-bottom";
     "label-font-left"; "label-font-size-x"; "label-font-size-y"; "label-font-size-top"; "label-font-size-right";
     "label-font-size-bottom"; "label-font-size-left"; "tick-placement-top"; "tick-placement-right";
     "tick-placement-bottom"; "tick-placement-left"; "tick-offset-top"; "tick-offset-right"; "tick-offset-bottom";
     "tick-offset-left"; "tick-length-top"; "tick-length-right"; "tick-length-bottom"; "tick-length-left";
     "title-x"; "title-y"; "title-top"; "title-right"; "title-bottom"; "title-left"; "title-font";
     "title-font-top"; "title-font-right"; "title-font-bottom"; "title-font-left"; "title-font-size";
     "title-font-size-top"; "title-font-size-right"; "title-font-size-bottom"; "title-font-size-left";
     "title-color"; "title-color-top"; "title-color-right"; "title-color-bottom"; "title-color-left";
     "title-offset-top"; "title-offset-right"; "title-offset-bottom"; "title-offset-left"; "title-padding-top";
     "title-padding-right"; "title-padding-bottom"; "title-padding-left"; "title-rotate-top"; "title-rotate-right";
     "title-rotate-bottom"; "title-rotate-left"; "margin"; "margin-top"; "margin-right"; "margin-bottom";
     "margin-left"; "border-width"; "border-width-top"; "border-width-right"; "border-width-bottom";
     "border-width-left"; "border-color"; "border-color-top"; "border-color-right"; "border-color-bottom";
     "border-color-left"; "border-style"; "border-style-top"; "border-style-right"; "border-style-bottom";
     "border-style-left"; "font"; "font-size"]%string)].
Definition item_words : list string :=
  ["font"; "label"; "label-align"; "label-margin"; "label-color"; "label-font"; "label-font-size";
  "marker-shape"; "marker-align"; "marker-margin"; "marker-color"; "marker-size"; "color"]%string.
(** The commands of a plot. *)
Definition plot_words : list string :=
  ["limit-x"; "limit-x-min"; "limit-x-max"; "limit-y"; "limit-y-min"; "limit-y-max"; "scale-x"; "scale-y";
  "scale-x-padding"; "scale-y-padding"; "areas"; "bars"; "errorbars"; "labels"; "lines"; "points"; "polygons";
  "rectangles"; "vectors"; "margin"; "margin-top"; "margin-right"; "margin-bottom"; "margin-left"; "axes";
  "axis"; "grid"; "background"; "legend"]%string.

(* ---------------- the legend ---------------- *)
(** The arguments of all options [k] of a list, in order. *)
Definition all_args (k : string) (l : list expr) : list (list expr) :=
  flat_map (fun x => match option_of x with Some (k', a) => if str_eqb k' (s_ k) then [a] else [] | None => [] end) l.
Definition one_of {T} (keys : list string) (rd : list expr -> T -> outcome T) : list (str * cmd T) :=
  map (fun k => (s_ k, rd)) keys.
(** An item as its options describe it, with what the page and the program give by default: the
    marker is three quarters as large as the text and stands at the left; the text starts 1.1
    times its size from the left. *)
Definition item_of (W : world) (E : env) (a : list expr) (i : item) : Prop :=
  let fs := page_font_size W E in
  let em v s := unit_from_em (w_d W) (k W v) s in
  let ms := xmul (w_d W) fs (Fin (3 / 4)) in
  last_or "label" a (fun b v => expr_to_string b = Ret v) [] (i_label i) /\
  last_or "label-align" a (fun b v => expr_to_enum align_lr b = Ret v) HLeft (i_align i) /\
  last_or "label-margin" a (fun b v => rd_size W E b = Ret v) (em (11 / 10) fs) (i_margin i) /\
  options (one_of ["label-color"%string] (rd_color W E)) a (e_text_color E) = Ret (i_color i) /\
  options (one_of ["font"; "label-font"]%string (rd_font W)) a (e_font E) = Ret (i_font i) /\
  last_or "label-font-size" a (fun b v => rd_font_size W E b = Ret v) fs (i_size i) /\
  last_or "marker-shape" a (fun b v => marker_configure W b = Ret v) Disk (i_marker i) /\
  last_or "marker-align" a (fun b v => expr_to_enum align_lr b = Ret v) HLeft (i_malign i) /\
  last_or "marker-margin" a (fun b v => rd_size W E b = Ret v) (em (2 / 10) ms) (i_mmargin i) /\
  options (one_of ["marker-color"; "color"]%string (rd_color W E)) a (e_text_color E) = Ret (i_mcolor i) /\
  last_or "marker-size" a (fun b v => rd_font_size W E b = Ret v) ms (i_msize i).
(** The measures of a legend as its options describe them: margin-top and the like override
    margin if they come later, and are overridden by it if they come before. *)
Definition four_sides (T : Type) (P : string -> T -> Prop) (s : T * T * T * T) : Prop :=
  let '(t, r, b, l) := s in P "top"%string t /\ P "right"%string r /\ P "bottom"%string b /\ P "left"%string l.
Definition legend_of (W : world) (E : env) (e : list expr) (g : legend) (borders : stroke_style * stroke_style * stroke_style * stroke_style) : Prop :=
  let em v := unit_from_em (w_d W) (k W v) (page_font_size W E) in
  let size k side dflt v := options [(s_ k, fun a (_ : xr) => rd_size W E a); (s_ k ++ s_ "-" ++ s_ side, fun a (_ : xr) => rd_size W E a)] e dflt = Ret v in
  options [(s_ "position", configure_position)] e (HLeft, VTop) = Ret (lg_h g, lg_v g) /\
  last_or "item-row-padding" e (fun b v => rd_size W E b = Ret v) (em (3 / 10)) (lg_row_pad g) /\
  last_or "item-column-padding" e (fun b v => rd_size W E b = Ret v) (em (14 / 10)) (lg_col_pad g) /\
  last_or "item-flow" e (fun b v => expr_to_switch b = Ret v) false (lg_flow g) /\
  four_sides xr (fun side v => size "margin"%string side (em (6 / 10)) v) (lg_margins g) /\
  four_sides xr (fun side v => size "padding"%string side (if existsb (String.eqb side) ["top"; "bottom"]%string then em (6 / 10) else em 1) v) (lg_padding g) /\
  four_sides stroke_style (fun side v =>
    options [(s_ "border", border_style_read);
             (s_ "border-color", updf s_color (rd_color W E) ss_with_color);
             (s_ "border-" ++ s_ side ++ s_ "-color", updf s_color (rd_color W E) ss_with_color);
             (s_ "border-width", upd (rd_size W E) ss_with_width);
             (s_ "border-" ++ s_ side ++ s_ "-width", upd (rd_size W E) ss_with_width)]
      e (ss_with_color (e_fg E) stroke0) = Ret v) borders /\
  lg_borders g = map4 s_width borders.
(** What is drawn for an item in its box: the text, then the marker, both at half the height. *)
Definition item_drawn (W : world) (E : env) (i : item) (b : rectangle) (part : list draw_command) : Prop :=
  exists text mark,
    draw_text_ W E (i_font i) (i_size i) (i_color i) (i_label i) (anchor (w_d W) (i_align i) (i_margin i) b) (i_align i) VCenter (Fin 0) = Ret text /\
    draw_marker W E (i_marker i) (anchor (w_d W) (i_malign i) (i_mmargin i) b) (i_msize i) (i_mcolor i) = Ret mark /\
    part = text ++ mark.
(** The room that an item needs. *)
Definition item_needs (W : world) (E : env) (i : item) (s : xr * xr) : Prop :=
  exists b, w_measure W (i_font i) (i_size i) (dpi E) (i_label i) = Ret b /\ s = item_size (w_d W) (rw b) (rh b) (i_margin i).

(* ---------------- the command line ---------------- *)
(** The argument of the last option of a kind. *)
Fixpoint last_opt (is : opt -> bool) (l : list opt) : option str :=
  match l with
  | [] => None
  | o :: r => match last_opt is r with Some a => Some a | None => if is o then Some (opt_arg o) else None end
  end.
Definition is_opt (i : nat) (c : option ascii) (o : opt) : bool :=
  match o with
  | Long j _ => Nat.eqb i j
  | Short c' _ => match c with Some c => Ascii.eqb c' c | None => false end
  | Bad => false
  end.
(** -e PATH and --export PATH, -f and --export-format, --font-load, -h and --help, -v and --version. *)
Definition is_export := is_opt 0 (Some "e"%char).
Definition is_format := is_opt 1 (Some "f"%char).
Definition is_font_load := is_opt 2 None.
Definition is_debug := is_opt 3 (Some "d"%char).
Definition is_help := is_opt 4 (Some "h"%char).
Definition is_version := is_opt 5 (Some "v"%char).
Definition known_opt (o : opt) : bool := is_export o || is_format o || is_font_load o || is_debug o || is_help o || is_version o.

Definition or_else (o : option str) (dflt : str) : str := match o with Some v => v | None => dflt end.
(** The format of the output: -f, or else by the ending of the name. *)
Definition wants (l : list opt) (png : bool) : Prop :=
  match last_opt is_format l with
  | Some ((_ :: _) as f) => f = (if png then s_ "png" else s_ "svg")
  | _ => ends_with (or_else (last_opt is_export l) []) (s_ ".png") = png
  end.

(** The picture for a command line: what it takes from reading the input to the SVG text. *)
Definition picture (W : world) (version : str) (defaults : outcome font) (stdin : str) (fonts : list str) (input : str) : outcome str :=
  let* E := layer_create W defaults fonts in
  let* text := if str_eqb input (s_ "-") then Ret stdin else match w_read_file W input with Some t => Ret t | None => Err end in
  let* (E', l) := eval_text W E text in
  svg_of W version E' l.
