(** What the options of a command are about. Two options that are about different things may be
    given in either order. The tables below say, for each command and for each of its options,
    which things it sets, going by the names of the options. *)
From Coq Require Import Reals Permutation.
From Verif Require Import Base Num Sexpr_Model Cmd_Model Cmd_Spec.
Local Open Scope string_scope.

(** option name -> the things it is about *)
Definition topics := list (string * list string).
Fixpoint topics_of (T : topics) (k : str) : option (list string) :=
  match T with
  | [] => None
  | (n, l) :: r => if str_eqb k (s_ n) then Some l else topics_of r k
  end.
(** Two options about different things. *)
Definition apart (T : topics) (x y : expr) : Prop :=
  exists kx ax ky ay tx ty, option_of x = Some (kx, ax) /\ option_of y = Some (ky, ay) /\
    topics_of T kx = Some tx /\ topics_of T ky = Some ty /\ (forall t, In t tx -> ~ In t ty).
(** One list of options obtained from the other by exchanging neighbours that are about different
    things, any number of times. *)
Inductive reordered (T : topics) : list expr -> list expr -> Prop :=
| ro_same l : reordered T l l
| ro_swap l x y r : apart T x y -> reordered T (l ++ x :: y :: r) (l ++ y :: x :: r)
| ro_trans a b c : reordered T a b -> reordered T b c -> reordered T a c.
(** All options of a list are about different things. *)
Definition all_apart (T : topics) (l : list expr) : Prop := ForallOrdPairs (apart T) l.

(** ---- the tables ---- *)
(** "scale-x: categorical" sets the padding to a half. *)
Definition about_axis (x : string) : topics :=
  [("limit-" ++ x, [x ++ " minimum"; x ++ " maximum"]);
   ("limit-" ++ x ++ "-min", [x ++ " minimum"]);
   ("limit-" ++ x ++ "-max", [x ++ " maximum"]);
   ("scale-" ++ x, [x ++ " kind"; x ++ " padding"])].
Definition about_padding : topics := [("scale-x-padding", ["x padding"]); ("scale-y-padding", ["y padding"])].
Definition about_scales : topics := (about_axis "x" ++ about_axis "y" ++ about_padding)%list.
Definition about_source : topics :=
  [("data", ["source"]); ("data-format", ["source format"]); ("data-x", ["x data"]); ("data-y", ["y data"])].
Definition about_labels : topics :=
  [("labels", ["labels"]); ("label-font-size", ["label size"]); ("label-color", ["label colour"]);
   ("label-padding", ["label padding"])].
Definition about_font : topics := [("label-font", ["label font"]); ("font", ["label font"])].
Definition about_colors : topics :=
  [("color", ["colour"]); ("colors", ["colours"]); ("color-map", ["colour map"])].
Definition about_sizes : topics :=
  [("size", ["size"]); ("sizes", ["sizes"]); ("size-map", ["size map"])].
(** "stroke-style: none" sets the width to zero. *)
Definition about_stroke : topics :=
  [("stroke-color", ["line colour"]); ("stroke-width", ["line width"]);
   ("stroke-style", ["line width"; "line dash"])].

Definition about_lines : topics :=
  (about_source ++ about_scales ++ about_stroke ++ about_labels ++
   [("color", ["line colour"; "marker colour"]); ("marker-size", ["marker size"]);
    ("marker-shape", ["marker shape"]); ("marker-color", ["marker colour"])])%list.
Definition about_points : topics :=
  (about_source ++ about_scales ++ about_sizes ++ about_colors ++ about_labels ++ about_font ++
   [("shape", ["shape"]); ("shapes", ["shapes"])])%list.
Definition about_bars : topics :=
  ([("data-x", ["x data"]); ("data-x-high", ["x data"]); ("data-y", ["y data"]); ("data-y-high", ["y data"]);
    ("data-x-low", ["x low data"]); ("data-y-low", ["y low data"]);
    ("width", ["width"]); ("widths", ["widths"]); ("offset", ["offset"]); ("offsets", ["offsets"]);
    ("fill", ["fill"]); ("color", ["line colour"; "fill"]); ("direction", ["direction"])] ++
   about_scales ++ about_stroke ++ about_labels)%list.
Definition about_areas : topics :=
  (about_source ++
   [("data-x-high", ["x high data"]); ("data-y-high", ["y high data"]);
    ("data-x-low", ["x low data"]); ("data-y-low", ["y low data"])] ++
   about_scales ++
   [("stroke-color", ["high colour"; "low colour"]); ("stroke-width", ["high width"; "low width"]);
    ("stroke-style", ["high width"; "high dash"; "low width"; "low dash"]);
    ("stroke-high-color", ["high colour"]); ("stroke-high-width", ["high width"]);
    ("stroke-high-style", ["high width"; "high dash"]);
    ("stroke-low-color", ["low colour"]); ("stroke-low-width", ["low width"]);
    ("stroke-low-style", ["low width"; "low dash"]);
    ("fill", ["fill"]); ("color", ["high colour"; "low colour"; "fill"]); ("direction", ["direction"])])%list.
Definition about_errorbars : topics :=
  ([("data-x", ["x data"]); ("data-y", ["y data"]);
    ("data-x-low", ["x low data"]); ("data-x-high", ["x high data"]);
    ("data-y-low", ["y low data"]); ("data-y-high", ["y high data"])] ++
   about_scales ++ about_colors ++
   [("width", ["width"]); ("stroke-color", ["colour"]); ("stroke-width", ["line width"])])%list.
Definition about_labels_ : topics := (about_source ++ about_scales ++ about_labels ++ about_font)%list.
Definition about_vectors : topics :=
  (about_source ++ [("data-dx", ["dx data"]); ("data-dy", ["dy data"])] ++ about_scales ++
   about_colors ++ about_sizes)%list.
Definition about_rectangles : topics :=
  (about_source ++
   [("data-size-x", ["x size data"]); ("data-size-y", ["y size data"]);
    ("data-size", ["x size data"; "y size data"]);
    ("size", ["x size"; "y size"]); ("size-x", ["x size"]); ("size-y", ["y size"])] ++
   about_scales ++ about_colors)%list.
Definition about_polygons : topics :=
  ([("data", ["data"]); ("color", ["line colour"; "fill"]); ("fill", ["fill"])] ++
   about_axis "x" ++ about_axis "y" ++ about_stroke)%list.
Definition about_grid : topics :=
  (about_scales ++
   [("tick-placement-x", ["x ticks"]); ("tick-placement-y", ["y ticks"]); ("color", ["line colour"])] ++
   about_stroke)%list.
Definition about_background : topics :=
  ([("color", ["line colour"; "fill"]); ("fill", ["fill"])] ++ about_stroke)%list.
Definition about_one_axis : topics :=
  [("align", ["align"]); ("scale", ["kind"; "padding"]); ("limit", ["minimum"; "maximum"]);
   ("limit-min", ["minimum"]); ("limit-max", ["maximum"]);
   ("label-font", ["label font"]); ("label-placement", ["label placement"]); ("label-format", ["label format"]);
   ("label-attach", ["label attach"]); ("label-offset", ["label offset"]); ("label-padding", ["label padding"]);
   ("label-rotate", ["label rotation"]); ("label-font-size", ["label size"]); ("label-color", ["label colour"]);
   ("tick-placement", ["tick placement"]); ("tick-offset", ["tick offset"]); ("tick-length", ["tick length"]);
   ("title", ["title"]); ("title-font", ["title font"]); ("title-font-size", ["title size"]);
   ("title-color", ["title colour"]); ("title-offset", ["title offset"]); ("title-padding", ["title padding"]);
   ("title-rotate", ["title rotation"]);
   ("border-width", ["border width"]); ("border-color", ["border colour"]); ("border-style", ["border width"]);
   ("font", ["label font"; "title font"]); ("font-size", ["label size"; "title size"])].
Definition about_item : topics :=
  [("font", ["font"]); ("label", ["label"]); ("label-align", ["label align"]); ("label-margin", ["label margin"]);
   ("label-color", ["label colour"]); ("label-font", ["font"]); ("label-font-size", ["label size"]);
   ("marker-shape", ["marker shape"]); ("marker-align", ["marker align"]); ("marker-margin", ["marker margin"]);
   ("marker-color", ["marker colour"]); ("marker-size", ["marker size"]); ("color", ["marker colour"])].
Definition four (s : string) : list string :=
  ["top " ++ s; "right " ++ s; "bottom " ++ s; "left " ++ s].
Definition about_margins (o s : string) : topics :=
  [(o, four s); (o ++ "-top", ["top " ++ s]); (o ++ "-right", ["right " ++ s]);
   (o ++ "-bottom", ["bottom " ++ s]); (o ++ "-left", ["left " ++ s])].
Definition about_border (o s : string) : topics :=
  [("border-" ++ o, four s); ("border-top-" ++ o, ["top " ++ s]); ("border-right-" ++ o, ["right " ++ s]);
   ("border-bottom-" ++ o, ["bottom " ++ s]); ("border-left-" ++ o, ["left " ++ s])].
Definition about_legend : topics :=
  ([("position", ["position"]); ("item-row-padding", ["row padding"]); ("item-column-padding", ["column padding"]);
    ("item-flow", ["flow"]); ("item", ["items"]); ("background", ["background"])] ++
   about_margins "padding" "padding" ++ about_margins "margin" "margin" ++
   [("border", four "width")] ++ about_border "color" "colour" ++ about_border "width" "width")%list.
(** The options of axes: for all four, for two or for one of them. *)
Definition on_side (side : string) (ts : list string) : list string := map (fun t => side ++ " " ++ t) ts.
Definition about_sides (o : string) (ts : list string) : topics :=
  [(o ++ "-top", on_side "top" ts); (o ++ "-right", on_side "right" ts);
   (o ++ "-bottom", on_side "bottom" ts); (o ++ "-left", on_side "left" ts)].
Definition about_dims (o : string) (ts : list string) : topics :=
  [(o ++ "-x", (on_side "top" ts ++ on_side "bottom" ts)%list); (o ++ "-y", (on_side "right" ts ++ on_side "left" ts)%list)].
Definition about_every (o : string) (ts : list string) : topics :=
  [(o, (on_side "top" ts ++ on_side "right" ts ++ on_side "bottom" ts ++ on_side "left" ts)%list)].
Definition about_axes : topics :=
  ([("position", ["position"])] ++
   about_dims "scale" ["kind"; "padding"] ++ about_sides "scale" ["kind"; "padding"] ++
   about_dims "limit" ["minimum"; "maximum"] ++ about_sides "limit" ["minimum"; "maximum"] ++
   about_dims "label-placement" ["label placement"] ++ about_sides "label-placement" ["label placement"] ++
   about_every "label-format" ["label format"] ++ about_dims "label-format" ["label format"] ++ about_sides "label-format" ["label format"] ++
   about_sides "label-attach" ["label attach"] ++ about_sides "label-offset" ["label offset"] ++
   about_sides "label-padding" ["label padding"] ++ about_sides "label-rotate" ["label rotation"] ++
   about_every "label-font-size" ["label size"] ++ about_dims "label-font-size" ["label size"] ++ about_sides "label-font-size" ["label size"] ++
   about_every "label-color" ["label colour"] ++ about_dims "label-color" ["label colour"] ++ about_sides "label-color" ["label colour"] ++
   about_every "label-font" ["label font"] ++ about_sides "label-font" ["label font"] ++
   about_sides "tick-placement" ["tick placement"] ++ about_sides "tick-offset" ["tick offset"] ++ about_sides "tick-length" ["tick length"] ++
   about_dims "title" ["title"] ++ about_sides "title" ["title"] ++
   about_every "title-font" ["title font"] ++ about_sides "title-font" ["title font"] ++
   about_every "title-font-size" ["title size"] ++ about_sides "title-font-size" ["title size"] ++
   about_every "title-color" ["title colour"] ++ about_sides "title-color" ["title colour"] ++
   about_sides "title-offset" ["title offset"] ++ about_sides "title-padding" ["title padding"] ++ about_sides "title-rotate" ["title rotation"] ++
   about_margins "margin" "margin" ++
   about_every "border-width" ["border width"] ++ about_sides "border-width" ["border width"] ++
   about_every "border-color" ["border colour"] ++ about_sides "border-color" ["border colour"] ++
   about_every "border-style" ["border width"] ++ about_sides "border-style" ["border width"] ++
   about_every "font" ["label font"; "title font"] ++ about_every "font-size" ["label size"; "title size"])%list.
(** Settings of the plot and of the page. *)
Definition about_plot : topics := (about_scales ++ about_margins "margin" "margin")%list.
Definition about_page : topics :=
  [("class", ["class"]); ("size", ["size"]); ("dpi", ["dpi"]); ("font", ["font"]); ("font-size", ["font size"])].

(** ---- whole programs ---- *)
Definition commands : list (string * topics) :=
  [("lines", about_lines); ("points", about_points); ("bars", about_bars); ("areas", about_areas);
   ("errorbars", about_errorbars); ("labels", about_labels_); ("vectors", about_vectors);
   ("rectangles", about_rectangles); ("polygons", about_polygons); ("grid", about_grid);
   ("axis", about_one_axis); ("axes", about_axes); ("background", about_background); ("legend", about_legend)].
(** A command with its options in another order; in a legend also those of its items. *)
Inductive same_command : expr -> expr -> Prop :=
| sm_options x x' c T o o' : option_of x = Some (s_ c, o) -> option_of x' = Some (s_ c, o') ->
    In (c, T) commands -> reordered T o o' -> same_command x x'
| sm_item x x' i i' l r o o' : option_of x = Some (s_ "legend", (l ++ i :: r)%list) -> option_of x' = Some (s_ "legend", (l ++ i' :: r)%list) ->
    option_of i = Some (s_ "item", o) -> option_of i' = Some (s_ "item", o') ->
    reordered about_item o o' -> same_command x x'.
(** The settings of the page may stand anywhere. *)
Definition of_page (x : expr) : Prop := exists k a t, option_of x = Some (k, a) /\ topics_of about_page k = Some t.
Inductive same_program : list expr -> list expr -> Prop :=
| sp_same l : same_program l l
| sp_page l x y r : of_page x -> ~ of_page y -> same_program (l ++ x :: y :: r) (l ++ y :: x :: r)
| sp_pages l x y r : apart about_page x y -> same_program (l ++ x :: y :: r) (l ++ y :: x :: r)
| sp_plot l x y r : apart about_plot x y -> same_program (l ++ x :: y :: r) (l ++ y :: x :: r)
| sp_command l x x' r : same_command x x' -> same_program (l ++ x :: r) (l ++ x' :: r)
| sp_sym a b : same_program a b -> same_program b a
| sp_trans a b c : same_program a b -> same_program b c -> same_program a c.
