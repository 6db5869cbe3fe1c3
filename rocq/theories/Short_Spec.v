(** Vocabulary: options that stand for several others. *)
From Verif Require Import Base Sexpr_Model Cmd_Spec.
Local Open Scope string_scope.
Local Open Scope list_scope.

(** The options of one kind for the four sides, for the horizontal and for the vertical axes. *)
Definition of_sides (k : string) : list string := [(k ++ "-top")%string; (k ++ "-right")%string; (k ++ "-bottom")%string; (k ++ "-left")%string].
Definition of_x (k : string) : list string := [(k ++ "-top")%string; (k ++ "-bottom")%string].
Definition of_y (k : string) : list string := [(k ++ "-right")%string; (k ++ "-left")%string].
(** (command, (option, the options it stands for, with the same arguments)). *)
Definition shorthands : list (string * (string * list string)) :=
  [("lines", ("color", ["stroke-color"; "marker-color"]));
   ("points", ("font", ["label-font"])); ("labels", ("font", ["label-font"]));
   ("bars", ("data-x-high", ["data-x"])); ("bars", ("data-y-high", ["data-y"]));
   ("areas", ("stroke-color", ["stroke-high-color"; "stroke-low-color"]));
   ("areas", ("stroke-width", ["stroke-high-width"; "stroke-low-width"]));
   ("areas", ("stroke-style", ["stroke-high-style"; "stroke-low-style"]));
   ("errorbars", ("color", ["stroke-color"]));
   ("bars", ("color", ["stroke-color"; "fill"])); ("polygons", ("color", ["stroke-color"; "fill"])); ("background", ("color", ["stroke-color"; "fill"]));
   ("areas", ("color", ["stroke-high-color"; "stroke-low-color"; "fill"]));
   ("rectangles", ("size", ["size-x"; "size-y"])); ("rectangles", ("data-size", ["data-size-x"; "data-size-y"]));
   ("grid", ("color", ["stroke-color"]));
   ("axis", ("font", ["label-font"; "title-font"])); ("axis", ("font-size", ["label-font-size"; "title-font-size"]));
   ("axes", ("font", ["label-font"; "title-font"])); ("axes", ("font-size", ["title-font-size"; "label-font-size"]));
   ("legend", ("border-color", ["border-top-color"; "border-right-color"; "border-bottom-color"; "border-left-color"]));
   ("legend", ("border-width", ["border-top-width"; "border-right-width"; "border-bottom-width"; "border-left-width"]));
   ("plot", ("margin", of_sides "margin")); ("legend", ("margin", of_sides "margin")); ("legend", ("padding", of_sides "padding"))] ++
  map (fun k => ("axes", (k, of_sides k))) ["margin"; "label-format"; "label-font"; "label-font-size"; "label-color";
    "title-font"; "title-font-size"; "title-color"; "border-width"; "border-color"; "border-style"] ++
  map (fun k => ("axes", ((k ++ "-x")%string, of_x k))) ["scale"; "limit"; "title"; "label-placement"; "label-format"; "label-font-size"; "label-color"] ++
  map (fun k => ("axes", ((k ++ "-y")%string, of_y k))) ["scale"; "limit"; "title"; "label-placement"; "label-format"; "label-font-size"; "label-color"].
(** The commands with the limits of two scales. *)
Definition limit_commands : list string :=
  ["plot"; "areas"; "bars"; "errorbars"; "grid"; "labels"; "lines"; "points"; "polygons"; "rectangles"; "vectors"].

(** An option of a command, and the options it stands for. *)
Inductive stands_for (command : string) : expr -> list expr -> Prop :=
| sf_short k ks a : In (command, (k, ks)) shorthands ->
    stands_for command (EList (EVal (s_ k) :: a)) (map (fun k' => EList (EVal (s_ k') :: a)) ks)
| sf_limit_x a b : In command limit_commands -> stands_for command (EList [EVal (s_ "limit-x"); a; b]) [EList [EVal (s_ "limit-x-min"); a]; EList [EVal (s_ "limit-x-max"); b]]
| sf_limit_y a b : In command limit_commands -> stands_for command (EList [EVal (s_ "limit-y"); a; b]) [EList [EVal (s_ "limit-y-min"); a]; EList [EVal (s_ "limit-y-max"); b]]
| sf_limit a b : command = "axis" -> stands_for command (EList [EVal (s_ "limit"); a; b]) [EList [EVal (s_ "limit-min"); a]; EList [EVal (s_ "limit-max"); b]].
(** The commands of a plot that draw. *)
Definition drawing_commands : list string :=
  ["areas"; "background"; "bars"; "errorbars"; "labels"; "lines"; "points"; "polygons"; "rectangles"; "vectors"; "axes"; "axis"; "grid"; "legend"].
