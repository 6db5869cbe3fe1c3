(** A program from its text to the file: the program, and what a reader of the file has to find
    in it. Independent of the model of the commands. *)
From Coq Require Import Reals.
From Verif Require Import Base Num Plist_Spec Svg_Spec.
Local Open Scope R_scope.

(** lines { data-x: list(...); data-y: list(...); } *)
Definition line_chart (tx ty : list str) : ptree :=
  Block (s_ "lines") [Prop_ (s_ "data-x") [VFn (s_ "list") (map VLit tx)]; Prop_ (s_ "data-y") [VFn (s_ "list") (map VLit ty)]].

(** The line through points. *)
Definition through (pts : list (R * R)) : list (seg R) :=
  match pts with [] => [] | p :: r => SMove (fst p) (snd p) :: map (fun q => SLine (fst q) (snd q)) r end.
(** The whole page. *)
Definition page_of_size (w h : R) : list (seg R) := [SMove 0 0; SLine w 0; SLine w h; SLine 0 h; SClose].
(** Where a value of an axis from [lo] to [hi] lies on a side of length [n]. *)
Definition along (lo hi n v : R) : R := (v - lo) / (hi - lo) * n.
(** y counts from the top in the file. *)
Definition in_file (lx ux ly uy w h : R) (q : R * R) : R * R := (along lx ux w (fst q), h - along ly uy h (snd q)).

Definition black_ : level := (0, 0, 0)%nat.
Definition white_ : level := (255, 255, 255)%nat.
(** A white page with one black line of the given width, without gaps, and nothing else. *)
Definition line_picture (w h width : R) (pts : list (R * R)) : list (paint R level) :=
  [Fill (page_of_size w h) white_ 1 false; Stroke (through pts) black_ 1 width [] 0 false].

(** A number of the file is right to a thousandth. *)
Definition near (x : R) (q : decimal) : Prop := Rabs (dval q - x) <= 1 / 1000.
(** [file] is the picture [ps] of the size [w], [h]. *)
Definition shows_picture (file : str) (w h : R) (ps : list (paint R level)) : Prop :=
  exists qw qh qs, read_svg file = Some (qw, qh, qs) /\ near w qw /\ near h qh /\ Forall2 (paint_rel near eq) ps qs.
