(** Vocabulary for the properties of styles, markers and drawing programs. *)
From Coq Require Import NArith Reals.
From Verif Require Import Base Num Sexpr_Model Dispatch_Model Scale_Model Units_Model Color_Model Geo_Model Svg_Model Utf8_Spec Cmd_Model Cmd_Spec Style_Model Eval_Spec.
Local Open Scope R_scope.

Definition word (n : string) (x : expr) : Prop := x = EVal (s_ n) \/ x = ELit (s_ n).
(** The first argument is one of the names, alone or as (name parameters); what follows it is
    not looked at. *)
Inductive chosen (names : list string) : list expr -> list expr -> Prop :=
| ch_word n w r : In n names -> word n w -> chosen names (w :: r) []
| ch_list n w a r : In n names -> word n w -> chosen names (EList (w :: a) :: r) a.
(** Every parameter is one of the options, with arguments that can be read. *)
Definition parameters (ok : list (string * (list expr -> Prop))) (a : list expr) : Prop :=
  Forall (fun x => exists k P b, In (k, P) ok /\ option_of x = Some (s_ k, b) /\ P b) a.
Definition can {T} (rd : list expr -> outcome T) (b : list expr) : Prop := exists v, rd b = Ret v.

Section Spec.
  Variable W : world.
  Variable E : env.
  Notation pt := (pt W E).
  (** A list of lengths, one per argument. *)
  Definition lengths (rd : list expr -> outcome xr) (b : list expr) (l : list xr) : Prop :=
    Forall2 (fun x v => rd [x] = Ret v) b l.

  (** stroke-style: none, solid, dash or dashed (pattern l1 l2 ...) (offset l). *)
  Definition dash_parameters : list (string * (list expr -> Prop)) :=
    [("pattern"%string, fun b => exists l, lengths (rd_measuren W E) b l); ("offset"%string, can (rd_measuren W E))].
  Inductive stroke_style_means (e : list expr) (s : stroke_style) : stroke_style -> Prop :=
  | sm_none a : chosen ["none"%string] e a ->
      stroke_style_means e s (mk_stroke_style (Fin 0) (s_color s) (s_dashed s) (s_offset s) (s_pattern s))
  | sm_solid a : chosen ["solid"%string] e a ->
      stroke_style_means e s (mk_stroke_style (s_width s) (s_color s) false (s_offset s) (s_pattern s))
  | sm_dash a o p : chosen ["dash"; "dashed"]%string e a -> parameters dash_parameters a ->
      last_or "pattern" a (lengths (rd_measuren W E)) [pt 2; pt 2] p ->
      last_or "offset" a (fun b v => rd_measuren W E b = Ret v) (s_offset s) o ->
      stroke_style_means e s (mk_stroke_style (s_width s) (s_color s) true o p).

  (** Parameters of a hatching. *)
  Definition hatch_parameters (rd : list expr -> outcome xr) : list (string * (list expr -> Prop)) :=
    [("color"%string, can (fun b => rd_color W E b black)); ("angle"%string, can (rd_float W));
     ("offset"%string, can rd); ("stride"%string, can rd); ("width"%string, can rd)].
  Definition hatch_means (rd : list expr -> outcome xr) (stride width : xr) (a : list expr) (h : fill_hatch) : Prop :=
    parameters (hatch_parameters rd) a /\
    options (one_of ["color"%string] (rd_color W E)) a black = Ret (fh_color h) /\
    last_or "angle" a (fun b v => rd_float W b = Ret v) (Fin (-45)) (fh_angle h) /\
    last_or "offset" a (fun b v => rd b = Ret v) (Fin 0) (fh_offset h) /\
    last_or "stride" a (fun b v => rd b = Ret v) stride (fh_stride h) /\
    last_or "width" a (fun b v => rd b = Ret v) width (fh_width h).
  (** fill: none, hatch or hatched with parameters, or a colour. *)
  Inductive fill_style_means (e : list expr) (s : fill_style) : fill_style -> Prop :=
  | fm_none a : chosen ["none"%string] e a ->
      fill_style_means e s (mk_fill None (f_hatch s) (f_angle s) (f_offset s) (f_stride s) (f_width s))
  | fm_hatch a h : chosen ["hatch"; "hatched"]%string e a -> hatch_means (rd_measuren W E) (pt 3) (pt 1) a h ->
      fill_style_means e s (mk_fill (Some (fh_color h)) true (fh_angle h) (fh_offset h) (fh_stride h) (fh_width h))
  | fm_color c : (forall a, ~ chosen ["none"; "hatch"; "hatched"]%string e a) -> rd_color W E e black = Ret c ->
      fill_style_means e s (mk_fill (Some c) (f_hatch s) (f_angle s) (f_offset s) (f_stride s) (f_width s)).

  (** The styles of drawing programs: what one option adds. *)
  Definition stroke_parameters : list (string * (list expr -> Prop)) :=
    [("color"%string, can (fun b => rd_color W E b black)); ("width"%string, can (rd_size W E))].
  Inductive style_adds : str -> list expr -> compound -> Prop :=
  | sa_color e c : rd_color W E e black = Ret c -> style_adds (s_ "color") e (mk_compound [c] [] [] [])
  | sa_fill e c : (forall a, ~ chosen ["solid"; "hatch"]%string e a) -> rd_color W E e black = Ret c ->
      style_adds (s_ "fill") e (mk_compound [c] [] [] [])
  | sa_solid e a c : chosen ["solid"]%string e a -> rd_color W E a black = Ret c ->
      style_adds (s_ "fill") e (mk_compound [c] [] [] [])
  | sa_hatch e a h : chosen ["hatch"]%string e a -> hatch_means (rd_size W E) (pt 6) (pt 2) a h ->
      style_adds (s_ "fill") e (mk_compound [] [h] [] [])
  | sa_stroke e a c w : chosen ["solid"]%string e a -> parameters stroke_parameters a ->
      options (one_of ["color"%string] (rd_color W E)) a black = Ret c ->
      last_or "width" a (fun b v => rd_size W E b = Ret v) (pt 1) w ->
      style_adds (s_ "stroke") e (mk_compound [] [] [mk_stroke c w] [])
  | sa_dash e a c w p o : chosen ["dash"]%string e a ->
      parameters (stroke_parameters ++ [("pattern"%string, fun b => exists l, lengths (rd_size W E) b l); ("offset"%string, can (rd_size W E))]) a ->
      options (one_of ["color"%string] (rd_color W E)) a black = Ret c ->
      last_or "width" a (fun b v => rd_size W E b = Ret v) (pt 1) w ->
      last_or "pattern" a (lengths (rd_size W E)) [pt 4; pt 4] p ->
      last_or "offset" a (fun b v => rd_size W E b = Ret v) (Fin 0) o ->
      style_adds (s_ "stroke") e (mk_compound [] [] [] [mk_dash c w p o])
  | sa_short e x y c w : e = [x; y] -> (forall a, ~ chosen ["solid"; "dash"]%string e a) ->
      rd_size W E [x] = Ret w -> rd_color W E [y] black = Ret c ->
      style_adds (s_ "stroke") e (mk_compound [] [] [mk_stroke c w] []).
  Definition style_with (a b : compound) : compound :=
    mk_compound (fills a ++ fills b) (hatches a ++ hatches b) (strokes a ++ strokes b) (dashes a ++ dashes b).
End Spec.

(** The options color, fill and stroke of a list, in order. *)
Definition style_args (l : list expr) : list (str * list expr) :=
  flat_map (fun x => match option_of x with
                     | Some (k, a) => if str_eqb k (s_ "color") || str_eqb k (s_ "fill") || str_eqb k (s_ "stroke") then [(k, a)] else []
                     | None => []
                     end) l.

(** The marker names of the documentation (but circle and circle-o), with the Unicode character
    of each shape. *)
Definition marker_shapes : list (string * N) := ([
   ("circle-bullet", 0x25C9); (* FISHEYE *)
   ("circle-left", 0x25D0); (* CIRCLE WITH LEFT HALF BLACK *)
   ("circle-right", 0x25D1); (* CIRCLE WITH RIGHT HALF BLACK *)
   ("circle-top", 0x25D3); (* CIRCLE WITH UPPER HALF BLACK *)
   ("circle-bottom", 0x25D2); (* CIRCLE WITH LOWER HALF BLACK *)
   ("circle-bullet-alt", 0x2B57); (* HEAVY CIRCLE WITH CIRCLE INSIDE *)
   ("circle-hatch", 0x25CD); (* CIRCLE WITH VERTICAL FILL *)
   ("circle-dashed", 0x25CC); (* DOTTED CIRCLE *)
   ("diamond", 0x25C6); (* BLACK DIAMOND *)
   ("diamond-o", 0x25C7); (* WHITE DIAMOND *)
   ("diamond-bullet", 0x25C8); (* WHITE DIAMOND CONTAINING BLACK SMALL DIAMOND *)
   ("diamond-left", 0x2B16); (* DIAMOND WITH LEFT HALF BLACK *)
   ("diamond-right", 0x2B17); (* DIAMOND WITH RIGHT HALF BLACK *)
   ("diamond-top", 0x2B18); (* DIAMOND WITH TOP HALF BLACK *)
   ("diamond-bottom", 0x2B19); (* DIAMOND WITH BOTTOM HALF BLACK *)
   ("square", 0x25A0); (* BLACK SQUARE *)
   ("square-o", 0x25A1); (* WHITE SQUARE *)
   ("square-left", 0x25E7); (* SQUARE WITH LEFT HALF BLACK *)
   ("square-right", 0x25E8); (* SQUARE WITH RIGHT HALF BLACK *)
   ("square-top", 0x2B12); (* SQUARE WITH TOP HALF BLACK *)
   ("square-bottom", 0x2B13); (* SQUARE WITH BOTTOM HALF BLACK *)
   ("square-diag-left", 0x25E9); (* SQUARE WITH UPPER LEFT DIAGONAL HALF BLACK *)
   ("square-diag-right", 0x25EA); (* SQUARE WITH LOWER RIGHT DIAGONAL HALF BLACK *)
   ("square-dotted", 0x2B1A); (* DOTTED SQUARE *)
   ("square-crosshair", 0x2BD0); (* SQUARE POSITION INDICATOR *)
   ("square-bullet", 0x25A3); (* WHITE SQUARE CONTAINING BLACK SMALL SQUARE *)
   ("square-hatch-horiz", 0x25A4); (* SQUARE WITH HORIZONTAL FILL *)
   ("square-hatch-vert", 0x25A5); (* SQUARE WITH VERTICAL FILL *)
   ("square-hatch-cross", 0x25A6); (* SQUARE WITH ORTHOGONAL CROSSHATCH FILL *)
   ("square-hatch-diag-left", 0x25A7); (* SQUARE WITH UPPER LEFT TO LOWER RIGHT FILL *)
   ("square-hatch-diag-right", 0x25A8); (* SQUARE WITH UPPER RIGHT TO LOWER LEFT FILL *)
   ("hexagon", 0x2B22); (* BLACK HEXAGON *)
   ("hexagon-o", 0x2B21); (* WHITE HEXAGON *)
   ("pentagon", 0x2B1F); (* BLACK PENTAGON *)
   ("pentagon-o", 0x2B20); (* WHITE PENTAGON *)
   ("compass-left", 0x2B98); (* THREE-D TOP-LIGHTED LEFTWARDS EQUILATERAL ARROWHEAD *)
   ("compass-right", 0x2B9A); (* THREE-D TOP-LIGHTED RIGHTWARDS EQUILATERAL ARROWHEAD *)
   ("compass-top", 0x2B99); (* THREE-D RIGHT-LIGHTED UPWARDS EQUILATERAL ARROWHEAD *)
   ("compass-bottom", 0x2B9B); (* THREE-D LEFT-LIGHTED DOWNWARDS EQUILATERAL ARROWHEAD *)
   ("triangle-left", 0x2BC7); (* BLACK MEDIUM LEFT-POINTING TRIANGLE CENTRED *)
   ("triangle-right", 0x2BC8); (* BLACK MEDIUM RIGHT-POINTING TRIANGLE CENTRED *)
   ("triangle-top", 0x2BC5); (* BLACK MEDIUM UP-POINTING TRIANGLE CENTRED *)
   ("triangle-bottom", 0x2BC6); (* BLACK MEDIUM DOWN-POINTING TRIANGLE CENTRED *)
   ("triangle-left-o", 0x25C1); (* WHITE LEFT-POINTING TRIANGLE *)
   ("triangle-right-o", 0x25B7); (* WHITE RIGHT-POINTING TRIANGLE *)
   ("triangle-top-o", 0x25B3); (* WHITE UP-POINTING TRIANGLE *)
   ("triangle-left-half", 0x25ED); (* UP-POINTING TRIANGLE WITH LEFT HALF BLACK *)
   ("triangle-right-half", 0x25EE); (* UP-POINTING TRIANGLE WITH RIGHT HALF BLACK *)
   ("triangle-bottom-o", 0x25BD); (* WHITE DOWN-POINTING TRIANGLE *)
   ("triangle-dot", 0x25EC) (* WHITE UP-POINTING TRIANGLE WITH DOT *)])%string%N.
(** A character in UTF-8. *)
Definition character (c : N) : str := map (fun b => ascii_of_N b) (utf8_std c).
(** circle: a disk; circle-o with the width of its border (0 to 1, 0.2 without one); custom with
    a text; or a name of the list. What follows the name is not looked at otherwise. *)
Inductive marker_means (W : world) : list expr -> marker -> Prop :=
| mm_disk w r : word "circle" w -> marker_means W (w :: r) Disk
| mm_circle0 w : word "circle-o" w -> marker_means W [w] (Circle (clamp01 (k W (2 / 10))))
| mm_circle w x r v : word "circle-o" w -> rd_float W [x] = Ret v -> marker_means W (w :: x :: r) (Circle (clamp01 v))
| mm_custom w x r t : word "custom" w -> (x = EVal t \/ x = ELit t) -> marker_means W (w :: x :: r) (Glyph t)
| mm_name n c w r : In (n, c) marker_shapes -> n <> "triangle-left-o"%string -> word n w -> marker_means W (w :: r) (Glyph (character c))
| mm_left w r : word "triangle-left-o" w -> marker_means W (w :: r) (Glyph (character 0x25B3)).
