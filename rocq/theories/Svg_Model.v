(** Model of /repo/src/graphics/export_svg.cc and of draw_shape, /repo/src/graphics/draw_cmd.cc.
    [d] rounds double arithmetic; sort_cw (std::sort by angle) is a parameter. The functions
    that write text and glyphs (svg_add_text_elem_native and _embed) have no callers; only the
    escaping they use is modelled (svg_attr, svg_body). *)
From Verif Require Import Base Num Dec Color_Model Geo_Model.
Local Open Scope R_scope.

(** Styles, /repo/src/style.h:58-113; a Number is its value. *)
Record fill_hatch := mk_hatch { fh_color : color; fh_angle : xr; fh_offset : xr; fh_stride : xr; fh_width : xr }.
Record stroke_solid := mk_stroke { ss_color : color; ss_width : xr }.
Record stroke_dash := mk_dash { sd_color : color; sd_width : xr; sd_pattern : list xr; sd_offset : xr }.
Record compound := mk_compound {
  fills : list color; hatches : list fill_hatch; strokes : list stroke_solid; dashes : list stroke_dash }.
(** FillStyle and StrokeStyle, style.h:28-57. *)
Record fill_style := mk_fill { f_color : option color; f_hatch : bool; f_angle : xr; f_offset : xr; f_stride : xr; f_width : xr }.
Record stroke_style := mk_stroke_style { s_width : xr; s_color : color; s_dashed : bool; s_offset : xr; s_pattern : list xr }.
(** DrawCommand, draw_cmd.h:28-34; [antialiasing] is None, or whether it is enabled. *)
Record draw_command := mk_cmd {
  dc_path : path; dc_style : compound; dc_stroke : stroke_style; dc_fill : fill_style; dc_aa : option bool }.

(** StrokeStyle::StrokeStyle and FillStyle::FillStyle, /repo/src/style.cc:20-30; Number and
    Measure are 0 by default. *)
Definition stroke0 : stroke_style := mk_stroke_style (Fin 0) black false (Fin 0) [].
Definition fill0 : fill_style := mk_fill None false (Fin 0) (Fin 0) (Fin 0) (Fin 0).

(** draw_shape, draw_cmd.cc:24-66: what is appended to the draw list. *)
Definition draw_shape (c : draw_command) : draw_command :=
  let st := dc_style c in
  let fs := dc_fill c in
  let '(st, fs) :=
    match f_color fs with
    | None => (st, fs)
    | Some col =>
        (if f_hatch fs
         then mk_compound (fills st) (hatches st ++ [mk_hatch col (f_angle fs) (f_offset fs) (f_stride fs) (f_width fs)]) (strokes st) (dashes st)
         else mk_compound (fills st ++ [col]) (hatches st) (strokes st) (dashes st), fill0)
    end in
  let ss := dc_stroke c in
  let '(st, ss) :=
    if xeq (s_width ss) (Fin 0) then (st, ss)
    else (if s_dashed ss
          then mk_compound (fills st) (hatches st) (strokes st) (dashes st ++ [mk_dash (s_color ss) (s_width ss) (s_pattern ss) (s_offset ss)])
          else mk_compound (fills st) (hatches st) (strokes st ++ [mk_stroke (s_color ss) (s_width ss)]) (dashes st), stroke0) in
  mk_cmd (dc_path c) st ss fs (dc_aa c).

(** svg_attr(name, val), export_svg.cc:52-70. *)
Definition escape_quote (c : ascii) : str := if Ascii.eqb c c_dq then [c_bs; c_dq] else [c].
Definition svg_attr (name val : str) : str :=
  s_ " " ++ name ++ s_ "=" ++ [c_dq] ++ flat_map escape_quote val ++ [c_dq].
(** svg_body, export_svg.cc:92-112. *)
Definition escape_body (c : ascii) : str :=
  if Ascii.eqb c "&" then s_ "&amp;" else if Ascii.eqb c "<" then s_ "&lt;"
  else if Ascii.eqb c ">" then s_ "&gt;" else [c].
Definition svg_body (s : str) : str := flat_map escape_body s.

(** A double with std::fixed and std::setprecision(3): rounded to the nearest thousandth (ties
    to even, the exact binary value), at least one digit before the point. *)
Definition fixed3 (x : R) : str :=
  let n := ZnearestE (Rabs x * 1000) in
  (if Rlt_dec x 0 then s_ "-" else []) ++ dec (n / 1000) ++ s_ "." ++
  [dig (n / 100 mod 10); dig (n / 10 mod 10); dig (n mod 10)].
(** svg_number, export_svg.cc:37-50: the conversion to int is undefined outside of int's
    range; modf of an infinity is 0, so that an infinity is converted to int as well.
    Simplified: a NaN has no sign here; the C++ library prints one with the sign bit as -nan. *)
Definition svg_number (a : xr) : outcome str :=
  match a with
  | Fin x => if Req_EM_T x (IZR (Ztrunc x))
             then let* z := to_int a in Ret (dec_int z)
             else Ret (fixed3 x)
  | NaN => Ret (s_ "nan")
  | _ => UB
  end.
(** svg_attr for numbers, export_svg.cc:80-90. *)
Definition svg_attr_num (name : str) (v : xr) : outcome str := let* t := svg_number v in Ret (svg_attr name t).

(** svg_path_data, export_svg.cc:114-160. *)
Fixpoint numbers (l : list xr) : outcome str :=
  match l with
  | [] => Ret []
  | [x] => svg_number x
  | x :: r => let* t := svg_number x in let* u := numbers r in Ret (t ++ s_ " " ++ u)
  end.
Definition svg_command (c : path_cmd) : outcome str :=
  let coords l := flat_map (fun p => [vx p; vy p]) l in
  match c with
  | MoveTo p => let* t := numbers (coords [p]) in Ret (s_ "M" ++ t)
  | LineTo p => let* t := numbers (coords [p]) in Ret (s_ "L" ++ t)
  | QuadTo c p => let* t := numbers (coords [c; p]) in Ret (s_ "Q" ++ t)
  | CubicTo c1 c2 p => let* t := numbers (coords [c1; c2; p]) in Ret (s_ "C" ++ t)
  | Close => Ret (s_ "Z")
  end.
Fixpoint svg_path_data (p : path) : outcome str :=
  match p with
  | [] => Ret []
  | [c] => svg_command c
  | c :: r => let* t := svg_command c in let* u := svg_path_data r in Ret (t ++ s_ " " ++ u)
  end.
(** svg_poly_data, export_svg.cc:162-175 (no callers): no separator between the vertices. *)
Fixpoint svg_poly_data (v : list vec2) : outcome str :=
  match v with
  | [] => Ret []
  | q :: r => let* x := svg_number (vx q) in let* y := svg_number (vy q) in
              let* t := svg_poly_data r in Ret (x ++ s_ " " ++ y ++ t)
  end.

Section Svg.
  Variable d : R -> R.
  Variable sort_cw : list vec2 -> list vec2.
  Variable fuel : nat.
  (** The document's width and height, and SVGData::proj, export_svg.cc:457-460. *)
  Variables width height : xr.
  Definition proj : mat3 := mmul d (translate2 (mk_vec2 (Fin 0) height)) (scale2 (mk_vec2 (Fin 1) (Fin (-1)))).

  (** svg_antialiasing_attrs, :177-184. *)
  Definition aa_attrs (aa : option bool) : str :=
    match aa with Some false => svg_attr (s_ "shape-rendering") (s_ "crispEdges") | _ => [] end.
  Definition path_attr (p : path) : outcome str :=
    let* t := svg_path_data (path_transform d p proj) in Ret (svg_attr (s_ "d") t).
  Definition opacity_attr (name : str) (c : color) : outcome str :=
    if xeq (c_a c) (Fin 1) then Ret [] else svg_attr_num name (c_a c).
  Definition fill_attrs (c : color) : outcome str :=
    let* h := to_hex_str d 3 c in
    let* o := opacity_attr (s_ "fill-opacity") c in
    Ret ((if color_is_black c then [] else svg_attr (s_ "fill") h) ++ o).
  Definition stroke_attrs (c : color) (w : xr) : outcome str :=
    let* h := to_hex_str d 3 c in
    let* o := opacity_attr (s_ "stroke-opacity") c in
    let* n := svg_attr_num (s_ "stroke-width") w in
    Ret (svg_attr (s_ "stroke") h ++ o ++ n).
  Definition element (attrs : str) : str := s_ "  " ++ s_ "<path" ++ attrs ++ s_ "/>" ++ [c_nl].

  (** svg_add_path_compound, :186-207. *)
  Definition add_compound (p : path) (c : color) (s : stroke_solid) (aa : option bool) : outcome str :=
    let* a := path_attr p in let* b := fill_attrs c in let* e := stroke_attrs (ss_color s) (ss_width s) in
    Ret (element (a ++ b ++ e ++ aa_attrs aa)).
  (** svg_add_path_fill_solid, :209-225. *)
  Definition add_fill (p : path) (aa : option bool) (c : color) : outcome str :=
    let* a := path_attr p in let* b := fill_attrs c in Ret (element (a ++ b ++ aa_attrs aa)).
  (** svg_add_path_fill_hatch, :227-250. *)
  Definition add_hatch (p : path) (aa : option bool) (h : fill_hatch) : outcome str :=
    let* q := shape_hatch d sort_cw fuel (path_to_polygon_simple p) (fh_angle h) (fh_offset h) (fh_stride h) (fh_width h) in
    let* a := path_attr q in let* b := fill_attrs (fh_color h) in Ret (element (a ++ b ++ aa_attrs aa)).
  (** svg_add_path_stroke_solid, :252-270. *)
  Definition add_stroke (p : path) (aa : option bool) (s : stroke_solid) : outcome str :=
    let* a := path_attr p in let* e := stroke_attrs (ss_color s) (ss_width s) in
    Ret (element (a ++ svg_attr (s_ "fill") (s_ "none") ++ e ++ aa_attrs aa)).
  (** svg_add_path_stroke_dash, :272-302. *)
  Definition add_dash (p : path) (aa : option bool) (s : stroke_dash) : outcome str :=
    let* t := numbers (sd_pattern s) in
    let* a := path_attr p in let* e := stroke_attrs (sd_color s) (sd_width s) in
    let* o := svg_attr_num (s_ "stroke-dashoffset") (sd_offset s) in
    Ret (element (a ++ svg_attr (s_ "fill") (s_ "none") ++ e ++ svg_attr (s_ "stroke-dasharray") t ++ o ++ aa_attrs aa)).

  Fixpoint each {A} (f : A -> outcome str) (l : list A) : outcome str :=
    match l with [] => Ret [] | a :: r => let* t := f a in let* u := each f r in Ret (t ++ u) end.
  (** svg_add_path, :304-351. *)
  Definition add_path (c : draw_command) : outcome str :=
    let p := dc_path c in let st := dc_style c in let aa := dc_aa c in
    match fills st, hatches st, strokes st, dashes st with
    | [f], [], [s], [] => add_compound p f s aa
    | _, _, _, _ =>
        let* a := each (add_fill p aa) (fills st) in
        let* b := each (add_hatch p aa) (hatches st) in
        let* e := each (add_stroke p aa) (strokes st) in
        let* g := each (add_dash p aa) (dashes st) in
        Ret (a ++ b ++ e ++ g)
    end.

  (** export_svg, :450-490. *)
  Definition export_svg (version : str) (background : color) (drawlist : list draw_command) : outcome str :=
    let* body := each add_path drawlist in
    let* w := svg_attr_num (s_ "width") width in
    let* h := svg_attr_num (s_ "height") height in
    let* bg := to_hex_str d 3 background in
    let* o := svg_attr_num (s_ "fill-opacity") (c_a background) in
    Ret (s_ "<?xml version=""1.0"" encoding=""UTF-8"" ?>" ++ [c_nl] ++
         s_ "<!-- Generated by clip v" ++ version ++ s_ " (clip-lang.org) -->" ++ [c_nl] ++
         s_ "<svg" ++ svg_attr (s_ "xmlns") (s_ "http://www.w3.org/2000/svg") ++ w ++ h ++ s_ ">" ++ [c_nl] ++
         s_ "  <rect" ++ w ++ h ++ svg_attr (s_ "fill") bg ++ o ++ s_ "/>" ++ [c_nl] ++
         body ++ s_ "</svg>" ++ [c_nl]).
End Svg.
