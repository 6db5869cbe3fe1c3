(** Model of /repo/src/graphics/rasterize.cc and export_image.cc: the calls of cairo and freetype
    that they make. [d] rounds double arithmetic, sort_cw is std::sort by angle (as in Geo_Model),
    [fuel] bounds the loop of shape_hatch. Memory management (destroying surfaces, faces, glyph
    arrays) is not modelled. *)
From Verif Require Import Base Num Color_Model Geo_Model Units_Model Svg_Model.
Local Open Scope R_scope.

(** The calls that matter for the picture. A font face is a number. *)
Inductive cairo :=
| SetSource (c : color)
| NewPath
| MoveToC (x y : xr)
| LineToC (x y : xr)
| CloseC
| FillC
| SetDash (l : list xr) (offset : xr)
| SetLineWidth (w : xr)
| StrokeC
| PaintC
| SetMatrix (m : mat3)
| IdentityC
| SetFace (f : nat)
| SetFontSize (s : xr)
| ShowGlyphs (l : list (Z * vec2)).

Section Raster.
  Variable d : R -> R.
  Variable sort_cw : list vec2 -> list vec2.
  Variable fuel : nat.
  (** Rasterizer::height is a uint32_t. *)
  Variable height : nat.
  Variable dpi : xr.
  Definition dheight : xr := Fin (INR height).
  (** cairo_set_path, rasterize.cc:44-63: the switch has no case for curves. *)
  Definition set_path_cmd (c : path_cmd) : list cairo :=
    match c with
    | MoveTo p => [MoveToC (vx p) (xsub d dheight (vy p))]
    | LineTo p => [LineToC (vx p) (xsub d dheight (vy p))]
    | Close => [CloseC]
    | _ => []
    end.
  Definition set_path (p : path) : list cairo := NewPath :: flat_map set_path_cmd p.
  (** drawShape, rasterize.cc:65-128: whether it returns OK, and the calls. *)
  Definition raster_shape (p : path) (st : stroke_style) (fl : fill_style) : outcome (bool * list cairo) :=
    if (length p <? 2)%nat then Ret (false, []) else
    let* fp := if f_hatch fl
               then shape_hatch d sort_cw fuel (path_to_polygon_simple p) (f_angle fl) (f_offset fl) (f_stride fl) (f_width fl)
               else Ret p in
    let fill := match f_color fl with
                | Some c => SetSource c :: set_path fp ++ [FillC]
                | None => []
                end in
    let stroke := if xeq (s_width st) (Fin 0) then [] else
                  (if s_dashed st then SetDash (s_pattern st) (s_offset st) else SetDash [] (Fin 0)) ::
                  SetSource (s_color st) :: SetLineWidth (s_width st) :: set_path p ++ [StrokeC] in
    Ret (true, fill ++ stroke).
  (** drawText, rasterize.cc:130-184. [sets f s]: FT_Set_Char_Size accepts the size. *)
  Variable sets : nat -> xr -> bool.
  Definition flipped : mat3 -> mat3 := fun t =>
    mmul d (mmul d (scale2 (mk_vec2 (Fin 1) (Fin (-1)))) (translate2 (mk_vec2 (Fin 0) (xneg dheight))))
           (mmul d t (mmul d (translate2 (mk_vec2 (Fin 0) dheight)) (scale2 (mk_vec2 (Fin 1) (Fin (-1)))))).
  Fixpoint raster_groups (gs : list (nat * list (Z * vec2))) (size : xr) (col : color) : bool * list cairo :=
    match gs with
    | [] => (true, [])
    | (f, g) :: r =>
        let pt := unit_to_pt d size dpi in
        if sets f (xmul d (xmul d pt (xdiv d (Fin 72) dpi)) (Fin 64)) then
          let '(ok, l) := raster_groups r size col in
          (ok, SetSource col :: SetFace f :: SetFontSize pt ::
               ShowGlyphs (map (fun x => (fst x, mk_vec2 (vx (snd x)) (xsub d dheight (vy (snd x))))) g) :: l)
        else (false, [])
    end.
  Definition raster_text (gs : list (nat * list (Z * vec2))) (size : xr) (col : color) (t : option mat3) : bool * list cairo :=
    let '(ok, l) := raster_groups gs size col in
    (ok, match t with Some m => SetMatrix (flipped m) | None => IdentityC end :: l).
  (** clear, rasterize.cc:186-195. *)
  Definition raster_clear (c : color) : list cairo := [SetSource c; PaintC].
  (** The loop of page_export_png, export_image.cc:36-40. *)
  Fixpoint raster_all (l : list draw_command) : outcome (list cairo) :=
    match l with
    | [] => Ret []
    | c :: r =>
        let* (ok, a) := raster_shape (dc_path c) (dc_stroke c) (dc_fill c) in
        if (ok : bool) then let* b := raster_all r in Ret (a ++ b) else Err
    end.
End Raster.

(** page_export_png, export_image.cc:28-44: the size of the surface and the calls that made the
    picture in the buffer; [Err]: the buffer is left as it was. *)
Definition page_export_png (d : R -> R) (sort_cw : list vec2 -> list vec2) (fuel : nat)
    (width height : xr) (background : color) (l : list draw_command) : outcome (nat * nat * list cairo) :=
  let* w := to_unsigned 32 width in
  let* h := to_unsigned 32 height in
  let* b := raster_all d sort_cw fuel h l in
  Ret (w, h, raster_clear background ++ b).
