(** What calls of cairo show (after cairo's manual), and what they should show (C103). *)
From Verif Require Import Base Num Color_Model Geo_Model Units_Model Svg_Model Raster_Model.
Local Open Scope R_scope.

(* ---------------- cairo ---------------- *)
(** The state of a context. [ctm]: None for the identity. The points of the path are in device
    coordinates. After an error nothing has an effect any more. *)
Record context := mk_ctx {
  x_source : color; x_path : path; x_dash : list xr * xr; x_width : xr; x_ctm : option mat3;
  x_face : option nat; x_size : xr; x_error : bool }.
(** What becomes visible. The pen of strokes and glyphs is distorted by the matrix. *)
Inductive mark :=
| Painted (c : color)
| Filled (c : color) (p : path)
| Stroked (c : color) (width : xr) (dash : list xr * xr) (pen : option mat3) (p : path)
| Shown (c : color) (face : option nat) (size : xr) (pen : option mat3) (g : list (Z * vec2)).
Definition device (m : option mat3) (p : vec2) : vec2 :=
  match m with None => p | Some m => move_point exact m p end.
(** cairo_set_dash: no values switch dashing off; negative values, or only zeros, are an error. *)
Definition good_dash (l : list xr) : bool :=
  match l with [] => true | _ => forallb (xle (Fin 0)) l && existsb (xlt (Fin 0)) l end.
Definition dash_of (l : list xr) (o : xr) : list xr * xr := match l with [] => ([], Fin 0) | _ => (l, o) end.
Definition effect (k : cairo) (x : context) : context * list mark :=
  let 'mk_ctx src p da wi m fa si er := x in
  if er then (x, []) else
  match k with
  | SetSource c => (mk_ctx c p da wi m fa si er, [])
  | NewPath => (mk_ctx src [] da wi m fa si er, [])
  | MoveToC a b => (mk_ctx src (p ++ [MoveTo (device m (mk_vec2 a b))]) da wi m fa si er, [])
  | LineToC a b => (mk_ctx src (p ++ [LineTo (device m (mk_vec2 a b))]) da wi m fa si er, [])
  | CloseC => (mk_ctx src (p ++ [Close]) da wi m fa si er, [])
  | FillC => (mk_ctx src [] da wi m fa si er, [Filled src p])
  | SetDash l o => if good_dash l then (mk_ctx src p (dash_of l o) wi m fa si er, []) else (mk_ctx src p da wi m fa si true, [])
  | SetLineWidth w => (mk_ctx src p da w m fa si er, [])
  | StrokeC => (mk_ctx src [] da wi m fa si er, [Stroked src wi da m p])
  | PaintC => (x, [Painted src])
  | SetMatrix n => (mk_ctx src p da wi (Some n) fa si er, [])
  | IdentityC => (mk_ctx src p da wi None fa si er, [])
  | SetFace f => (mk_ctx src p da wi m (Some f) si er, [])
  | SetFontSize s => (mk_ctx src p da wi m fa s er, [])
  | ShowGlyphs l => (x, [Shown src fa si m (map (fun g => (fst g, device m (snd g))) l)])
  end.
Fixpoint effects (l : list cairo) (x : context) : context * list mark :=
  match l with
  | [] => (x, [])
  | k :: r => let '(y, a) := effect k x in let '(z, b) := effects r y in (z, a ++ b)
  end.
(** A new context: black, solid lines of width 2, no transformation. *)
Definition fresh : context := mk_ctx black [] ([], Fin 0) (Fin 2) None None (Fin 10) false.
Definition seen (l : list cairo) : list mark := snd (effects l fresh).

(* ---------------- what is asked for ---------------- *)
(** Calls on a Rasterizer. *)
Inductive rop :=
| RClear (c : color)
| RShape (p : path) (st : stroke_style) (fl : fill_style)
| RText (g : list (nat * list (Z * vec2))) (size : xr) (c : color) (t : option mat3).
Section Ops.
  Variable d : R -> R.
  Variable sort_cw : list vec2 -> list vec2.
  Variable fuel height : nat.
  Variable dpi : xr.
  Variable sets : nat -> xr -> bool.
  Definition rcall (o : rop) : outcome (bool * list cairo) :=
    match o with
    | RClear c => Ret (true, raster_clear c)
    | RShape p st fl => raster_shape d sort_cw fuel height p st fl
    | RText g s c t => Ret (raster_text d height dpi sets g s c t)
    end.
  Fixpoint rcalls (l : list rop) : outcome (list bool * list cairo) :=
    match l with
    | [] => Ret ([], [])
    | o :: r => let* (b, a) := rcall o in let* (bs, c) := rcalls r in Ret (b :: bs, a ++ c)
    end.
End Ops.

(** Rows are counted from above in a picture, heights from below on a page. *)
Definition up (d : R -> R) (h : nat) (p : vec2) : vec2 := mk_vec2 (vx p) (xsub d (Fin (INR h)) (vy p)).
Definition up_cmd (d : R -> R) (h : nat) (c : path_cmd) : path_cmd :=
  match c with
  | MoveTo p => MoveTo (up d h p)
  | LineTo p => LineTo (up d h p)
  | QuadTo a p => QuadTo (up d h a) (up d h p)
  | CubicTo a b p => CubicTo (up d h a) (up d h b) (up d h p)
  | Close => Close
  end.
Definition upside (d : R -> R) (h : nat) (p : path) : path := map (up_cmd d h) p.
Definition straight (p : path) : Prop := forall c, In c p -> match c with QuadTo _ _ | CubicTo _ _ _ => False | _ => True end.
(** What a shape shows: its area, or the stripes in it, in its colour, and its outline with its
    width and dashes. *)
Definition area_of (d : R -> R) (sort_cw : list vec2 -> list vec2) (fuel : nat) (p : path) (fl : fill_style) : outcome path :=
  if f_hatch fl then shape_hatch d sort_cw fuel (path_to_polygon_simple p) (f_angle fl) (f_offset fl) (f_stride fl) (f_width fl)
  else Ret p.
Definition shape_shows (d : R -> R) (h : nat) (p area : path) (st : stroke_style) (fl : fill_style) : list mark :=
  match f_color fl with Some c => [Filled c (upside d h area)] | None => [] end ++
  if xeq (s_width st) (Fin 0) then []
  else [Stroked (s_color st) (s_width st)
          (match s_dashed st, s_pattern st with true, _ :: _ => (s_pattern st, s_offset st) | _, _ => ([], Fin 0) end)
          None (upside d h p)].
Definition text_shows (d : R -> R) (h : nat) (size : xr) (c : color) (g : list (nat * list (Z * vec2))) : list mark :=
  map (fun fg => Shown c (Some (fst fg)) size None (map (fun x => (fst x, up d h (snd x))) (snd fg))) g.
(** One call: its answer and what it shows, whatever was called before. *)
Definition shows (d : R -> R) (sort_cw : list vec2 -> list vec2) (fuel h : nat) (dpi : xr) (o : rop) (ok : bool) (l : list mark) : Prop :=
  match o with
  | RClear c => ok = true /\ l = [Painted c]
  | RShape p st fl =>
      ((length p < 2)%nat /\ ok = false /\ l = []) \/
      ((2 <= length p)%nat /\ ok = true /\ exists area, area_of d sort_cw fuel p fl = Ret area /\ l = shape_shows d h p area st fl)
  | RText g s c t => ok = true /\ l = text_shows d h (unit_to_pt d s dpi) c g
  end.
Inductive all_show (d : R -> R) (sort_cw : list vec2 -> list vec2) (fuel h : nat) (dpi : xr) : list rop -> list bool -> list mark -> Prop :=
| show_nil : all_show d sort_cw fuel h dpi [] [] []
| show_cons o os ok oks l ls : shows d sort_cw fuel h dpi o ok l -> all_show d sort_cw fuel h dpi os oks ls ->
    all_show d sort_cw fuel h dpi (o :: os) (ok :: oks) (l ++ ls).
(** Calls that the theorem is about: shapes without curves and with dashes that cairo accepts,
    texts without transformation in fonts that have the size. *)
Definition simple_shape (p : path) (st : stroke_style) : Prop :=
  straight p /\ (s_dashed st = true -> good_dash (s_pattern st) = true).
Definition simple (sets : nat -> xr -> bool) (o : rop) : Prop :=
  match o with
  | RClear _ => True
  | RShape p st fl => simple_shape p st
  | RText g s c t => t = None /\ forall f z, sets f z = true
  end.
