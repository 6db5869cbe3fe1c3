(** Glyph outlines, independently of the code.

    A contour is a closed curve made of straight lines, conic (quadratic) and cubic Bezier
    curves. In a font it is written as a list of points: of each segment its start and its
    control points. Where two conic curves meet halfway between their control points, the
    meeting point need not be written. The list may also begin with the points behind an
    "on" point and have that point at its end. *)
From Verif Require Import Base Num.
From Verif Require Import Geo_Model Geo_Spec Geo_Proofs Glyph_Model.
Local Open Scope R_scope.

Inductive segment :=
| Straight (stop : pt)
| Conic (control stop : pt)
| Cubic (control1 control2 stop : pt).
Definition stop_of (s : segment) : pt :=
  match s with Straight b => b | Conic _ b => b | Cubic _ _ b => b end.

Inductive kind := OnCurve | ConicControl | CubicControl.
Definition controls (s : segment) : list (pt * kind) :=
  match s with
  | Straight _ => []
  | Conic c _ => [(c, ConicControl)]
  | Cubic c1 c2 _ => [(c1, CubicControl); (c2, CubicControl)]
  end.
(** The control point of a conic segment. *)
Definition conic (s : segment) : option pt := match s with Conic c _ => Some c | _ => None end.
Definition halfway (a b m : pt) : Prop := fst m = (fst a + fst b) / 2 /\ snd m = (snd a + snd b) / 2.
(** [a] need not be written where a segment with conic control [before] is followed by [s]. *)
Definition implied (before : option pt) (a : pt) (s : segment) : Prop :=
  exists c0 c1, before = Some c0 /\ conic s = Some c1 /\ halfway c0 c1 a.

(** [written before a segs after l]: the segments [segs], the first of which starts at [a]
    behind a segment with conic control [before] (if it is conic), can be written as the
    points [l]; [after] is the conic control of the last one. *)
Inductive written (before : option pt) (a : pt) : list segment -> option pt -> list (pt * kind) -> Prop :=
| written_end : written before a [] before []
| written_all s segs after l :
    written (conic s) (stop_of s) segs after l ->
    written before a (s :: segs) after ((a, OnCurve) :: controls s ++ l)
| written_implied s segs after l :
    implied before a s -> written (conic s) (stop_of s) segs after l ->
    written before a (s :: segs) after (controls s ++ l).

(** The closed curve that starts and ends at [a]. *)
Definition closed (a : pt) (segs : list segment) : Prop :=
  segs <> [] /\ last (map stop_of segs) a = a.
Definition writes_contour (a : pt) (segs : list segment) (l : list (pt * kind)) : Prop :=
  closed a segs /\ exists around, written around a segs around l.

(** The commands that draw the curve. *)
Definition command (s : segment) : path_cmd :=
  match s with
  | Straight b => LineTo (P b)
  | Conic c b => QuadTo (P c) (P b)
  | Cubic c1 c2 b => CubicTo (P c1) (P c2) (P b)
  end.
(** [p] draws the closed curve from [a] along [segs]; it may go from [a] to [a] at the end. *)
Definition draws_curve (a : pt) (segs : list segment) (p : path) : Prop :=
  exists nothing, (nothing = [] \/ nothing = [LineTo (P a)]) /\
    p = MoveTo (P a) :: map command segs ++ nothing ++ [Close].

(** The contour [l] of a font is the closed curve from [a] along [segs]. *)
Definition is_curve (l : list (pt * kind)) (a : pt) (segs : list segment) : Prop :=
  writes_contour a segs l \/
  exists c m, l = (c, ConicControl) :: m ++ [(a, OnCurve)] /\
    writes_contour a segs ((a, OnCurve) :: (c, ConicControl) :: m).

(** Points as they come from freetype: 64 units are one pixel. *)
Definition pixels (q : Z * Z) : pt := (IZR (fst q) / 64, IZR (snd q) / 64).
Definition font_contour := list (Z * Z * kind).
Definition in_pixels (l : font_contour) : list (pt * kind) := map (fun x => (pixels (fst x), snd x)) l.
(** The two lowest bits of a tag. *)
Definition tag_means (t : N) (k : kind) : Prop :=
  N.testbit t 0 = (match k with OnCurve => true | _ => false end) /\
  N.testbit t 1 = (match k with CubicControl => true | _ => false end).

(** The outline [o] consists of the contours [cs], one after the other; an index fits in a short. *)
Fixpoint ends_from (n : Z) (cs : list font_contour) : list Z :=
  match cs with
  | [] => []
  | c :: r => (n + Z.of_nat (length c) - 1)%Z :: ends_from (n + Z.of_nat (length c)) r
  end.
Definition consists_of (o : outline) (cs : list font_contour) : Prop :=
  o_points o = map fst (concat cs) /\ Forall2 tag_means (o_tags o) (map snd (concat cs)) /\
  o_ends o = ends_from 0 cs /\ (Z.of_nat (length (concat cs)) <= 2 ^ 15)%Z.
