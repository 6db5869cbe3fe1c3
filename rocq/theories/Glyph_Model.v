(** Model of font_get_glyph_path, /repo/src/graphics/font_lookup.cc:60-237: the outline that
    freetype returns for a glyph becomes a path. [d] rounds every double operation.
    Freetype itself (loading the face, scaling and hinting the glyph, :76-91) is not modelled:
    its result is an argument. *)
From Verif Require Import Base Num Geo_Model.
From Verif Require Import Cmd_Model.
Local Open Scope R_scope.

(** FT_Outline: the points in 26.6 fixed point, one tag byte for each point and for every
    contour the index of its last point (a short). *)
Record outline := mk_outline { o_points : list (Z * Z); o_tags : list N; o_ends : list Z }.

(** GlyphPointType, font_lookup.cc:60. *)
Inductive point_type := On | Off2 | Off3.
(** FT_CURVE_TAG and the switch at font_lookup.cc:113-125. *)
Definition curve_tag (t : N) : option point_type :=
  match N.land t 3 with 1%N => Some On | 0%N => Some Off2 | 2%N => Some Off3 | _ => None end.
(** The conversion of a short to size_t in "i <= glyph_outline_end", font_lookup.cc:104. *)
Definition to_size (z : Z) : Z := (z mod 2 ^ 64)%Z.

(** GlyphContour, font_lookup.cc:62-65: the two vectors always have the same length. *)
Definition contour := list (vec2 * point_type).

Section Glyph.
  Variable d : R -> R.

  (** p.x and p.y, font_lookup.cc:106-107: the y axis is turned around. *)
  Definition outline_point (q : Z * Z) : vec2 :=
    mk_vec2 (xdiv d (Fin (d (IZR (fst q)))) (Fin 64)) (xdiv d (Fin (d (IZR (- snd q)))) (Fin 64)).
  (** One round of the loop, font_lookup.cc:104-129; an index beyond the arrays is undefined. *)
  Definition read_point (o : outline) (i : nat) : outcome (vec2 * point_type) :=
    match nth_error (o_points o) i, nth_error (o_tags o) i with
    | Some q, Some t => match curve_tag t with Some k => Ret (outline_point q, k) | None => Err end
    | _, _ => UB
    end.
  (** The points of one contour, font_lookup.cc:100-131: [b] is the index after the end of
      the contour before (0 for the first), both ends converted to size_t. *)
  Definition read_contour (o : outline) (b e : Z) : outcome contour :=
    forM (read_point o) (seq (Z.to_nat (to_size b)) (Z.to_nat (to_size e + 1 - to_size b))).
  Fixpoint read_contours (o : outline) (b : Z) (ends : list Z) : outcome (list contour) :=
    match ends with
    | [] => Ret []
    | e :: r => let* c := read_contour o b e in let* cs := read_contours o (e + 1) r in Ret (c :: cs)
    end.

  (** mul(add(a, b), 0.5), font_lookup.cc:149 and :165. *)
  Definition midpoint (a b : vec2) : vec2 := vmul d (vadd d a b) (Fin (1 / 2)).
  (** The loop that inserts a virtual point between two successive OFF2 points,
      font_lookup.cc:139-151: the point inserted at i+1 is the next one looked at, it is not
      OFF2, so the loop goes on behind it. *)
  Fixpoint insert_virtual (c : contour) : contour :=
    match c with
    | (a, ka) :: ((b, kb) :: _) as r =>
        match ka, kb with
        | Off2, Off2 => (a, ka) :: (midpoint a b, On) :: insert_virtual r
        | _, _ => (a, ka) :: insert_virtual r
        end
    | _ => c
    end.
  (** c.points.front() and c.points.back() with their tags; only called if there are points. *)
  Definition front (c : contour) (q : vec2 * point_type) : vec2 * point_type := hd q c.
  Definition back (c : contour) (q : vec2 * point_type) : vec2 * point_type := last c q.
  (** font_lookup.cc:153-158. *)
  Definition start_with_last (c : contour) (q : vec2 * point_type) : contour :=
    match snd (front c q), snd (back c q) with Off2, On => back c q :: c | _, _ => c end.
  (** font_lookup.cc:160-168. *)
  Definition start_with_virtual (c : contour) (q : vec2 * point_type) : contour :=
    match snd (front c q), snd (back c q) with
    | Off2, Off2 => (midpoint (fst (front c q)) (fst (back c q)), On) :: c
    | _, _ => c
    end.
  (** font_lookup.cc:139-172. *)
  Definition resolve (c : contour) (q : vec2 * point_type) : contour :=
    let c := start_with_virtual (start_with_last (insert_virtual c) q) q in
    c ++ [front c q].

  (** The arguments x, -y of the path functions, font_lookup.cc:180-223. *)
  Definition up (v : vec2) : vec2 := mk_vec2 (vx v) (xneg (vy v)).
  (** The loop that writes the segments, font_lookup.cc:182-230. *)
  Fixpoint segments (c : contour) : path :=
    match c with
    | (_, On) :: ((b, On) :: _) as r => LineTo (up b) :: segments r
    | (_, On) :: (c1, Off3) :: (c2, Off3) :: ((b, On) :: _) as r => CubicTo (up c1) (up c2) (up b) :: segments r
    | (_, On) :: (c1, Off2) :: ((b, On) :: _) as r => QuadTo (up c1) (up b) :: segments r
    | _ => []
    end.

  (** One round of the loop over the contours, font_lookup.cc:134-234: what is added to the
      path. [asserts]: the assertions at :175-177 are compiled in; if one fails the process is
      aborted (here: [UB], nothing is returned either way). *)
  Definition contour_path (asserts : bool) (c : contour) : outcome path :=
    match c with
    | [] => Err
    | q :: _ =>
        let r := resolve c q in
        match snd (front r q), asserts with
        | Off2, true | Off3, true => UB
        | _, _ => Ret (MoveTo (up (fst (front r q))) :: segments r ++ [Close])
        end
    end.
  (** font_get_glyph_path after freetype has returned the outline, font_lookup.cc:73 and
      :93-236. On an error the caller (draw/text.cc:101-111) does not use the path. *)
  Definition glyph_outline_path (asserts : bool) (o : outline) : outcome path :=
    let* cs := read_contours o 0 (o_ends o) in
    let* ps := forM (contour_path asserts) cs in
    Ret (concat ps).
End Glyph.
