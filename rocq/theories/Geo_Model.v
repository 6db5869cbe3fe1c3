(** Model of /repo/src/vmath.cc, graphics/geometry.cc, graphics/path.cc, graphics/layout.cc,
    graphics/intersect.cc and graphics/shape_hatch.cc. [d] rounds every double operation;
    sin, cos, acos and sqrt are the real functions, then rounded. *)
From Verif Require Import Base Num.
Local Open Scope R_scope.

(** vec2, vec3, mat3 (| A B C | D E F | G H I |), /repo/src/vmath.h:32-76. *)
Record vec2 := mk_vec2 { vx : xr; vy : xr }.
Record vec3 := mk_vec3 { wx : xr; wy : xr; wz : xr }.
Record mat3 := mk_mat3 { ma : xr; mb : xr; mc : xr; md : xr; me : xr; mf : xr; mg : xr; mh : xr; mi : xr }.
(** Rectangle, /repo/src/graphics/geometry.h:26-33. *)
Record rectangle := mk_rect { rx : xr; ry : xr; rw : xr; rh : xr }.

(** Path, /repo/src/graphics/path.h:26-74: the commands with the coefficients they use (the
    other coefficients are never initialised). *)
Inductive path_cmd :=
| MoveTo (p : vec2)
| LineTo (p : vec2)
| QuadTo (c p : vec2)
| CubicTo (c1 c2 p : vec2)
| Close.
Notation path := (list path_cmd).

(** HAlign and VAlign, /repo/src/graphics/layout.h:20-26. *)
Inductive halign := HLeft | HCenter | HRight.
Inductive valign := VTop | VCenter | VBottom.

Section Geo.
  Variable d : R -> R.

  Definition xsqrt (a : xr) : xr :=
    match a with
    | Fin x => if Rlt_dec x 0 then NaN else Fin (d (sqrt x))
    | PInf => PInf
    | _ => NaN
    end.
  Definition xacos (a : xr) : xr :=
    match a with
    | Fin x => if Rlt_dec x (-1) then NaN else if Rlt_dec 1 x then NaN else Fin (d (acos x))
    | _ => NaN
    end.
  Definition xsin (a : xr) : xr := match a with Fin x => Fin (d (sin x)) | _ => NaN end.
  Definition xcos (a : xr) : xr := match a with Fin x => Fin (d (cos x)) | _ => NaN end.
  (** M_PI and TAU, vmath.cc:22. *)
  Definition m_pi : xr := Fin (d PI).
  Definition tau : xr := xmul d m_pi (Fin 2).

  (* ---------------- /repo/src/vmath.cc ---------------- *)
  (** add, sub, mul, dot: vmath.cc:97-134. *)
  Definition vadd (a b : vec2) : vec2 := mk_vec2 (xadd d (vx a) (vx b)) (xadd d (vy a) (vy b)).
  Definition vsub (a b : vec2) : vec2 := mk_vec2 (xsub d (vx a) (vx b)) (xsub d (vy a) (vy b)).
  Definition vmul (v : vec2) (s : xr) : vec2 := mk_vec2 (xmul d (vx v) s) (xmul d (vy v) s).
  Definition sum3 (a b c : xr) : xr := xadd d (xadd d a b) c.
  Definition mmul (a b : mat3) : mat3 :=
    let f p q r x y z := sum3 (xmul d p x) (xmul d q y) (xmul d r z) in
    mk_mat3
      (f (ma a) (mb a) (mc a) (ma b) (md b) (mg b))
      (f (ma a) (mb a) (mc a) (mb b) (me b) (mh b))
      (f (ma a) (mb a) (mc a) (mc b) (mf b) (mi b))
      (f (md a) (me a) (mf a) (ma b) (md b) (mg b))
      (f (md a) (me a) (mf a) (mb b) (me b) (mh b))
      (f (md a) (me a) (mf a) (mc b) (mf b) (mi b))
      (f (mg a) (mh a) (mi a) (ma b) (md b) (mg b))
      (f (mg a) (mh a) (mi a) (mb b) (me b) (mh b))
      (f (mg a) (mh a) (mi a) (mc b) (mf b) (mi b)).
  Definition mapply (m : mat3) (v : vec3) : vec3 :=
    let f p q r := sum3 (xmul d p (wx v)) (xmul d q (wy v)) (xmul d r (wz v)) in
    mk_vec3 (f (ma m) (mb m) (mc m)) (f (md m) (me m) (mf m)) (f (mg m) (mh m) (mi m)).
  Definition dot (a b : vec2) : xr := xadd d (xmul d (vx a) (vx b)) (xmul d (vy a) (vy b)).
  (** magnitude, normalize: vmath.cc:88-95. *)
  Definition magnitude (v : vec2) : xr := xsqrt (xadd d (xmul d (vx v) (vx v)) (xmul d (vy v) (vy v))).
  Definition normalize (v : vec2) : vec2 :=
    let m := magnitude v in mk_vec2 (xdiv d (vx v) m) (xdiv d (vy v) m).
  (** from_deg, vmath.cc:136-139. *)
  Definition from_deg (deg : xr) : vec2 :=
    let a := xmul d (xdiv d (xneg deg) (Fin 180)) m_pi in mk_vec2 (xcos a) (xsin a).
  (** mean, vmath.cc:141-149. *)
  Definition mean (v : list vec2) : vec2 :=
    vmul (fold_left vadd v (mk_vec2 (Fin 0) (Fin 0))) (xdiv d (Fin 1) (Fin (INR (length v)))).
  (** rotate2, scale2, translate2, invert_y2: vmath.cc:151-186. *)
  Definition rotate2 (angle : xr) : mat3 :=
    let a := xmul d (xdiv d (xneg angle) (Fin 360)) tau in
    mk_mat3 (xcos a) (xmul d (xsin a) (Fin (-1))) (Fin 0) (xsin a) (xcos a) (Fin 0) (Fin 0) (Fin 0) (Fin 1).
  Definition scale2 (s : vec2) : mat3 :=
    mk_mat3 (vx s) (Fin 0) (Fin 0) (Fin 0) (vy s) (Fin 0) (Fin 0) (Fin 0) (Fin 1).
  Definition translate2 (t : vec2) : mat3 :=
    mk_mat3 (Fin 1) (Fin 0) (vx t) (Fin 0) (Fin 1) (vy t) (Fin 0) (Fin 0) (Fin 1).
  Definition invert_y2 : mat3 :=
    mk_mat3 (Fin 1) (Fin 0) (Fin 0) (Fin 0) (Fin (-1)) (Fin 0) (Fin 0) (Fin 0) (Fin 1).

  (* ---------------- /repo/src/graphics/geometry.cc, path.cc ---------------- *)
  (** polyline3_to_polyline2, poly3_to_poly2: geometry.cc:50-71. *)
  Definition polyline3_to_polyline2 (l : list vec3) : list vec2 := map (fun v => mk_vec2 (wx v) (wy v)) l.
  Definition poly3_to_poly2 (p : list vec3 * list (list vec3)) : list vec2 * list (list vec2) :=
    (polyline3_to_polyline2 (fst p), map polyline3_to_polyline2 (snd p)).

  (** path_to_polygon_simple, path.cc:133-156: the end points of the commands. *)
  Fixpoint path_to_polygon_simple (p : path) : list vec2 :=
    match p with
    | [] => []
    | (MoveTo q | LineTo q | QuadTo _ q | CubicTo _ _ q) :: r => q :: path_to_polygon_simple r
    | Close :: r => path_to_polygon_simple r
    end.
  (** path_from_polygon, path.cc:158-173. *)
  Definition path_from_polygon (v : list vec2) : path :=
    match v with
    | [] => []
    | p :: r => MoveTo p :: map LineTo r ++ [Close]
    end.
  (** path_add_poly_line, path_add_poly_ring: path.cc:299-323. *)
  Definition add_poly_line (p : path) (v : list vec2) : path :=
    match v with [] => p | q :: r => p ++ MoveTo q :: map LineTo r end.
  Definition add_poly_ring (p : path) (v : list vec2) : path :=
    match v with [] => p | q :: r => p ++ MoveTo q :: map LineTo r ++ [Close] end.
  (** path_from_poly2, path.cc:175-184. *)
  Definition path_from_poly2 (poly : list vec2 * list (list vec2)) : path :=
    fold_left add_poly_ring (snd poly) (add_poly_ring [] (fst poly)).
  (** path_transform, path.cc:186-222. *)
  Definition move_point (m : mat3) (p : vec2) : vec2 :=
    let v := mapply m (mk_vec3 (vx p) (vy p) (Fin 1)) in mk_vec2 (wx v) (wy v).
  Definition transform_cmd (m : mat3) (c : path_cmd) : path_cmd :=
    match c with
    | MoveTo p => MoveTo (move_point m p)
    | LineTo p => LineTo (move_point m p)
    | QuadTo c p => QuadTo (move_point m c) (move_point m p)
    | CubicTo c1 c2 p => CubicTo (move_point m c1) (move_point m c2) (move_point m p)
    | Close => Close
    end.
  Definition path_transform (p : path) (m : mat3) : path := map (transform_cmd m) p.
  (** path_add_line, path_add_rectangle (two versions), path_add_circle: path.cc:224-297. *)
  Definition add_line (p : path) (a b : vec2) : path := p ++ [MoveTo a; LineTo b].
  Definition half (a : xr) : xr := xdiv d a (Fin 2).
  Definition add_rectangle_centered (p : path) (o s : vec2) : path :=
    let pt fx fy := mk_vec2 (fx (vx o) (half (vx s))) (fy (vy o) (half (vy s))) in
    p ++ [MoveTo (pt (xadd d) (xadd d)); LineTo (pt (xadd d) (xsub d)); LineTo (pt (xsub d) (xsub d));
          LineTo (pt (xsub d) (xadd d)); Close].
  Definition add_rectangle (p : path) (b : rectangle) : path :=
    p ++ [MoveTo (mk_vec2 (rx b) (ry b));
          LineTo (mk_vec2 (rx b) (xadd d (ry b) (rh b)));
          LineTo (mk_vec2 (xadd d (rx b) (rw b)) (xadd d (ry b) (rh b)));
          LineTo (mk_vec2 (xadd d (rx b) (rw b)) (ry b)); Close].
  Definition circle_k : xr := Fin (d (552284749831 / 1000000000000)).
  Definition add_circle (p : path) (o : vec2) (r : xr) : path :=
    let x := vx o in let y := vy o in
    let k := xmul d r circle_k in
    p ++ [MoveTo (mk_vec2 x (xsub d y r));
          CubicTo (mk_vec2 (xsub d x k) (xsub d y r)) (mk_vec2 (xsub d x r) (xsub d y k)) (mk_vec2 (xsub d x r) y);
          CubicTo (mk_vec2 (xsub d x r) (xadd d y k)) (mk_vec2 (xsub d x k) (xadd d y r)) (mk_vec2 x (xadd d y r));
          CubicTo (mk_vec2 (xadd d x k) (xadd d y r)) (mk_vec2 (xadd d x r) (xadd d y k)) (mk_vec2 (xadd d x r) y);
          CubicTo (mk_vec2 (xadd d x r) (xsub d y k)) (mk_vec2 (xadd d x k) (xsub d y r)) (mk_vec2 x (xsub d y r));
          Close].

  (* ---------------- /repo/src/graphics/layout.cc ---------------- *)
  (** layout_margin_box, layout.cc:21-33. *)
  Definition layout_margin_box (p : rectangle) (top right bottom left : xr) : rectangle :=
    mk_rect (xadd d (rx p) left) (xadd d (ry p) bottom)
      (xmax (xsub d (rw p) (xadd d left right)) (Fin 0))
      (xmax (xsub d (rh p) (xadd d top bottom)) (Fin 0)).
  (** layout_align, layout.cc:35-72. *)
  Definition layout_align_mid (b : rectangle) (t : vec2) : vec2 :=
    mk_vec2 (xsub d (vx t) (xadd d (rx b) (half (rw b)))) (xsub d (vy t) (xadd d (ry b) (half (rh b)))).
  Definition layout_align (b : rectangle) (t : vec2) (h : halign) (v : valign) : vec2 :=
    let x := match h with
             | HLeft => xadd d (vx t) (half (rw b))
             | HRight => xsub d (vx t) (half (rw b))
             | HCenter => vx t
             end in
    let y := match v with
             | VTop => xsub d (vy t) (half (rh b))
             | VBottom => xadd d (vy t) (half (rh b))
             | VCenter => vy t
             end in
    layout_align_mid b (mk_vec2 x y).
  (** box_rotate_bounds, layout.cc:74-106. *)
  Definition min4 (a b c e : xr) : xr := xmin (xmin (xmin a b) c) e.
  Definition max4 (a b c e : xr) : xr := xmax (xmax (xmax a b) c) e.
  Definition box_rotate_bounds (b : rectangle) (angle : xr) : rectangle :=
    let t := xdiv d (xmul d (xneg angle) m_pi) (Fin 180) in
    let i := xsin t in let q := xcos t in
    let hf a := xmul d a (Fin (/ 2)) in let mh a := xmul d a (Fin (- / 2)) in
    let X u v := xsub d (xmul d q u) (xmul d i v) in
    let Y u v := xadd d (xmul d q u) (xmul d i v) in
    let x1 := X (hf (rw b)) (hf (rh b)) in let x2 := X (hf (rw b)) (mh (rh b)) in
    let x3 := X (mh (rw b)) (mh (rh b)) in let x4 := X (mh (rw b)) (hf (rh b)) in
    let y1 := Y (hf (rh b)) (hf (rw b)) in let y2 := Y (mh (rh b)) (hf (rw b)) in
    let y3 := Y (mh (rh b)) (mh (rw b)) in let y4 := Y (hf (rh b)) (mh (rw b)) in
    let w := xsub d (max4 x1 x2 x3 x4) (min4 x1 x2 x3 x4) in
    let h := xsub d (max4 y1 y2 y3 y4) (min4 y1 y2 y3 y4) in
    mk_rect (xsub d (xadd d (rx b) (hf (rw b))) (hf w)) (xsub d (xadd d (ry b) (hf (rh b))) (hf h)) w h.

  (* ---------------- /repo/src/graphics/intersect.cc ---------------- *)
  Definition eps : xr := Fin (d (1 / 1000)).
  (** intersect_line_line, intersect.cc:18-89; [None] for "parallel". *)
  Definition intersect_line_line (p0 v0 p1 v1 : vec2) : option vec2 :=
    let v0 := normalize v0 in let v1 := normalize v1 in
    let a := xacos (dot v0 v1) in
    let a_norm := xfmod (xsub d m_pi a) m_pi in
    if xlt a_norm eps then None else
    let a0 := xneg (vy v0) in let a1 := xneg (vy v1) in
    let b0 := vx v0 in let b1 := vx v1 in
    let c0 := xadd d (xmul d a0 (vx p0)) (xmul d b0 (vy p0)) in
    let c1 := xadd d (xmul d a1 (vx p1)) (xmul d b1 (vy p1)) in
    let dd := xsub d (xmul d a0 b1) (xmul d b0 a1) in
    let dx := xsub d (xmul d b1 c0) (xmul d b0 c1) in
    let dy := xsub d (xmul d a0 c1) (xmul d a1 c0) in
    Some (mk_vec2 (xdiv d dx dd) (xdiv d dy dd)).
  Definition outside (pt s e : vec2) : bool :=
    xlt (xadd d (vx pt) eps) (xmin (vx s) (vx e)) || xlt (xmax (vx s) (vx e)) (xsub d (vx pt) eps) ||
    xlt (xadd d (vy pt) eps) (xmin (vy s) (vy e)) || xlt (xmax (vy s) (vy e)) (xsub d (vy pt) eps).
  (** intersect_line_lineseg, intersect.cc:91-127. *)
  Definition intersect_line_lineseg (p0 v0 s1 e1 : vec2) : option vec2 :=
    match intersect_line_line p0 v0 s1 (normalize (vsub e1 s1)) with
    | None => None
    | Some pt => if outside pt s1 e1 then None else Some pt
    end.
  (** intersect_lineseg_lineseg, intersect.cc:129-169. *)
  Definition intersect_lineseg_lineseg (s0 e0 s1 e1 : vec2) : option vec2 :=
    match intersect_line_line s0 (vsub e0 s0) s1 (normalize (vsub e1 s1)) with
    | None => None
    | Some pt => if outside pt s0 e0 || outside pt s1 e1 then None else Some pt
    end.
  (** The edges of a polygon: from each vertex to the next, the last to the first. *)
  Definition edges (v : list vec2) : list (vec2 * vec2) :=
    match v with [] => [] | p :: r => combine v (r ++ [p]) end.
  (** intersect_poly_line, intersect_poly_lineseg: intersect.cc:171-212. *)
  Fixpoint collect {A B} (f : A -> option B) (l : list A) : list B :=
    match l with [] => [] | a :: r => match f a with Some b => b :: collect f r | None => collect f r end end.
  Definition intersect_poly_line (poly : list vec2) (p1 v1 : vec2) : list vec2 :=
    collect (fun e => intersect_line_lineseg p1 v1 (fst e) (snd e)) (edges poly).
  Definition intersect_poly_lineseg (poly : list vec2) (s1 e1 : vec2) : list vec2 :=
    collect (fun e => intersect_lineseg_lineseg (fst e) (snd e) s1 e1) (edges poly).

  (* ---------------- /repo/src/graphics/shape_hatch.cc ---------------- *)
  (** std::sort by angle around the mean, vmath.cc:188-196. *)
  Variable sort_cw : list vec2 -> list vec2.
  (** shape_hatch, shape_hatch.cc:19-88: one stripe of the loop body ... *)
  Definition stripe (clip : list vec2) (origin direction ortho : vec2) (i : nat) (s stride offset width : xr) : list vec2 :=
    let at_ w := vadd origin (vmul ortho (xadd d (xadd d (xmul d (xmul d (Fin (INR i)) s) stride) offset) (xmul d width (Fin w)))) in
    intersect_poly_line clip (at_ (/ 2)) direction ++ intersect_poly_line clip (at_ (- / 2)) direction.
  Definition stripe_path (v : list vec2) : path :=
    match sort_cw v with [] => [] | p :: r => MoveTo p :: map LineTo r end.
  Definition signs (i : nat) : list xr := match i with O => [Fin 0] | _ => [Fin (-1); Fin 1] end.
  (** ... and the loop, which ends when no stripe meets the polygon in three points. *)
  Fixpoint hatch_loop (fuel i : nat) (clip : list vec2) (origin direction ortho : vec2) (stride offset width : xr) (p : path)
    : outcome path :=
    match fuel with
    | O => Diverge
    | S fuel' =>
        let drawn := filter (fun v => (3 <=? length v)%nat)
                       (map (fun s => stripe clip origin direction ortho i s stride offset width) (signs i)) in
        let p' := p ++ flat_map stripe_path drawn in
        match drawn with
        | [] => Ret p'
        | _ => hatch_loop fuel' (S i) clip origin direction ortho stride offset width p'
        end
    end.
  Definition shape_hatch (fuel : nat) (clip : list vec2) (angle offset stride width : xr) : outcome path :=
    if xeq stride (Fin 0) then Ret [] else
    hatch_loop fuel 0 clip (mean clip) (from_deg angle) (from_deg (xadd d angle (Fin 90))) stride offset width [].
End Geo.
