(** Theorems about vectors, paths, boxes, intersections and hatching: C43-C45 and C60-C63.
    [P] embeds a real point, [M] a real matrix, in the model's numbers. *)
From Verif Require Import Base Num Num_Facts Geo_Model Geo_Spec Geo_Proofs.
From Flocq Require Import Plus_error Relative.
From Coq Require Import Permutation Ratan.
Local Open Scope R_scope.

(* ------------------------------------------------------------------ C43 *)
(** C43. The entry in row i, column j of a matrix. *)
Definition entry (m : mat3) (i j : nat) : xr :=
  nth j (nth i [[ma m; mb m; mc m]; [md m; me m; mf m]; [mg m; mh m; mi m]] []) NaN.
(** A matrix with real entries [e]. *)
Definition real_mat (m : mat3) (e : nat -> nat -> R) : Prop :=
  forall i j, (i < 3)%nat -> (j < 3)%nat -> entry m i j = Fin (e i j).

(** C43. The product of two matrices is the matrix of the row-times-column sums. *)
Theorem C43_product : forall (a b : mat3) (ea eb : nat -> nat -> R),
  real_mat a ea -> real_mat b eb ->
  real_mat (mmul exact a b) (fun i j => ea i 0%nat * eb 0%nat j + ea i 1%nat * eb 1%nat j + ea i 2%nat * eb 2%nat j).
Proof.
  intros a b ea eb A B i j I J.
  pose proof (fun i j (H : (i < 3)%nat) (K : (j < 3)%nat) => A i j H K) as A'.
  assert (A0 := A 0%nat 0%nat ltac:(lia) ltac:(lia)). assert (A1 := A 0%nat 1%nat ltac:(lia) ltac:(lia)). assert (A2 := A 0%nat 2%nat ltac:(lia) ltac:(lia)).
  assert (A3 := A 1%nat 0%nat ltac:(lia) ltac:(lia)). assert (A4 := A 1%nat 1%nat ltac:(lia) ltac:(lia)). assert (A5 := A 1%nat 2%nat ltac:(lia) ltac:(lia)).
  assert (A6 := A 2%nat 0%nat ltac:(lia) ltac:(lia)). assert (A7 := A 2%nat 1%nat ltac:(lia) ltac:(lia)). assert (A8 := A 2%nat 2%nat ltac:(lia) ltac:(lia)).
  assert (B0 := B 0%nat 0%nat ltac:(lia) ltac:(lia)). assert (B1 := B 0%nat 1%nat ltac:(lia) ltac:(lia)). assert (B2 := B 0%nat 2%nat ltac:(lia) ltac:(lia)).
  assert (B3 := B 1%nat 0%nat ltac:(lia) ltac:(lia)). assert (B4 := B 1%nat 1%nat ltac:(lia) ltac:(lia)). assert (B5 := B 1%nat 2%nat ltac:(lia) ltac:(lia)).
  assert (B6 := B 2%nat 0%nat ltac:(lia) ltac:(lia)). assert (B7 := B 2%nat 1%nat ltac:(lia) ltac:(lia)). assert (B8 := B 2%nat 2%nat ltac:(lia) ltac:(lia)).
  cbn in A0, A1, A2, A3, A4, A5, A6, A7, A8, B0, B1, B2, B3, B4, B5, B6, B7, B8. unfold mmul, sum3.
  rewrite A0, A1, A2, A3, A4, A5, A6, A7, A8, B0, B1, B2, B3, B4, B5, B6, B7, B8.
  destruct i as [|[|[|i]]]; [| | |lia]; (destruct j as [|[|[|j]]]; [| | |lia]); reflexivity.
Qed.
Print Assumptions C43_product.

Example C43_product_example : real_mat (rotate2 exact (Fin 30)) (fun i j => match entry (rotate2 exact (Fin 30)) i j with Fin r => r | _ => 0 end).
Proof. rewrite rotate2_fin. intros i j I J. destruct i as [|[|[|i]]]; [| | |lia]; (destruct j as [|[|[|j]]]; [| | |lia]); reflexivity. Qed.

(** C43. Multiplication is associative with the identity as unit. *)
Theorem C43_associative : forall a b c e f g h i j a' b' c' e' f' g' h' i' j' a'' b'' c'' e'' f'' g'' h'' i'' j'' : R,
  let A := M a b c e f g h i j in let B := M a' b' c' e' f' g' h' i' j' in let C := M a'' b'' c'' e'' f'' g'' h'' i'' j'' in
  mmul exact (mmul exact A B) C = mmul exact A (mmul exact B C) /\
  mmul exact (M 1 0 0 0 1 0 0 0 1) A = A /\ mmul exact A (M 1 0 0 0 1 0 0 0 1) = A.
Proof. intros. unfold A, B, C, M, mmul, sum3. cbn. ex. repeat split; f_equal; f_equal; ring. Qed.
Print Assumptions C43_associative.

(** C43. Applying a product equals applying the factors in turn. *)
Theorem C43_apply : forall a b c e f g h i j a' b' c' e' f' g' h' i' j' x y z : R,
  let A := M a b c e f g h i j in let B := M a' b' c' e' f' g' h' i' j' in let v := mk_vec3 (Fin x) (Fin y) (Fin z) in
  mapply exact (mmul exact A B) v = mapply exact A (mapply exact B v).
Proof. intros. unfold A, B, v, M, mmul, mapply, sum3. cbn. ex. f_equal; f_equal; ring. Qed.
Print Assumptions C43_apply.

(** C43. All points of a path, and the kinds of its commands. *)
Definition points (p : path) : list vec2 :=
  flat_map (fun c => match c with MoveTo q | LineTo q => [q] | QuadTo c q => [c; q] | CubicTo c1 c2 q => [c1; c2; q] | Close => [] end) p.
Definition kinds (p : path) : list nat :=
  map (fun c => match c with MoveTo _ => 0 | LineTo _ => 1 | QuadTo _ _ => 2 | CubicTo _ _ _ => 3 | Close => 4 end)%nat p.

(** C43. Transforming a path keeps its commands and transforms every point; a point is
    mapped by the two upper rows of the matrix. *)
Theorem C43_path : forall (d : R -> R) (p : path) (m : mat3),
  kinds (path_transform d p m) = kinds p /\
  points (path_transform d p m) = map (move_point d m) (points p).
Proof.
  intros d p m. unfold path_transform, kinds, points. split.
  - rewrite map_map. apply map_ext. now intros [].
  - induction p as [|c p IH]; [reflexivity|]. cbn. rewrite map_app, IH. destruct c; reflexivity.
Qed.
Print Assumptions C43_path.
Theorem C43_point : forall (q : pt) (a b c e f g h i j : R),
  move_point exact (M a b c e f g h i j) (P q) = P (a * fst q + b * snd q + c, e * fst q + f * snd q + g).
Proof. intros. unfold move_point, mapply, sum3, P, M. cbn. ex. f_equal; f_equal; ring. Qed.
Print Assumptions C43_point.

(** C43. Transforming twice equals transforming once with the product, for affine matrices
    (last row 0 0 1), which is all the code ever builds (C43_builders). *)
Theorem C43_path_compose_partial : forall (p : path) (a b c e f g a' b' c' e' f' g' : R),
  (forall q, In q (points p) -> exists z, q = P z) ->
  let A := M a b c e f g 0 0 1 in let B := M a' b' c' e' f' g' 0 0 1 in
  path_transform exact (path_transform exact p B) A = path_transform exact p (mmul exact A B).
Proof.
  intros p a b c e f g a' b' c' e' f' g' F A B. unfold path_transform. rewrite map_map. apply map_ext_in.
  assert (Q : forall z, move_point exact A (move_point exact B (P z)) = move_point exact (mmul exact A B) (P z)).
  { intro z. unfold A, B. rewrite !C43_point. unfold move_point, mmul, mapply, sum3, P, M. cbn. ex. f_equal; f_equal; ring. }
  assert (G : forall q, In q (points p) -> move_point exact A (move_point exact B q) = move_point exact (mmul exact A B) q).
  { intros q I. destruct (F q I) as [z ->]. apply Q. }
  intros k K. assert (G' : forall q, In q (points [k]) -> In q (points p)).
  { intros q I. unfold points in *. apply in_flat_map. exists k. split; [assumption|]. cbn in I. now rewrite app_nil_r in I. }
  destruct k; cbn; try reflexivity; f_equal; apply G, G'; cbn; auto.
Qed.
Print Assumptions C43_path_compose_partial.
(** ... but not for matrices in general: the third coordinate is dropped between the steps. *)
Theorem C43_path_compose_refuted : exists (A B : mat3) (p : path),
  path_transform exact (path_transform exact p B) A <> path_transform exact p (mmul exact A B).
Proof.
  exists (M 1 0 1 0 1 0 0 0 1), (M 1 0 0 0 1 0 0 0 2), [MoveTo (P (0, 0))].
  unfold path_transform, transform_cmd, move_point, mmul, mapply, sum3, P, M. cbn. ex. intro E. injection E as E _. lra.
Qed.
Print Assumptions C43_path_compose_refuted.

(** C43. What the matrix builders do to a point: move by t, stretch by s, mirror, and turn
    clockwise (where y points up) by the angle in degrees; distances survive a rotation, and
    rotations add up. *)
Theorem C43_builders : forall (q t : pt) (a b : R),
  move_point exact (translate2 (P t)) (P q) = P (plus q t) /\
  move_point exact (scale2 (P t)) (P q) = P (fst t * fst q, snd t * snd q) /\
  move_point exact invert_y2 (P q) = P (fst q, - snd q) /\
  move_point exact (rotate2 exact (Fin a)) (P q) = P (turn (- (a * PI / 180)) (0, 0) q) /\
  mmul exact (rotate2 exact (Fin a)) (rotate2 exact (Fin b)) = rotate2 exact (Fin (a + b)) /\
  from_deg exact (Fin a) = move_point exact (rotate2 exact (Fin a)) (P (1, 0)).
Proof.
  intros q t a b. rewrite !rotate2_fin. repeat split.
  - unfold move_point, translate2, mapply, sum3, P, plus. cbn. ex. f_equal; f_equal; ring.
  - unfold move_point, scale2, mapply, sum3, P. cbn. ex. f_equal; f_equal; ring.
  - unfold move_point, invert_y2, mapply, sum3, P. cbn. ex. f_equal; f_equal; ring.
  - rewrite C43_point. unfold turn. rewrite cos_neg, sin_neg. unfold P. cbn. f_equal; f_equal; ring.
  - replace ((a + b) * PI / 180) with (a * PI / 180 + b * PI / 180) by field.
    rewrite cos_plus, sin_plus. unfold mmul, sum3, M. cbn. ex. f_equal; f_equal; ring.
  - rewrite C43_point, from_deg_fin. unfold P. cbn. f_equal; f_equal; ring.
Qed.
Print Assumptions C43_builders.
Theorem C43_rotation_distance : forall (q r : pt) (a : R), exists q' r',
  move_point exact (rotate2 exact (Fin a)) (P q) = P q' /\ move_point exact (rotate2 exact (Fin a)) (P r) = P r' /\
  dist2 q' r' = dist2 q r.
Proof.
  intros q r a. destruct (C43_builders q q a a) as (_ & _ & _ & A & _). destruct (C43_builders r r a a) as (_ & _ & _ & B & _).
  rewrite A, B. do 2 eexists. split; [reflexivity|]. split; [reflexivity|].
  unfold dist2, turn, minus, inner. cbn. set (t := - _). pose proof (sin2_cos2 t) as K. unfold Rsqr in K.
  transitivity (((fst q - fst r) * (fst q - fst r) + (snd q - snd r) * (snd q - snd r)) * (sin t * sin t + cos t * cos t)); [ring|rewrite K; ring].
Qed.
Print Assumptions C43_rotation_distance.

(* ------------------------------------------------------------------ C44 *)
(** C44. Polygon to path and back, for every list of vertices and every value in it. *)
Theorem C44_round_trip : forall v : list vec2, path_to_polygon_simple (path_from_polygon v) = v.
Proof.
  destruct v as [|p r]; [reflexivity|]. cbn. f_equal. induction r as [|q r IH]; [reflexivity|]. cbn. now rewrite IH.
Qed.
Print Assumptions C44_round_trip.

(** C44. The paths: a ring starts at its first vertex, visits the others in order and is
    closed; a polyline is the same without closing; a polygon with holes is its boundary's
    ring followed by the rings of its holes. *)
Theorem C44_rings : forall (p : path) (q : vec2) (r : list vec2) (boundary : list vec2) (holes : list (list vec2)),
  path_from_polygon (q :: r) = add_poly_ring [] (q :: r) /\
  add_poly_ring p (q :: r) = p ++ MoveTo q :: map LineTo r ++ [Close] /\ add_poly_ring p [] = p /\
  add_poly_line p (q :: r) = p ++ MoveTo q :: map LineTo r /\ add_poly_line p [] = p /\
  path_from_poly2 (boundary, holes) = flat_map (add_poly_ring []) (boundary :: holes).
Proof.
  intros. repeat split. unfold path_from_poly2. cbn [fst snd flat_map].
  assert (A : forall v p0, add_poly_ring p0 v = p0 ++ add_poly_ring [] v) by (intros [|? ?] p0; cbn; [now rewrite app_nil_r|reflexivity]).
  assert (H : forall hs p0, fold_left add_poly_ring hs p0 = p0 ++ flat_map (add_poly_ring []) hs).
  { induction hs as [|h hs IH]; intro p0; cbn; [now rewrite app_nil_r|]. now rewrite IH, A, app_assoc. }
  apply H.
Qed.
Print Assumptions C44_rings.

(** C44. Dropping the third coordinate keeps boundary, holes, order and x, y. *)
Theorem C44_flatten : forall (b : list vec3) (hs : list (list vec3)) (i k : nat),
  nth_error (fst (poly3_to_poly2 (b, hs))) i = option_map (fun v => mk_vec2 (wx v) (wy v)) (nth_error b i) /\
  length (snd (poly3_to_poly2 (b, hs))) = length hs /\
  nth_error (nth k (snd (poly3_to_poly2 (b, hs))) []) i = option_map (fun v => mk_vec2 (wx v) (wy v)) (nth_error (nth k hs []) i).
Proof.
  intros b hs i k. cbn [poly3_to_poly2 fst snd]. split; [apply nth_error_map|]. split; [apply map_length|].
  change (@nil vec2) with (polyline3_to_polyline2 []). rewrite map_nth. apply nth_error_map.
Qed.
Print Assumptions C44_flatten.

(** C44. The rectangle helpers: closed paths through exactly the four corners of the box
    [x, x+w] x [y, y+h], and of the box of the given size around a centre. *)
Theorem C44_rectangles : forall (p : path) (x y w h : R),
  add_rectangle exact p (mk_rect (Fin x) (Fin y) (Fin w) (Fin h)) =
    p ++ path_from_polygon (map P [(x, y); (x, y + h); (x + w, y + h); (x + w, y)]) /\
  add_rectangle_centered exact p (P (x, y)) (P (w, h)) =
    p ++ path_from_polygon (map P [(x + w / 2, y + h / 2); (x + w / 2, y - h / 2); (x - w / 2, y - h / 2); (x - w / 2, y + h / 2)]) /\
  add_line p (P (x, y)) (P (w, h)) = p ++ [MoveTo (P (x, y)); LineTo (P (w, h))].
Proof.
  intros p x y w h. split; [reflexivity|]. split; [|reflexivity]. unfold add_rectangle_centered, half. change (vx (P (x, y))) with (Fin x). change (vy (P (x, y))) with (Fin y). change (vx (P (w, h))) with (Fin w). change (vy (P (w, h))) with (Fin h).
  rewrite !xdiv_fin by lra. reflexivity.
Qed.
Print Assumptions C44_rectangles.

(* ------------------------------------------------------------------ C60 *)
(** C60. The points drawn by a path of cubic curves, starting at [s]. *)
Inductive drawn : pt -> path -> pt -> Prop :=
| drawn_here : forall s c1 c2 e r t, 0 <= t <= 1 -> drawn s (CubicTo (P c1) (P c2) (P e) :: r) (bezier s c1 c2 e t)
| drawn_later : forall s c1 c2 e r q, drawn e r q -> drawn s (CubicTo (P c1) (P c2) (P e) :: r) q.

(** The radius along one quarter with control distance k. *)
Lemma quarter_radius k t : let u := t * (1 - t) in
  let x := 3 * (1 - t) * (1 - t) * t * k + 3 * (1 - t) * t * t + t * t * t in
  let y := (1 - t) * (1 - t) * (1 - t) + 3 * (1 - t) * (1 - t) * t + 3 * (1 - t) * t * t * k in
  x * x + y * y = 1 + u * u * ((9 * k * k + 6 * k - 6) - 2 * (3 * k - 2) * (3 * k - 2) * u).
Proof. cbn. ring. Qed.
Lemma quarter_bound t : 0 <= t <= 1 ->
  let k := 552284749831 / 1000000000000 in
  let x := 3 * (1 - t) * (1 - t) * t * k + 3 * (1 - t) * t * t + t * t * t in
  let y := (1 - t) * (1 - t) * (1 - t) + 3 * (1 - t) * (1 - t) * t + 3 * (1 - t) * t * t * k in
  1 <= x * x + y * y <= (1000273 / 1000000) * (1000273 / 1000000).
Proof.
  intros T k x y. unfold x, y. rewrite quarter_radius. cbn zeta.
  set (u := t * (1 - t)). assert (U : 0 <= u <= 1 / 4) by (unfold u; split; [nra|pose proof (Rle_0_sqr (t - 1 / 2)) as Z; unfold Rsqr in Z; lra]).
  set (a := 9 * k * k + 6 * k - 6). set (b := 2 * (3 * k - 2) * (3 * k - 2)).
  assert (A : 588745030490 / 10000000000000 <= a <= 588745030491 / 10000000000000) by (unfold a, k; lra).
  assert (B : 235498012182 / 1000000000000 <= b <= 235498012183 / 1000000000000) by (unfold b, k; lra).
  assert (K : b / 4 <= a) by (unfold a, b, k; lra).
  split.
  - assert (0 <= u * u) by nra. assert (0 <= a - b * u) by nra. nra.
  - assert (E : u * u * (a - b * u) <= u * u * (5887450305 / 100000000000 - 235498012 / 1000000000 * u)).
    { apply Rmult_le_compat_l; [nra|]. nra. }
    assert (F : u * u * (5887450305 / 100000000000 - 235498012 / 1000000000 * u) <= 1000273 / 1000000 * (1000273 / 1000000) - 1); [|lra].
    assert (0 <= (u - 1 / 6) * (u - 1 / 6) * (u + 1 / 12)) by (apply Rmult_le_pos; [apply Rle_0_sqr|lra]). nra.
Qed.

(** C60. A circle is drawn by four cubic curves whose points all lie at a distance from the
    centre between r and 1.000273 r; the path is closed and starts where it ends. *)
Theorem C60_circle : forall (p : path) (x y r : R), 0 <= r ->
  exists top curves, add_circle exact p (P (x, y)) (Fin r) = p ++ MoveTo (P top) :: curves ++ [Close] /\
    top = (x, y - r) /\ length curves = 4%nat /\
    (exists c1 c2, last curves Close = CubicTo c1 c2 (P top)) /\
    forall q, drawn top (curves ++ [Close]) q ->
      r * r <= dist2 q (x, y) <= (1000273 / 1000000 * r) * (1000273 / 1000000 * r).
Proof.
  intros p x y r Hr. set (k := r * (552284749831 / 1000000000000)).
  exists (x, y - r),
    [CubicTo (P (x - k, y - r)) (P (x - r, y - k)) (P (x - r, y));
     CubicTo (P (x - r, y + k)) (P (x - k, y + r)) (P (x, y + r));
     CubicTo (P (x + k, y + r)) (P (x + r, y + k)) (P (x + r, y));
     CubicTo (P (x + r, y - k)) (P (x + k, y - r)) (P (x, y - r))].
  split; [reflexivity|]. split; [reflexivity|]. split; [reflexivity|]. split; [eexists; eexists; reflexivity|].
  assert (Q : forall t, 0 <= t <= 1 -> forall X Y,
     X = r * (3 * (1 - t) * (1 - t) * t * (552284749831 / 1000000000000) + 3 * (1 - t) * t * t + t * t * t) ->
     Y = r * ((1 - t) * (1 - t) * (1 - t) + 3 * (1 - t) * (1 - t) * t + 3 * (1 - t) * t * t * (552284749831 / 1000000000000)) ->
     r * r <= X * X + Y * Y <= 1000273 / 1000000 * r * (1000273 / 1000000 * r)).
  { intros t T X Y -> ->. pose proof (quarter_bound t T) as K. cbn zeta in K.
    match type of K with _ <= ?a * ?a + ?b * ?b <= _ => set (xx := a) in *; set (yy := b) in * end.
    replace (r * xx * (r * xx) + r * yy * (r * yy)) with (r * r * (xx * xx + yy * yy)) by ring.
    assert (0 <= r * r) by nra. split; nra. }
  intros q D.
  assert (I : forall s c1 c2 e rest, drawn s (CubicTo (P c1) (P c2) (P e) :: rest) q ->
            (exists t, 0 <= t <= 1 /\ q = bezier s c1 c2 e t) \/ drawn e rest q).
  { intros s c1 c2 e rest H. inversion H as [s' c1' c2' e' rest' t T E1 E2 E3|s' c1' c2' e' rest' q' H' E1 E2 E3]; subst; [left|right].
    - exists t. split; [assumption|]. destruct c1, c2, e, c1', c2', e'. cbn in *. congruence.
    - destruct e, e'. cbn in *. congruence. }
  cbn [app] in D.
  apply I in D. destruct D as [(t & T & ->)|D];
    [|apply I in D; destruct D as [(t & T & ->)|D];
      [|apply I in D; destruct D as [(t & T & ->)|D];
        [|apply I in D; destruct D as [(t & T & ->)|D]; [|inversion D]]]];
    unfold dist2, minus, inner, bezier; cbn [fst snd]; fold k;
    match goal with |- _ <= ?A * ?A + ?B * ?B <= _ => set (X := A); set (Y := B) end.
  - replace (X * X + Y * Y) with (- X * - X + - Y * - Y) by ring. apply (Q t T); unfold X, Y, k; field.
  - replace (X * X + Y * Y) with (Y * Y + - X * - X) by ring. apply (Q t T); unfold X, Y, k; field.
  - apply (Q t T); unfold X, Y, k; field.
  - replace (X * X + Y * Y) with (- Y * - Y + X * X) by ring. apply (Q t T); unfold X, Y, k; field.
Qed.
Print Assumptions C60_circle.

(* ------------------------------------------------------------------ C45 *)
(** C45. Margins that fit leave a box inside the parent, at exactly the margins' distances
    from its four edges. *)
Theorem C45_margins : forall x y w h top right bottom left : R,
  0 <= top -> 0 <= right -> 0 <= bottom -> 0 <= left -> left + right <= w -> top + bottom <= h ->
  exists x' y' w' h', layout_margin_box exact (mk_rect (Fin x) (Fin y) (Fin w) (Fin h)) (Fin top) (Fin right) (Fin bottom) (Fin left)
      = mk_rect (Fin x') (Fin y') (Fin w') (Fin h') /\
    x' - x = left /\ (x + w) - (x' + w') = right /\ y' - y = bottom /\ (y + h) - (y' + h') = top /\
    (forall q, in_box x' y' w' h' q -> in_box x y w h q).
Proof.
  intros x y w h t r b l T R B L W H. unfold layout_margin_box. cbn [rx ry rw rh]. unfold xsub. cbn [xadd xneg].
  rewrite !xmax_fin. ex. do 4 eexists. split; [reflexivity|].
  rewrite !Rmax_left by lra. unfold in_box. repeat split; lra.
Qed.
Print Assumptions C45_margins.
Example C45_margins_example : 10 + 20 <= 200 /\ 5 + 5 <= 100. Proof. lra. Qed.

(** C45. Whatever the margins and the arithmetic, the size is never negative. *)
Theorem C45_never_negative : forall (d : R -> R) (p : rectangle) (top right bottom left : xr),
  let b := layout_margin_box d p top right bottom left in
  xlt (rw b) (Fin 0) = false /\ xlt (rh b) (Fin 0) = false.
Proof.
  intros d p t r b l. unfold layout_margin_box. cbn [rw rh].
  assert (A : forall a, xlt (xmax a (Fin 0)) (Fin 0) = false).
  { intro a. unfold xmax. destruct (xlt a (Fin 0)) eqn:E; [|exact E]. apply xlt_fin_f. lra. }
  split; apply A.
Qed.
Print Assumptions C45_never_negative.

(** C45. In binary64 arithmetic the left edge never moves outwards, and the right edge is
    off by at most a few units in the last place of the parent's coordinates (the same holds
    for y, top and bottom, by symmetry of the code). *)
Lemma plus64 x y : is64 x -> is64 y -> Rabs (rnd64 (x + y) - (x + y)) <= bpow radix2 (-53) * Rabs (x + y).
Proof.
  intros X Y. destruct (@FLT_plus_error_N_ex radix2 (-1074) 53 eq_refl (fun z => negb (Z.even z)) x y X Y) as (e & E & Q). unfold rnd64. rewrite Q.
  replace ((x + y) * (1 + e) - (x + y)) with (e * (x + y)) by ring. rewrite Rabs_mult.
  apply Rmult_le_compat_r; [apply Rabs_pos|]. eapply Rle_trans; [exact E|]. 
  assert (H : u_ro radix2 53 = bpow radix2 (-53)).
  { unfold u_ro. rewrite bpow_plus. change (bpow radix2 1) with 2. change (- (53))%Z with (-53)%Z. field. }
  rewrite H. pose proof (bpow_gt_0 radix2 (-53)).
  apply Rmult_le_reg_r with (1 + bpow radix2 (-53)); [lra|]. unfold Rdiv. rewrite Rmult_assoc, Rinv_l by lra. nra.
Qed.
Theorem C45_margins_binary64 : forall x y w h top right bottom left : R,
  is64 x -> is64 w -> is64 left -> is64 right ->
  0 <= right -> 0 <= left -> left + right <= w ->
  exists x' w', rx (layout_margin_box rnd64 (mk_rect (Fin x) (Fin y) (Fin w) (Fin h)) (Fin top) (Fin right) (Fin bottom) (Fin left)) = Fin x' /\
    rw (layout_margin_box rnd64 (mk_rect (Fin x) (Fin y) (Fin w) (Fin h)) (Fin top) (Fin right) (Fin bottom) (Fin left)) = Fin w' /\
    x <= x' /\ 0 <= w' /\
    Rabs ((x' + w') - (x + w - right)) <= bpow radix2 (-53) * (Rabs x + 4 * w).
Proof.
  intros x y w h t r b l X W L R R0 L0 F. unfold layout_margin_box. cbn [rx rw]. unfold xsub. cbn [xadd xneg].
  rewrite xmax_fin. do 2 eexists. split; [reflexivity|]. split; [reflexivity|].
  split; [rewrite <- (rnd64_id x X) at 1; apply rnd64_mono; lra|]. split; [apply Rmax_r|].
  set (u := bpow radix2 (-53)). assert (U : 0 < u <= / 1000).
  { split; [apply bpow_gt_0|]. unfold u. cbn. lra. }
  pose proof (plus64 x l X L) as A. pose proof (plus64 l r L R) as B.
  set (m := rnd64 (l + r)) in *.
  assert (C : Rabs (rnd64 (w + - m) - (w + - m)) <= u * Rabs (w + - m)).
  { apply plus64; [exact W|]. apply generic_format_opp, rnd64_is. }
  fold u in A, B. set (x' := rnd64 (x + l)) in *. set (z := rnd64 (w + - m)) in *.
  rewrite (Rabs_pos_eq (l + r)) in B by lra.
  assert (A' : Rabs (x + l) <= Rabs x + l) by (eapply Rle_trans; [apply Rabs_triang|rewrite (Rabs_pos_eq l) by lra; lra]).
  apply Rabs_le_inv in A. apply Rabs_le_inv in B. apply Rabs_le_inv in C.
  pose proof (Rabs_pos x) as PX.
  assert (A2 : - (u * (Rabs x + l)) <= x' - (x + l) <= u * (Rabs x + l)) by nra.
  assert (Uw : 0 <= u * w) by nra. assert (Ul : u * l <= u * w) by nra. assert (Ulr : u * (l + r) <= u * w) by nra.
  assert (Ulr0 : 0 <= u * (l + r)) by nra.
  apply Rabs_le. unfold Rmax. destruct (Rle_dec z 0) as [Z|Z].
  - (* the computed width is clamped *)
    assert (WM : w + - m <= 0 \/ 0 < w + - m) by lra. destruct WM as [WM|WM].
    + split; lra.
    + rewrite (Rabs_pos_eq (w + - m)) in C by lra. exfalso.
      assert (u * (w + - m) < w + - m) by nra. lra.
  - assert (WM : 0 < w + - m).
    { destruct (Rle_dec (w + - m) 0) as [N|N]; [|lra]. exfalso. apply Z. unfold z.
      rewrite <- (rnd64_id 0) by apply generic_format_0. now apply rnd64_mono. }
    rewrite (Rabs_pos_eq (w + - m)) in C by lra.
    assert (u * (w + - m) <= u * w + u * (u * w)) by nra.
    assert (u * (u * w) <= u * w) by nra. split; nra.
Qed.
Print Assumptions C45_margins_binary64.

(** C45. But the box can stick out of its parent by the rounding error: a left margin of
    2^-60 in the box [0,1] gives the box [2^-60, 1 + 2^-60]. *)
Theorem C45_margins_binary64_refuted :
  layout_margin_box rnd64 (mk_rect (Fin 0) (Fin 0) (Fin 1) (Fin 1)) (Fin 0) (Fin 0) (Fin 0) (Fin (bpow radix2 (-60)))
  = mk_rect (Fin (bpow radix2 (-60))) (Fin 0) (Fin 1) (Fin 1) /\
  1 < bpow radix2 (-60) + 1.
Proof.
  assert (S : is64 (bpow radix2 (-60))).
  { apply generic_format_bpow. unfold FLT_exp. lia. }
  pose proof (bpow_gt_0 radix2 (-60)) as G.
  split; [|lra]. unfold layout_margin_box. cbn [rx ry rw rh]. unfold xsub. cbn [xadd xneg].
  assert (Z0 : rnd64 0 = 0) by (apply rnd64_id, generic_format_0).
  assert (O1 : rnd64 1 = 1) by (apply rnd64_id, (is64_IZR 1); reflexivity).
  rewrite !Rplus_0_l, !Rplus_0_r, (rnd64_id _ S), Z0, Ropp_0, !Rplus_0_r, O1.
  assert (K : rnd64 (1 + - bpow radix2 (-60)) = 1).
  { apply Rle_antisym; [rewrite <- O1 at 2; apply rnd64_mono; lra|].
    destruct (Rle_dec 1 (rnd64 (1 + - bpow radix2 (-60)))) as [Y|N]; [exact Y|exfalso].
    assert (H : Rabs (rnd64 (1 + - bpow radix2 (-60)) - (1 + - bpow radix2 (-60))) <= Rabs (1 - (1 + - bpow radix2 (-60)))).
    { apply (round_N_pt radix2 (FLT_exp (-1074) 53) (fun z => negb (Z.even z)) (1 + - bpow radix2 (-60))).
      apply (is64_IZR 1). reflexivity. }
    replace (1 - (1 + - bpow radix2 (-60))) with (bpow radix2 (-60)) in H by ring. rewrite (Rabs_pos_eq (bpow radix2 (-60))) in H by lra.
    set (v := rnd64 (1 + - bpow radix2 (-60))) in *.
    assert (V : is64 v) by apply rnd64_is. apply Rnot_le_lt in N.
    assert (Q : v <= pred radix2 (FLT_exp (-1074) 53) 1).
    { apply pred_ge_gt; auto with typeclass_instances. apply (is64_IZR 1). reflexivity. }
    change 1 with (bpow radix2 0) in Q. rewrite pred_bpow in Q. cbn -[bpow] in Q.
    apply Rabs_le_inv in H. assert (bpow radix2 (-53) <= 2 * bpow radix2 (-60)) by (change (bpow radix2 0) with 1 in Q; lra).
    cbn in H0. lra. }
  rewrite K, !xmax_fin, !Rmax_left by lra. reflexivity.
Qed.
Print Assumptions C45_margins_binary64_refuted.

(** C45. Aligning: after moving the box by the result, its left / centre / right and its
    bottom / centre / top (y upwards) lie at the target. *)
Theorem C45_align : forall (x y w h : R) (t : pt) (ah : halign) (av : valign), exists p,
  layout_align exact (mk_rect (Fin x) (Fin y) (Fin w) (Fin h)) (P t) ah av = P p /\
  match ah with
  | HLeft => x + fst p = fst t
  | HCenter => x + fst p + w / 2 = fst t
  | HRight => x + fst p + w = fst t
  end /\
  match av with
  | VBottom => y + snd p = snd t
  | VCenter => y + snd p + h / 2 = snd t
  | VTop => y + snd p + h = snd t
  end.
Proof.
  intros x y w h t ah av. unfold layout_align, layout_align_mid, half. cbn [rx ry rw rh].
  rewrite !xdiv_fin by lra. unfold xsub, P. ex. destruct ah, av; cbn [xadd xneg vx vy]; ex;
    eexists (_, _); (split; [reflexivity|]); cbn [fst snd]; split; lra.
Qed.
Print Assumptions C45_align.

(** C45. Hence a box aligned at the opposite edges of a parent it fits into stays inside. *)
Theorem C45_align_inside : forall (x y w h px py pw ph : R) (ah : halign) (av : valign) (p : pt),
  0 <= w <= pw -> 0 <= h <= ph ->
  let t := (match ah with HLeft => px | HCenter => px + pw / 2 | HRight => px + pw end,
            match av with VBottom => py | VCenter => py + ph / 2 | VTop => py + ph end) in
  layout_align exact (mk_rect (Fin x) (Fin y) (Fin w) (Fin h)) (P t) ah av = P p ->
  forall q, in_box (x + fst p) (y + snd p) w h q -> in_box px py pw ph q.
Proof.
  intros x y w h px py pw ph ah av p W H t E q. destruct (C45_align x y w h t ah av) as (p' & E' & A & B).
  rewrite E in E'. assert (p = p') as <- by (destruct p, p'; unfold P in E'; cbn in E'; congruence).
  unfold in_box. unfold t in A, B. destruct ah, av; cbn [fst snd] in A, B; lra.
Qed.
Print Assumptions C45_align_inside.
Example C45_align_example : exists p, layout_align exact (mk_rect (Fin 5) (Fin 7) (Fin 2) (Fin 4)) (P (10, 10)) HRight VTop = P p /\ 5 + fst p = 8 /\ 7 + snd p = 6.
Proof. destruct (C45_align 5 7 2 4 (10, 10) HRight VTop) as (p & E & A & B). exists p. cbn in A, B. split; [exact E|]. lra. Qed.

(* ------------------------------------------------------------------ C61 *)
(** C61. The bounds of a rotated box contain every point of the box turned about its centre,
    and no smaller box does: each of the four sides is touched. *)
Theorem C61_rotated_bounds : forall x y w h a : R, 0 <= w -> 0 <= h ->
  exists x' y' w' h', box_rotate_bounds exact (mk_rect (Fin x) (Fin y) (Fin w) (Fin h)) (Fin a) = mk_rect (Fin x') (Fin y') (Fin w') (Fin h') /\
    let rot := turn (- (a * PI / 180)) (x + w / 2, y + h / 2) in
    (forall q, in_box x y w h q -> in_box x' y' w' h' (rot q)) /\
    (exists q, in_box x y w h q /\ fst (rot q) = x') /\ (exists q, in_box x y w h q /\ fst (rot q) = x' + w') /\
    (exists q, in_box x y w h q /\ snd (rot q) = y') /\ (exists q, in_box x y w h q /\ snd (rot q) = y' + h').
Proof.
  intros x y w h a W H. rewrite box_rotate_fin. do 4 eexists. split; [reflexivity|].
  set (t := - (a * PI / 180)). set (c := cos t). set (s := sin t).
  assert (Aw : Rabs (c * w) = Rabs c * w) by (rewrite Rabs_mult, (Rabs_pos_eq w) by lra; reflexivity).
  assert (Ah : Rabs (s * h) = Rabs s * h) by (rewrite Rabs_mult, (Rabs_pos_eq h) by lra; reflexivity).
  assert (Bw : Rabs (s * w) = Rabs s * w) by (rewrite Rabs_mult, (Rabs_pos_eq w) by lra; reflexivity).
  assert (Bh : Rabs (c * h) = Rabs c * h) by (rewrite Rabs_mult, (Rabs_pos_eq h) by lra; reflexivity).
  rewrite Aw, Ah, Bw, Bh. unfold in_box, turn. cbn [fst snd]. fold c s.
  assert (E : forall k z, Rabs z <= w -> Rabs (k * z) <= Rabs k * w) by (intros; rewrite Rabs_mult; apply Rmult_le_compat_l; [apply Rabs_pos|assumption]).
  split; [|split; [|split; [|split]]].
  - intros [qx qy]. cbn [fst snd]. intros [X Y].
    set (u := qx - (x + w / 2)). set (v := qy - (y + h / 2)).
    assert (U : - (w / 2) <= u <= w / 2) by (unfold u; lra). assert (V : - (h / 2) <= v <= h / 2) by (unfold v; lra).
    unfold Rabs. destruct (Rcase_abs c), (Rcase_abs s); split; split; nra.
  - exists (if Rle_dec 0 c then x else x + w, if Rle_dec 0 s then y + h else y). cbn [fst snd].
    unfold Rabs. destruct (Rle_dec 0 c), (Rle_dec 0 s), (Rcase_abs c), (Rcase_abs s); try lra; split; lra.
  - exists (if Rle_dec 0 c then x + w else x, if Rle_dec 0 s then y else y + h). cbn [fst snd].
    unfold Rabs. destruct (Rle_dec 0 c), (Rle_dec 0 s), (Rcase_abs c), (Rcase_abs s); try lra; split; lra.
  - exists (if Rle_dec 0 s then x else x + w, if Rle_dec 0 c then y else y + h). cbn [fst snd].
    unfold Rabs. destruct (Rle_dec 0 c), (Rle_dec 0 s), (Rcase_abs c), (Rcase_abs s); try lra; split; lra.
  - exists (if Rle_dec 0 s then x + w else x, if Rle_dec 0 c then y + h else y). cbn [fst snd].
    unfold Rabs. destruct (Rle_dec 0 c), (Rle_dec 0 s), (Rcase_abs c), (Rcase_abs s); try lra; split; lra.
Qed.
Print Assumptions C61_rotated_bounds.

(* ------------------------------------------------------------------ C62 *)
(** C62. A reported intersection of two lines is the one point that lies on both; the lines
    are then not parallel. *)
Theorem C62_lines : forall (p0 v0 p1 v1 : pt) (x : vec2), v0 <> (0, 0) -> v1 <> (0, 0) ->
  intersect_line_line exact (P p0) (P v0) (P p1) (P v1) = Some x ->
  cross v0 v1 <> 0 /\ exists q, x = P q /\ on_line p0 v0 q /\ on_line p1 v1 q /\
    forall q', on_line p0 v0 q' -> on_line p1 v1 q' -> q' = q.
Proof.
  intros p0 v0 p1 v1 x N0 N1 H. destruct (parallel_dec v0 v1) as [T|T].
  - rewrite intersect_none in H by assumption. discriminate.
  - rewrite intersect_some in H by assumption. injection H as <-.
    pose proof (not_parallel_cross v0 v1 N0 N1 T) as C. split.
    + intro Z. apply C. unfold cross, unit_of in *. cbn. unfold Rdiv.
      replace (fst v0 * / norm v0 * (snd v1 * / norm v1) - snd v0 * / norm v0 * (fst v1 * / norm v1))
        with ((fst v0 * snd v1 - snd v0 * fst v1) * (/ norm v0 * / norm v1)) by ring. rewrite Z. ring.
    + eexists. split; [reflexivity|]. destruct (crossing_on p0 (unit_of v0) p1 (unit_of v1) C) as [A B].
      rewrite on_line_unit in A, B by assumption. split; [assumption|]. split; [assumption|].
      intros q' A' B'. apply crossing_unique; [assumption|now apply on_line_unit|now apply on_line_unit].
Qed.
Print Assumptions C62_lines.

(** C62. No intersection is reported only if the directions are equal or within 1/1000 rad of
    opposite; the angle between directions is the usual one. *)
Theorem C62_parallel : forall (p0 v0 p1 v1 : pt), v0 <> (0, 0) -> v1 <> (0, 0) ->
  let angle := acos (inner v0 v1 / (sqrt (inner v0 v0) * sqrt (inner v1 v1))) in
  intersect_line_line exact (P p0) (P v0) (P p1) (P v1) = None <-> angle = 0 \/ PI - angle < 1 / 1000.
Proof.
  intros p0 v0 p1 v1 N0 N1 angle.
  assert (E : angle = angle_between v0 v1).
  { unfold angle, angle_between. f_equal. pose proof (norm_pos v0 N0). pose proof (norm_pos v1 N1).
    fold (norm v0) (norm v1). unfold inner at 2, unit_of. cbn. unfold inner. field. lra. }
  rewrite E. fold (nearly_parallel v0 v1). destruct (parallel_dec v0 v1) as [T|T].
  - rewrite intersect_none by assumption. tauto.
  - rewrite intersect_some by assumption. split; [discriminate|contradiction].
Qed.
Print Assumptions C62_parallel.

(** C62. The test is lopsided: two lines that enclose a tiny angle are "parallel" when their
    direction vectors point in opposite directions but intersect when they point in the same
    one. The lines themselves are the same in both cases. *)
Theorem C62_lopsided_refuted : exists v0 v1 : pt, v0 <> (0, 0) /\ v1 <> (0, 0) /\
  intersect_line_line exact (P (0, 0)) (P v0) (P (0, 1)) (P v1) <> None /\
  intersect_line_line exact (P (0, 0)) (P v0) (P (0, 1)) (P (- fst v1, - snd v1)) = None.
Proof.
  set (t := 1 / 2000). exists (1, 0), (cos t, sin t).
  assert (T : 0 <= t <= PI) by (pose proof PI2_1; unfold t; lra).
  assert (N0 : (1, 0) <> (0, 0)) by (intro E; injection E; lra).
  pose proof (sin2_cos2 t) as S. unfold Rsqr in S.
  assert (N1 : (cos t, sin t) <> (0, 0)) by (intro E; injection E as A B; rewrite A, B in S; lra).
  assert (N2 : (- cos t, - sin t) <> (0, 0)) by (intro E; injection E as A B; apply N1; f_equal; lra).
  assert (I0 : sqrt (inner (1, 0) (1, 0)) = 1) by (unfold inner; cbn; replace (1 * 1 + 0 * 0) with 1 by ring; apply sqrt_1).
  assert (I1 : sqrt (inner (cos t, sin t) (cos t, sin t)) = 1).
  { unfold inner. cbn. replace (cos t * cos t + sin t * sin t) with 1 by lra. apply sqrt_1. }
  assert (I2 : sqrt (inner (- cos t, - sin t) (- cos t, - sin t)) = 1).
  { unfold inner. cbn. replace (- cos t * - cos t + - sin t * - sin t) with 1 by lra. apply sqrt_1. }
  split; [exact N0|]. split; [exact N1|]. cbn [fst snd]. split.
  - rewrite C62_parallel by assumption. rewrite I0, I1. unfold inner. cbn [fst snd].
    replace ((1 * cos t + 0 * sin t) / (1 * 1)) with (cos t) by field. rewrite acos_cos by exact T.
    pose proof PI2_1. unfold t. intros [X|X]; lra.
  - apply C62_parallel; [assumption|assumption|]. rewrite I0, I2. unfold inner. cbn [fst snd].
    replace ((1 * - cos t + 0 * - sin t) / (1 * 1)) with (- cos t) by field. rewrite acos_opp, acos_cos by exact T.
    right. unfold t. lra.
Qed.
Print Assumptions C62_lopsided_refuted.

(** C62. A line and a segment: a reported point lies on both lines and at most 1/1000 outside
    the segment's bounding box; and a point common to line and segment is always found, unless
    the two are (nearly) parallel. *)
Theorem C62_line_segment : forall (p0 v0 s e : pt), v0 <> (0, 0) -> s <> e ->
  (forall x, intersect_line_lineseg exact (P p0) (P v0) (P s) (P e) = Some x ->
     exists q, x = P q /\ on_line p0 v0 q /\ on_line s (minus e s) q /\ near_box (1 / 1000) s e q) /\
  (forall q, on_line p0 v0 q -> on_segment s e q ->
     intersect_line_line exact (P p0) (P v0) (P s) (P (minus e s)) <> None ->
     intersect_line_lineseg exact (P p0) (P v0) (P s) (P e) = Some (P q)).
Proof.
  intros p0 v0 s e N0 N. split.
  - intros x H. now apply line_lineseg_ok.
  - intros q A B C. apply line_lineseg_complete; try assumption. intro T. apply C, intersect_none; try assumption. now apply minus_nonzero.
Qed.
Print Assumptions C62_line_segment.
Theorem C62_segments : forall (s0 e0 s e : pt), s0 <> e0 -> s <> e ->
  (forall x, intersect_lineseg_lineseg exact (P s0) (P e0) (P s) (P e) = Some x ->
     exists q, x = P q /\ on_line s0 (minus e0 s0) q /\ on_line s (minus e s) q /\
       near_box (1 / 1000) s0 e0 q /\ near_box (1 / 1000) s e q) /\
  (forall q, on_segment s0 e0 q -> on_segment s e q ->
     intersect_line_line exact (P s0) (P (minus e0 s0)) (P s) (P (minus e s)) <> None ->
     intersect_lineseg_lineseg exact (P s0) (P e0) (P s) (P e) = Some (P q)).
Proof.
  intros s0 e0 s e N0 N. split.
  - intros x H. now apply seg_seg_ok.
  - intros q A B C. apply seg_seg_complete; try assumption. intro T. apply C, intersect_none; try assumption; now apply minus_nonzero.
Qed.
Print Assumptions C62_segments.

Example C62_example : on_line (0, 0) (1, 1) (1, 1) /\ on_segment (0, 2) (2, 0) (1, 1) /\
  intersect_line_line exact (P (0, 0)) (P (1, 1)) (P (0, 2)) (P (minus (2, 0) (0, 2))) <> None.
Proof.
  split; [unfold on_line, cross, minus; cbn; ring|]. split.
  - exists (/ 2). split; [lra|]. cbn. f_equal; field.
  - assert (A : (1, 1) <> (0, 0)) by (intro E; injection E; lra).
    assert (B : minus (2, 0) (0, 2) <> (0, 0)) by (unfold minus; cbn; intro E; injection E; lra).
    rewrite C62_parallel by assumption. unfold inner, minus. cbn [fst snd].
    replace ((1 * (2 - 0) + 1 * (0 - 2)) / (sqrt (1 * 1 + 1 * 1) * sqrt ((2 - 0) * (2 - 0) + (0 - 2) * (0 - 2)))) with 0
      by (replace (1 * (2 - 0) + 1 * (0 - 2)) with 0 by ring; unfold Rdiv; ring).
    rewrite acos_0. pose proof PI2_1. lra.
Qed.

(** C62. A polygon: the results for its edges v0-v1, v1-v2, ..., v(n-1)-v0, in that order. *)
Theorem C62_polygon : forall (d : R -> R) (poly : list vec2) (p v : vec2) (dv : vec2),
  let n := length poly in let vert k := nth (k mod n) poly dv in
  let hits f := flat_map (fun k => match f (vert k) (vert (k + 1)%nat) with Some q => [q] | None => [] end) (seq 0 n) in
  intersect_poly_line d poly p v = hits (intersect_line_lineseg d p v) /\
  intersect_poly_lineseg d poly p v = hits (fun a b => intersect_lineseg_lineseg d a b p v).
Proof.
  intros d poly p v dv n vert hits.
  assert (G : forall (f : vec2 -> vec2 -> option vec2), collect (fun e => f (fst e) (snd e)) (edges poly) = hits f).
  { intro f. rewrite collect_flat, (edges_seq _ dv). unfold hits. rewrite flat_map_concat_map, map_map, <- flat_map_concat_map.
    fold n. rewrite !flat_map_concat_map. f_equal. apply map_ext_in. intros k K. apply in_seq in K.
    unfold vert. rewrite (Nat.mod_small k) by lia. reflexivity. }
  split; [apply (G (intersect_line_lineseg d p v))|apply (G (fun a b => intersect_lineseg_lineseg d a b p v))].
Qed.
Print Assumptions C62_polygon.

(** C62. A segment of length zero "intersects" every line, at a point that is not a number. *)
Lemma zero_edge_hit d p0 v0 (q : pt) : d 0 = 0 ->
  intersect_line_lineseg d p0 v0 (P q) (P q) = Some (mk_vec2 NaN NaN).
Proof.
  intro D. unfold intersect_line_lineseg, vsub, P. cbn [vx vy]. unfold xsub. cbn [xneg xadd].
  replace (fst q + - fst q) with 0 by ring. replace (snd q + - snd q) with 0 by ring. rewrite D.
  assert (N : normalize d (mk_vec2 (Fin 0) (Fin 0)) = mk_vec2 NaN NaN).
  { unfold normalize, magnitude, xsqrt. cbn [vx vy xmul xadd].
    replace (0 * 0) with 0 by ring. rewrite D. replace (0 + 0) with 0 by ring. rewrite D.
    destruct (Rlt_dec 0 0); [lra|]. rewrite sqrt_0, D. cbn. destruct (Req_EM_T 0 0); [|lra].
    unfold xsign_inf. destruct (Rlt_dec 0 0); [lra|reflexivity]. }
  rewrite N. unfold intersect_line_line.
  assert (N2 : normalize d (mk_vec2 NaN NaN) = mk_vec2 NaN NaN) by reflexivity. rewrite N2.
  unfold dot. cbn [vx vy].
  assert (XM : forall a, xmul d a NaN = NaN) by (intros []; reflexivity).
  assert (XA : forall a, xadd d a NaN = NaN) by (intros []; reflexivity).
  rewrite !XM, !XA. cbn [xacos xneg]. unfold xsub. cbn [xneg]. rewrite !XA. cbn [xfmod xlt].
  repeat (rewrite ?XM, ?XA; cbn [xmul xadd xneg xdiv xfmod xlt xacos]).
  assert (L1 : forall b, xlt NaN b = false) by (intros []; reflexivity). assert (L2 : forall a, xlt a NaN = false) by (intros []; reflexivity).
  unfold outside. cbn [vx vy]. unfold xsub. cbn [xadd]. rewrite !L1, !L2. reflexivity.
Qed.
Theorem C62_zero_length_refuted : forall (d : R -> R) (p0 v0 : vec2) (q : pt), d 0 = 0 ->
  intersect_line_lineseg d p0 v0 (P q) (P q) = Some (mk_vec2 NaN NaN).
Proof. intros. now apply zero_edge_hit. Qed.
Print Assumptions C62_zero_length_refuted.

(* ------------------------------------------------------------------ C63 *)
(** C63. Hatching ends, for every polygon (of any number of vertices) without an edge of
    length zero, every angle, offset, width and non-zero distance of the stripes. *)
Theorem C63_ends : forall (sort_cw : list vec2 -> list vec2) (vs : list pt) (angle offset stride width : R),
  (forall k, (k < length vs)%nat -> nth k vs (0, 0) <> nth ((k + 1) mod length vs) vs (0, 0)) ->
  exists fuel p, shape_hatch exact sort_cw fuel (map P vs) (Fin angle) (Fin offset) (Fin stride) (Fin width) = Ret p.
Proof.
  intros sc vs a offset stride width N. unfold shape_hatch. destruct (xeq (Fin stride) (Fin 0)) eqn:Sz; [exists 0%nat, []; reflexivity|].
  assert (S' : stride <> 0) by (intros ->; rewrite (proj2 (xeq_fin 0 0) eq_refl) in Sz; discriminate).
  destruct vs as [|q0 vs0] eqn:V.
  - exists 1%nat, []. reflexivity.
  - rewrite <- V in *. destruct (mean_fin vs ltac:(subst; discriminate)) as [o ->].
    rewrite from_deg_fin. change (xadd exact (Fin a) (Fin 90)) with (Fin (a + 90)). rewrite from_deg_fin.
    destruct (hatch_loop_ends sc vs o a stride offset width N S') as [B H].
    exists (S B). destruct (H (S B) 0%nat [] ltac:(lia) ltac:(lia)) as [r E]. exists r. exact E.
Qed.
Print Assumptions C63_ends.
Example C63_ends_example : forall k, (k < 4)%nat ->
  let sq := [(0, 0); (0, 1); (1, 1); (1, 0)] in nth k sq (0, 0) <> nth ((k + 1) mod 4) sq (0, 0).
Proof. intros k K sq. do 4 (destruct k as [|k]; [cbn; intro E; injection E; lra|]). lia. Qed.

(** More fuel never changes the result. *)
Lemma hatch_fuel d sc clip o dir ort st off w : forall f f' i p r, (f <= f')%nat ->
  hatch_loop d sc f i clip o dir ort st off w p = Ret r -> hatch_loop d sc f' i clip o dir ort st off w p = Ret r.
Proof.
  induction f as [|f IH]; intros f' i p r L H; [discriminate|]. destruct f' as [|f']; [lia|].
  cbn [hatch_loop] in *. destruct (filter _ _); [exact H|]. apply IH; [lia|exact H].
Qed.

(** The vertices of the stripes drawn from stripe i on. *)
Lemma hatch_points sc vs o a stride offset width : (forall l, Permutation (sc l) l) -> proper vs ->
  forall fuel i p r, hatch_loop exact sc fuel i (map P vs) (P o) (P (dir_of a)) (P (dir_of (a + 90))) (Fin stride) (Fin offset) (Fin width) p = Ret r ->
  exists r', r = p ++ r' /\ forall x, In x (points r') ->
   exists b e q n (z : R), In b vs /\ In e vs /\ x = P q /\ on_line b (minus e b) q /\ near_box (1 / 1000) b e q /\
    (z = -1 \/ z = 0 \/ z = 1) /\
    (depth a o q = INR n * z * stride + offset + width / 2 \/ depth a o q = INR n * z * stride + offset - width / 2).
Proof.
  intros SC N. induction fuel as [|fuel IH]; intros i p r H; [discriminate|]. cbn [hatch_loop] in H.
  set (drawn := filter _ _) in H.
  assert (K : forall x, In x (points (flat_map (stripe_path sc) drawn)) ->
    exists b e q n (z : R), In b vs /\ In e vs /\ x = P q /\ on_line b (minus e b) q /\ near_box (1 / 1000) b e q /\
    (z = -1 \/ z = 0 \/ z = 1) /\
    (depth a o q = INR n * z * stride + offset + width / 2 \/ depth a o q = INR n * z * stride + offset - width / 2)).
  { intros x X. unfold points in X. apply in_flat_map in X. destruct X as (c & C & X).
    apply in_flat_map in C. destruct C as (v & V & C). unfold drawn in V. apply filter_In in V. destruct V as [V _].
    apply in_map_iff in V. destruct V as (s & <- & S).
    assert (X' : In x (stripe exact (map P vs) (P o) (P (dir_of a)) (P (dir_of (a + 90))) i s (Fin stride) (Fin offset) (Fin width))).
    { apply (Permutation_in _ (SC _)). unfold stripe_path in C. destruct (sc _) as [|h l]; [destruct C|].
      destruct C as [<-|C]; [destruct X as [<-|[]]; now left|]. apply in_map_iff in C. destruct C as (y & <- & Y).
      destruct X as [<-|[]]. now right. }
    assert (SZ : exists z, s = Fin z /\ (z = -1 \/ z = 0 \/ z = 1)).
    { destruct i; cbn in S; [destruct S as [<-|[]]|destruct S as [<-|[<-|[]]]]; eexists; split; try reflexivity; auto. }
    destruct SZ as (z & -> & SZ). apply stripe_ok in X'; [|assumption].
    destruct X' as (b & e & q & B & E & XQ & O & NB & D). exists b, e, q, i, z. auto 10. }
  destruct drawn as [|d0 dr] eqn:Dr.
  - injection H as <-. exists []. split; [reflexivity|]. intros x [].
  - apply IH in H. destruct H as (r' & -> & R'). rewrite <- Dr in *.
    exists (flat_map (stripe_path sc) drawn ++ r'). split; [now rewrite app_assoc|].
    intros x X. unfold points in X. rewrite flat_map_app in X. apply in_app_or in X. destruct X as [X|X]; [now apply K|now apply R'].
Qed.

(** C63. Every vertex of the hatching lies on the line of some edge of the polygon, at most
    1/1000 outside that edge's bounding box, and on an edge of a stripe: at distance
    n * stride + offset +- width/2 (n any integer), measured at right angles to the hatching
    direction from the mean of the vertices. *)
Theorem C63_points : forall (sort_cw : list vec2 -> list vec2) (vs : list pt) (angle offset stride width : R) (fuel : nat) (r : path) (x : vec2),
  (forall l, Permutation (sort_cw l) l) -> vs <> [] ->
  (forall k, (k < length vs)%nat -> nth k vs (0, 0) <> nth ((k + 1) mod length vs) vs (0, 0)) ->
  shape_hatch exact sort_cw fuel (map P vs) (Fin angle) (Fin offset) (Fin stride) (Fin width) = Ret r ->
  In x (points r) ->
  exists o q b e (n : Z), mean exact (map P vs) = P o /\ x = P q /\ In b vs /\ In e vs /\
    on_line b (minus e b) q /\ near_box (1 / 1000) b e q /\
    let normal := (- sin (angle * PI / 180), - cos (angle * PI / 180)) in
    (inner normal (minus q o) = IZR n * stride + offset + width / 2 \/ inner normal (minus q o) = IZR n * stride + offset - width / 2).
Proof.
  intros sc vs a offset stride width fuel r x SC NE N H X. unfold shape_hatch in H.
  destruct (xeq (Fin stride) (Fin 0)); [injection H as <-; destruct X|].
  destruct (mean_fin vs NE) as [o Eo]. rewrite Eo in *.
  rewrite from_deg_fin in H. change (xadd exact (Fin a) (Fin 90)) with (Fin (a + 90)) in H. rewrite from_deg_fin in H.
  destruct (hatch_points sc vs o a stride offset width SC N fuel 0%nat [] r H) as (r' & -> & K).
  destruct (K x X) as (b & e & q & n & z & B & E & XQ & O & NB & Z & D).
  exists o, q, b, e, (if Req_EM_T z (-1) then - Z.of_nat n else if Req_EM_T z 0 then 0 else Z.of_nat n)%Z.
  repeat (split; [assumption||reflexivity|]). unfold depth in D. rewrite dir_ortho in D. cbn zeta.
  assert (IZ : IZR (if Req_EM_T z (-1) then - Z.of_nat n else if Req_EM_T z 0 then 0 else Z.of_nat n)%Z = INR n * z).
  { rewrite INR_IZR_INZ. destruct (Req_EM_T z (-1)) as [->|A]; [rewrite opp_IZR; ring|].
    destruct (Req_EM_T z 0) as [->|B']; [ring|]. destruct Z as [Z|[Z|Z]]; [contradiction|contradiction|]. rewrite Z. ring. }
  rewrite IZ. exact D.
Qed.
Print Assumptions C63_points.

(** C63. But hatching a polygon with two edges of length zero - a bar of height zero, a
    rectangle without extent - never ends, in exact and in binary64 arithmetic: every stripe
    "hits" these edges (C62_zero_length_refuted), and the path grows for ever. *)
Fixpoint chain (v : list vec2) : list (vec2 * vec2) :=
  match v with a :: ((b :: _) as r) => (a, b) :: chain r | _ => [] end.
Lemma combine_chain p r z : combine (p :: r) (r ++ [z]) = chain (p :: r) ++ [(last r p, z)].
Proof.
  revert p. induction r as [|q r IH]; intro p; [reflexivity|].
  change (combine (p :: q :: r) ((q :: r) ++ [z])) with ((p, q) :: combine (q :: r) (r ++ [z])).
  rewrite IH. replace (last (q :: r) p) with (last r q); [reflexivity|].
  destruct r as [|h r']; [reflexivity|]. change (last (q :: h :: r') p) with (last (h :: r') p).
  clear. revert h. induction r' as [|y r' IH]; intro h; [reflexivity|]. apply (IH y).
Qed.
Lemma chain_split l1 p q l2 : chain (l1 ++ p :: q :: l2) = chain (l1 ++ [p]) ++ (p, q) :: chain (q :: l2).
Proof.
  induction l1 as [|a l1 IH]; [reflexivity|]. destruct l1 as [|b l1]; [reflexivity|].
  change (chain ((a :: b :: l1) ++ p :: q :: l2)) with ((a, b) :: chain ((b :: l1) ++ p :: q :: l2)).
  rewrite IH. reflexivity.
Qed.
Lemma two_edges l1 p l2 q l3 : exists A B C, edges (l1 ++ p :: p :: l2 ++ q :: q :: l3) = A ++ (p, p) :: B ++ (q, q) :: C.
Proof.
  assert (E : forall v, v <> [] -> exists z, edges v = chain v ++ [z]).
  { intros [|h r] N; [congruence|]. eexists. apply combine_chain. }
  destruct (E (l1 ++ p :: p :: l2 ++ q :: q :: l3)) as [z ->]; [now destruct l1|].
  rewrite chain_split. change (p :: l2 ++ q :: q :: l3) with ((p :: l2) ++ q :: q :: l3). rewrite (chain_split (p :: l2)).
  exists (chain (l1 ++ [p])), (chain ((p :: l2) ++ [q])), (chain (q :: l3) ++ [z]).
  rewrite <- !app_assoc. cbn. rewrite <- !app_assoc. reflexivity.
Qed.
Lemma collect_app {A B} (f : A -> option B) l l' : collect f (l ++ l') = collect f l ++ collect f l'.
Proof. rewrite !collect_flat. apply flat_map_app. Qed.

Theorem C63_zero_edges_refuted : forall (d : R -> R) (sort_cw : list vec2 -> list vec2) (p q : pt) (l1 l2 l3 : list vec2)
    (angle offset stride width : xr) (fuel : nat),
  d 0 = 0 -> xeq stride (Fin 0) = false ->
  shape_hatch d sort_cw fuel (l1 ++ P p :: P p :: l2 ++ P q :: P q :: l3) angle offset stride width = Diverge.
Proof.
  intros d sc p q l1 l2 l3 angle offset stride width fuel D Sz. unfold shape_hatch. rewrite Sz.
  set (clip := l1 ++ _). generalize (mean d clip), (from_deg d angle), (from_deg d (xadd d angle (Fin 90))), 0%nat, (@nil path_cmd).
  assert (H : forall p0 v0, (2 <= length (intersect_poly_line d clip p0 v0))%nat).
  { intros p0 v0. unfold intersect_poly_line. destruct (two_edges l1 (P p) l2 (P q) l3) as (A & B & C & E).
    unfold clip. rewrite E. clear E. rewrite collect_app. cbn [collect fst snd]. rewrite zero_edge_hit by exact D.
    rewrite collect_app. cbn [collect fst snd]. rewrite zero_edge_hit by exact D.
    rewrite app_length. cbn [length]. rewrite app_length. cbn [length]. lia. }
  induction fuel as [|fuel IH]; intros o dir ort i pth; [reflexivity|]. cbn [hatch_loop].
  set (drawn := filter _ _).
  assert (N : drawn <> []).
  { unfold drawn. destruct i; cbn [signs map filter].
    - replace (3 <=? _)%nat with true; [discriminate|]. symmetry. apply Nat.leb_le. unfold stripe. rewrite app_length.
      pose proof (H (vadd d o (vmul d ort (xadd d (xadd d (xmul d (xmul d (Fin (INR 0)) (Fin 0)) stride) offset) (xmul d width (Fin (/ 2)))))) dir).
      pose proof (H (vadd d o (vmul d ort (xadd d (xadd d (xmul d (xmul d (Fin (INR 0)) (Fin 0)) stride) offset) (xmul d width (Fin (- / 2)))))) dir). lia.
    - replace (3 <=? length (stripe d clip o dir ort (S i) (Fin (-1)) stride offset width))%nat with true; [discriminate|].
      symmetry. apply Nat.leb_le. unfold stripe. rewrite app_length.
      pose proof (H (vadd d o (vmul d ort (xadd d (xadd d (xmul d (xmul d (Fin (INR (S i))) (Fin (-1))) stride) offset) (xmul d width (Fin (/ 2)))))) dir).
      pose proof (H (vadd d o (vmul d ort (xadd d (xadd d (xmul d (xmul d (Fin (INR (S i))) (Fin (-1))) stride) offset) (xmul d width (Fin (- / 2)))))) dir). lia. }
  destruct drawn; [congruence|apply IH].
Qed.
Print Assumptions C63_zero_edges_refuted.

(** C63. The outline of every rectangle of height zero is such a polygon. *)
Theorem C63_flat_rectangle_refuted : forall (sort_cw : list vec2 -> list vec2) (x y w : R) (angle offset stride width : xr) (fuel : nat),
  xeq stride (Fin 0) = false ->
  shape_hatch exact sort_cw fuel (path_to_polygon_simple (add_rectangle exact [] (mk_rect (Fin x) (Fin y) (Fin w) (Fin 0)))) angle offset stride width = Diverge.
Proof.
  intros sc x y w angle offset stride width fuel S. cbn [add_rectangle rx ry rw rh app path_to_polygon_simple xadd]. ex. rewrite Rplus_0_r.
  exact (C63_zero_edges_refuted exact sc (x, y) (x + w, y) [] [] [] angle offset stride width fuel eq_refl S).
Qed.
Print Assumptions C63_flat_rectangle_refuted.
