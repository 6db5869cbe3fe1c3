(** Specification for vectors, paths, boxes, intersections and hatching: plane geometry over
    the reals, without reference to the code. *)
From Coq Require Import Reals List Lra.
Import ListNotations.
Local Open Scope R_scope.

Definition pt : Type := (R * R)%type.

(** The inner and the cross product, and the squared distance. *)
Definition inner (p q : pt) : R := fst p * fst q + snd p * snd q.
Definition cross (p q : pt) : R := fst p * snd q - snd p * fst q.
Definition minus (p q : pt) : pt := (fst p - fst q, snd p - snd q).
Definition plus (p q : pt) : pt := (fst p + fst q, snd p + snd q).
Definition dist2 (p q : pt) : R := inner (minus p q) (minus p q).

(** [q] lies on the line through [p] with direction [v]; [q] lies on the segment s-e. *)
Definition on_line (p v q : pt) : Prop := cross v (minus q p) = 0.
Definition on_segment (s e q : pt) : Prop :=
  exists t, 0 <= t <= 1 /\ q = (fst s + t * (fst e - fst s), snd s + t * (snd e - snd s)).
(** [q] is at most [g] outside the smallest axis-parallel box around s and e. *)
Definition near_box (g : R) (s e q : pt) : Prop :=
  (fst s - g <= fst q \/ fst e - g <= fst q) /\ (fst q <= fst s + g \/ fst q <= fst e + g) /\
  (snd s - g <= snd q \/ snd e - g <= snd q) /\ (snd q <= snd s + g \/ snd q <= snd e + g).

(** [q] turned by [t] radians about [c], counter-clockwise where y points up. *)
Definition turn (t : R) (c q : pt) : pt :=
  (fst c + (fst q - fst c) * cos t - (snd q - snd c) * sin t,
   snd c + (fst q - fst c) * sin t + (snd q - snd c) * cos t).

(** The box with lower left corner (x,y), width w and height h. *)
Definition in_box (x y w h : R) (q : pt) : Prop := x <= fst q <= x + w /\ y <= snd q <= y + h.

(** The cubic Bézier curve. *)
Definition bezier (p0 p1 p2 p3 : pt) (t : R) : pt :=
  let f a b c e := (1 - t) * (1 - t) * (1 - t) * a + 3 * (1 - t) * (1 - t) * t * b
                   + 3 * (1 - t) * t * t * c + t * t * t * e in
  (f (fst p0) (fst p1) (fst p2) (fst p3), f (snd p0) (snd p1) (snd p2) (snd p3)).
