(** Specification of legends: boxes with real coordinates, in rows from the top. *)
From Coq Require Import Reals List Lra.
Import ListNotations.
Local Open Scope R_scope.

(** Left edge, upper edge (distance from the top), width, height. *)
Record box := mk_box { left_ : R; top_ : R; width : R; height : R }.
Definition size (b : box) : R * R := (width b, height b).
Definition within (W H : R) (b : box) : Prop :=
  0 <= left_ b /\ 0 <= top_ b /\ left_ b + width b <= W /\ top_ b + height b <= H.
(** [b] is below [a], with a gap if [a] has any height; [b] is to the right of [a] in the same
    row. *)
Definition under (gap : R) (a b : box) : Prop :=
  top_ a + height a <= top_ b /\ (0 < height a -> top_ a + height a + gap <= top_ b).
Definition beside (gap : R) (a b : box) : Prop :=
  top_ a = top_ b /\ height a = height b /\ left_ a + width a <= left_ b /\
  (0 < width a -> left_ a + width a + gap <= left_ b).
(** No interior point is in both. *)
Definition disjoint (a b : box) : Prop := forall x y,
  ~ (left_ a < x < left_ a + width a /\ top_ a < y < top_ a + height a /\
     left_ b < x < left_ b + width b /\ top_ b < y < top_ b + height b).
Definition fits (limit : option R) (x : R) : Prop := match limit with Some m => x <= m | None => True end.
(** [b] comes directly after [a]: to the right if it fits, otherwise in a new row. *)
Definition next (limit : option R) (row_gap col_gap : R) (a b : box) : Prop :=
  let e := left_ a + width a in
  let s := if Rlt_dec 0 e then e + col_gap else e in
  (fits limit (s + width b) /\ left_ b = s /\ top_ b = top_ a /\ height b = height a) \/
  (~ fits limit (s + width b) /\ left_ b = 0 /\ top_ b = top_ a + height a + row_gap).
(** Consecutive members. *)
Fixpoint chain {A} (R : A -> A -> Prop) (l : list A) : Prop :=
  match l with a :: ((b :: _) as r) => R a b /\ chain R r | _ => True end.

(** Boxes on the page: lower left corner (y points up), width and height. *)
Record area := mk_area { ax : R; ay : R; aw : R; ah : R }.
Definition contains (a b : area) : Prop :=
  ax a <= ax b /\ ay a <= ay b /\ ax b + aw b <= ax a + aw a /\ ay b + ah b <= ay a + ah a.
Definition apart (a b : area) : Prop := forall x y,
  ~ (ax a < x < ax a + aw a /\ ay a < y < ay a + ah a /\ ax b < x < ax b + aw b /\ ay b < y < ay b + ah b).
(** The page position of a box that is [top_] below the upper edge of [c]. *)
Definition on_page (c : area) (b : box) : area :=
  mk_area (ax c + left_ b) (ay c + ah c - top_ b - height b) (width b) (height b).
(** What remains of [a] inside margins (top, right, bottom, left) that fit. *)
Definition inset (a : area) (t r b l : R) : area := mk_area (ax a + l) (ay a + b) (aw a - (l + r)) (ah a - (t + b)).

Inductive word := Wtop | Wbottom | Wleft | Wright | Wcenter.
