(** Specification of the order of bidirectional text, after the Unicode bidirectional
    algorithm: of two runs, the one that is first in reading order is on the left exactly if the
    lowest level between them (both included) is even. *)
From Coq Require Import List Arith NArith Reals.
Import ListNotations.

(** The lowest of the levels from position [i] to position [j]. *)
Definition lowest (levels : list nat) (i j : nat) (m : nat) : Prop :=
  (exists k, i <= k <= j /\ nth_error levels k = Some m) /\
  (forall k v, i <= k <= j -> nth_error levels k = Some v -> m <= v).
(** [i] is left of [j] in a list of runs from left to right. *)
Definition left_of (order : list nat) (i j : nat) : Prop :=
  exists p q, p < q /\ nth_error order p = Some i /\ nth_error order q = Some j.
Definition bidi_order (levels order : list nat) : Prop :=
  NoDup order /\ (forall i, In i order <-> i < length levels) /\
  forall i j m, i < j -> j < length levels -> lowest levels i j m ->
    if Nat.even m then left_of order i j else left_of order j i.

(** A shaped glyph: its font, its code, its width and how far it reaches above and below the
    baseline (the last is negative or zero for most fonts). *)
Record rglyph := mk_rglyph { rg_font : nat; rg_code : N; rg_width : R; rg_above : R; rg_below : R }.
Local Open Scope R_scope.
Definition width (l : list rglyph) : R := fold_right (fun g r => rg_width g + r) 0 l.
(** [m] is the largest of 0 and the numbers in [l]; [m] is the smallest. *)
Definition largest0 (l : list R) (m : R) : Prop := In m (0 :: l) /\ forall x, In x (0 :: l) -> x <= m.
Definition smallest0 (l : list R) (m : R) : Prop := In m (0 :: l) /\ forall x, In x (0 :: l) -> m <= x.
