(** Vocabulary of the scale properties, independent of how scale.cc computes. *)
From Verif Require Import Base Num.
From Coq Require Export Sorting.Sorted.
Local Open Scope R_scope.

(** [m] is the smallest / largest element of [vs]. *)
Definition least (m : R) (vs : list R) : Prop := In m vs /\ forall v, In v vs -> m <= v.
Definition greatest (m : R) (vs : list R) : Prop := In m vs /\ forall v, In v vs -> v <= m.

(** The unit position of [v] in the interval [a,b], measured from the left or, on an
    inverted scale, from the right. *)
Definition unit_pos (inverted : bool) (a b v : R) : R :=
  if inverted then (b - v) / (b - a) else (v - a) / (b - a).

(** The same on a logarithmic axis. *)
Definition log_pos (inverted : bool) (a b v : R) : R := unit_pos inverted (ln a) (ln b) (ln v).

(** Strictly increasing, or strictly decreasing when inverted. *)
Definition strictly_monotone_on (P : R -> Prop) (inverted : bool) (g : R -> R) : Prop :=
  forall x y, P x -> P y -> x < y -> if inverted then g y < g x else g x < g y.

(** The centre of cell number [i] when [0,1] is divided into [n] equal cells, and the
    border number [i]. *)
Definition cell_centre (n i : nat) : R := (INR i + 1 / 2) / INR n.
Definition cell_border (n i : nat) : R := INR i / INR n.

(** [vs] lists the numbers a, a + step, a + 2 step, ... up to the limit [b], and all of them. *)
Definition arithmetic_ticks (a step b : R) (vs : list R) : Prop :=
  (forall i v, nth_error vs i = Some v -> v = a + INR i * step /\ v <= b) /\
  b < a + INR (length vs) * step.

(** [vs] lists, increasing, exactly the numbers of the form k * step + off in [a,b]. *)
Definition lattice_in (off a b step : R) (vs : list R) : Prop :=
  (forall v, In v vs <-> (exists k : Z, v = IZR k * step + off) /\ a <= v <= b) /\
  StronglySorted Rlt vs.

(** The labels of ticks at the values [vs]: the i-th one is what the formatter makes of the
    printed value. *)
Definition tick_labels (fmt : nat -> str -> str) (show : xr -> str) (vs : list R) : list str :=
  map (fun p => fmt (fst p) (show (Fin (snd p)))) (combine (seq 0 (length vs)) vs).
