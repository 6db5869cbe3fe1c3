(** Vocabulary: programs whose scales have given limits, and commands that only draw. *)
From Verif Require Import Base Sexpr_Model Cmd_Spec.
Local Open Scope string_scope.
Local Open Scope list_scope.

(** A program has an option or command of this name. *)
Definition gives (k : string) (e : list expr) : Prop := exists x a, In x e /\ option_of x = Some (s_ k, a).
(** The limits of both scales of the plot are given: limit-x, or both limit-x-min and
    limit-x-max; the same for y. *)
Definition limits_given (e : list expr) : Prop :=
  (gives "limit-x" e \/ gives "limit-x-min" e /\ gives "limit-x-max" e) /\
  (gives "limit-y" e \/ gives "limit-y-min" e /\ gives "limit-y-max" e).
(** The commands of a plot that only draw: all but the limits, scales and margins of the plot,
    and axes, which takes room from what comes after it. *)
Definition drawing_words : list string :=
  ["areas"; "bars"; "errorbars"; "labels"; "lines"; "points"; "polygons"; "rectangles"; "vectors";
   "axis"; "grid"; "background"; "legend"].
Definition drawing (x : expr) : Prop := exists k a, In k drawing_words /\ option_of x = Some (s_ k, a).
(** The entries of a list that a mask selects. *)
Fixpoint select {A} (mask : list bool) (l : list A) : list A :=
  match mask, l with
  | true :: m, a :: l => a :: select m l
  | false :: m, _ :: l => select m l
  | _, _ => []
  end.
(** A mask that leaves out nothing but commands that only draw. *)
Definition leaves_drawings (mask : list bool) (e : list expr) : Prop :=
  Forall2 (fun (b : bool) x => b = true \/ drawing x) mask e.
