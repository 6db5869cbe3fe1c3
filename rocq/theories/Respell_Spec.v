(** Vocabulary: two programs that differ only in how the values of data columns are written. *)
From Verif Require Import Base Sexpr_Model Cmd_Spec Cmd_Model Source_Spec.
Local Open Scope string_scope.
Local Open Scope list_scope.

(** The options of the elements of a plot that take a data column. *)
Definition data_words : list string :=
  ["data-x"; "data-y"; "data-x-high"; "data-y-high"; "data-x-low"; "data-y-low"; "data-dx"; "data-dy";
   "data-size-x"; "data-size-y"; "data-size"].
(** The elements that take such options. *)
Definition element_words : list string :=
  ["areas"; "bars"; "errorbars"; "labels"; "lines"; "points"; "rectangles"; "vectors"].
(** Two descriptions of a column, (csv FILE COLUMN) or (list VALUE ...), that mean the same values. *)
Definition same_column (W : world) (a a' : list expr) : Prop :=
  exists l l' vs, a = [EList l] /\ a' = [EList l'] /\
    data_means (w_read_file W) a vs /\ data_means (w_read_file W) a' vs.
(** Two options that are the same, or give the same column to the same data option. *)
Definition same_option (W : world) (x x' : expr) : Prop :=
  x = x' \/
  exists k a a', In k data_words /\ option_of x = Some (s_ k, a) /\ option_of x' = Some (s_ k, a') /\ same_column W a a'.
(** Two commands that are the same, or the same element with options of this kind. *)
Definition same_command (W : world) (x x' : expr) : Prop :=
  x = x' \/
  exists k o o', In k element_words /\ option_of x = Some (s_ k, o) /\ option_of x' = Some (s_ k, o') /\
    Forall2 (same_option W) o o'.
Definition respelled (W : world) (e e' : list expr) : Prop := Forall2 (same_command W) e e'.

(** The options of lines that name two columns of one CSV file: (data PATH), for the columns x
    and y, or (data PATH) (data-x NX) (data-y NY). *)
Inductive file_columns (path : str) : list expr -> str -> str -> Prop :=
| fc_usual : file_columns path [EList [EVal (s_ "data"); ELit path]] (s_ "x") (s_ "y")
| fc_named nx ny : file_columns path [EList [EVal (s_ "data"); ELit path]; EList [EVal (s_ "data-x"); ELit nx]; EList [EVal (s_ "data-y"); ELit ny]] nx ny.
(** Options that do not say where the data are. *)
Definition no_source (o : list expr) : Prop :=
  forall x k a, In x o -> option_of x = Some (k, a) -> ~ In k (map s_ ["data"; "data-format"; "data-x"; "data-y"]%string).
