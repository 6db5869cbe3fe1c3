From Verif Require Import Base.

(** Additions to a column and their meaning as text and as numbers. *)
Inductive addition (num : Type) := AddNum (v : num) | AddText (s : str).
Arguments AddNum {num}. Arguments AddText {num}.

(** The distinct keys in order of first appearance. *)
Fixpoint firsts (seen data : list str) : list str :=
  match data with
  | [] => []
  | k :: r => if in_dec (list_eq_dec ascii_dec) k seen then firsts seen r
              else k :: firsts (k :: seen) r
  end.

(** The rows (numbered from n) whose key is k, ascending. *)
Fixpoint rows_of (k : str) (n : nat) (data : list str) : list nat :=
  match data with
  | [] => []
  | x :: r => if list_eq_dec ascii_dec x k then n :: rows_of k (S n) r else rows_of k (S n) r
  end.

Definition grouped (data : list str) : list (str * list nat) :=
  map (fun k => (k, rows_of k 0 data)) (firsts [] data).
