(** What an error message says (C107), in the words of a reader of it. *)
From Verif Require Import Base Sexpr_Model.

(** 'a', 'b', 'c' *)
Inductive quoted_list : list str -> str -> Prop :=
| ql_none : quoted_list [] []
| ql_one v : quoted_list [v] (s_ "'" ++ v ++ s_ "'")
| ql_more v w l t : quoted_list (w :: l) t -> quoted_list (v :: w :: l) (s_ "'" ++ v ++ s_ "', " ++ t).
(** One value on each line. *)
Inductive line_list : list str -> str -> Prop :=
| ll_none : line_list [] []
| ll_more v l t : line_list l t -> line_list (v :: l) (s_ "  - " ++ v ++ [c_nl] ++ t).
(** The value in question, and the values that would have been right. *)
Definition names_values (m got : str) (right : list str) : Prop :=
  exists t, quoted_list right t /\ m = s_ "invalid value: '" ++ got ++ s_ "'; expected one of: " ++ t.

(** A program element that is wrong by itself, before its command is looked at. *)
Definition as_shown (e : list expr) : str := match e with [] => s_ "<null>" | x :: _ => inspect x end.
Definition word_of (e : expr) : option str := match e with ELit v | EVal v => Some v | EList _ => None end.
