(** Specification of the string functions. *)
From Verif Require Import Base.

(** The text [s] contains [p]. *)
Definition contains (p s : str) : Prop := exists a b, s = a ++ p ++ b.
(** [a] is what precedes the first occurrence of [p] in [s], [b] what follows it. *)
Definition first_at (p s a b : str) : Prop :=
  s = a ++ p ++ b /\ forall a' b', s = a' ++ p ++ b' -> length a <= length a'.

(** Pieces with a separator between them. *)
Fixpoint glue (sep : str) (pieces : list str) : str :=
  match pieces with
  | [] => []
  | [x] => x
  | x :: r => x ++ sep ++ glue sep r
  end.

(** Replacing the occurrences of [p] from left to right: what is inserted is not looked at
    again. *)
Inductive replaced (p r : str) : str -> str -> Prop :=
| rp_none s : ~ contains p s -> replaced p r s s
| rp_first s a b b' : first_at p s a b -> replaced p r b b' -> replaced p r s (a ++ r ++ b').

(** The order of strings: by the first byte that differs, or a proper prefix first. *)
Inductive before : str -> str -> Prop :=
| bf_prefix a x r : before a (a ++ x :: r)
| bf_byte a x y r r' : nat_of_ascii x < nat_of_ascii y -> before (a ++ x :: r) (a ++ y :: r').

(** Classes of bytes. *)
Definition digits : str := s_ "0123456789".
Definition lower_letters : str := s_ "abcdefghijklmnopqrstuvwxyz".
Definition upper_letters : str := s_ "ABCDEFGHIJKLMNOPQRSTUVWXYZ".
Definition all_in (class s : str) : Prop := forall c, In c s -> In c class.

(** Case: a letter and its partner, any other byte and itself. *)
Definition same_but_case (a b : ascii) : Prop :=
  a = b \/ exists i, (nth_error lower_letters i = Some a /\ nth_error upper_letters i = Some b)
                  \/ (nth_error lower_letters i = Some b /\ nth_error upper_letters i = Some a).

(** What is left when the characters of a class are stripped from the end (or the
    beginning): [r] is the rest. *)
Definition stripped_end (class : ascii -> Prop) (s r : str) : Prop :=
  exists x, s = r ++ x /\ Forall class x /\ (forall r' c, r = r' ++ [c] -> ~ class c).
Definition stripped_begin (class : ascii -> Prop) (s r : str) : Prop :=
  exists x, s = x ++ r /\ Forall class x /\ (forall r' c, r = c :: r' -> ~ class c).

(** The two hexadecimal digits of a byte. *)
Definition hex2 (c : ascii) : str :=
  [nth (nat_of_ascii c / 16) (s_ "0123456789abcdef") " "%char;
   nth (nat_of_ascii c mod 16) (s_ "0123456789abcdef") " "%char].
