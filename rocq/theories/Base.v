(** Common vocabulary of the model. *)
From Coq Require Export Ascii String List Bool Arith ZArith NArith Lia.
Export ListNotations.

(** What a C++ call can do, kept apart:
    - [Ret v]   returns normally (and, for a ReturnCode function, with code OK;
                /repo/src/return_code.h:27-42);
    - [Err]     returns a ReturnCode whose code is ERROR (return_code.h:44-48);
                messages are not modelled;
    - [Throw]   a C++ exception leaves the function;
    - [UB]      the C++ execution has undefined behaviour;
    - [Diverge] the fuel given to a loop is exhausted. *)
Inductive outcome (A : Type) : Type :=
| Ret (a : A)
| Err
| Throw
| UB
| Diverge.
Arguments Ret {A} _.
Arguments Err {A}.
Arguments Throw {A}.
Arguments UB {A}.
Arguments Diverge {A}.

Definition bind {A B} (m : outcome A) (k : A -> outcome B) : outcome B :=
  match m with
  | Ret a => k a
  | Err => Err
  | Throw => Throw
  | UB => UB
  | Diverge => Diverge
  end.

Notation "'let*' x := m 'in' k" := (bind m (fun x => k))
  (at level 61, x pattern, m at next level, right associativity).

(** A std::string: a sequence of bytes. *)
Definition str := list ascii.

Definition s_ (x : string) : str := list_ascii_of_string x.

Lemma ascii_eqb_refl c : Ascii.eqb c c = true.
Proof. apply Ascii.eqb_refl. Qed.

Lemma ascii_eqb_neq a b : Ascii.eqb a b = false <-> a <> b.
Proof.
  split; intro H.
  - intro; subst; rewrite Ascii.eqb_refl in H; discriminate.
  - destruct (Ascii.eqb_spec a b); congruence.
Qed.

Definition str_eqb (a b : str) : bool :=
  if list_eq_dec ascii_dec a b then true else false.

Lemma str_eqb_spec a b : reflect (a = b) (str_eqb a b).
Proof. unfold str_eqb; destruct (list_eq_dec ascii_dec a b); constructor; auto. Qed.

Lemma str_eqb_refl a : str_eqb a a = true.
Proof. destruct (str_eqb_spec a a); congruence. Qed.

(** Frequently used byte constants. *)
Definition c_tab : ascii := "009"%char.
Definition c_nl  : ascii := "010"%char.
Definition c_cr  : ascii := "013"%char.
Definition c_sp  : ascii := " "%char.
Definition c_dq  : ascii := """"%char.
Definition c_sq  : ascii := "'"%char.
Definition c_bs  : ascii := "\"%char.
