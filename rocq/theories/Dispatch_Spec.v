(** Specification vocabulary for keyword dispatch. *)
From Verif Require Import Base Sexpr_Model.

(** A command is a list whose first element is a value (quoted or not): keyword, args. *)
Inductive command : expr -> str -> list expr -> Prop :=
| cmd_lit k args : command (EList (ELit k :: args)) k args
| cmd_val k args : command (EList (EVal k :: args)) k args.

Section Runs.
  Context {S : Type}.
  Variable fns : str -> option (list expr -> S -> S * bool).

  (** [runs collect l s s']: every element of l is a command, is handled successfully in
      order (or has no handler, which is allowed only when collecting), taking s to s'. *)
  Inductive runs (collect : bool) : list expr -> S -> S -> Prop :=
  | runs_nil s : runs collect [] s s
  | runs_known e k args f l s s1 s' : command e k args -> fns k = Some f ->
      f args s = (s1, true) -> runs collect l s1 s' -> runs collect (e :: l) s s'
  | runs_unknown e k args l s s' : command e k args -> fns k = None -> collect = true ->
      runs collect l s s' -> runs collect (e :: l) s s'.

  (** [culprit collect e s s']: e makes the walk fail in state s, leaving s'. *)
  Inductive culprit (collect : bool) : expr -> S -> S -> Prop :=
  | cu_shape e s : (forall k args, ~ command e k args) -> culprit collect e s s
  | cu_unknown e k args s : command e k args -> fns k = None -> collect = false ->
      culprit collect e s s
  | cu_fails e k args f s s' : command e k args -> fns k = Some f -> f args s = (s', false) ->
      culprit collect e s s'.

  (** The element has no handler. *)
  Definition unknown (e : expr) : bool :=
    match e with
    | EList (ELit k :: _) | EList (EVal k :: _) =>
        match fns k with None => true | Some _ => false end
    | _ => false
    end.
End Runs.
