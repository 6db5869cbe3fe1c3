(** Model of /repo/src/sexpr_util.cc, sexpr_util_impl.h, sexpr_conv.cc and
    sexpr_conv_impl.h.  A [const Expr*] is the chain starting at it: [list expr], the null
    pointer being [[]]. *)
From Verif Require Import Base Sexpr_Model.

(** expr_is_value / expr_get_value, /repo/src/sexpr.cc:155-157,179-185. *)
Definition value_of (e : list expr) : option str :=
  match e with
  | ELit v :: _ | EVal v :: _ => Some v
  | _ => None
  end.

Section Walk.
  (** The state handlers act on, and ExprVisitor (/repo/src/sexpr_util.h:22): a handler
      gets the chain behind the keyword, may change the state, and returns OK (true) or
      ERROR (false). *)
  Context {S : Type}.
  Definition handler := list expr -> S -> S * bool.
  (** The unordered_map from keyword to handler. *)
  Variable fns : str -> option handler.

  (** expr_walk_map(expr, unparsed, fns), /repo/src/sexpr_util.cc:55-91. [collect] says
      whether the [unparsed] argument is non-null. Line 73 clones the whole remaining chain
      (count = -1) into the slot; line 74 moves the slot to the [next] field of the first
      cloned node, so a later unknown command overwrites what follows it. [u] is the
      sequence of nodes before the slot, [t] what the slot currently holds behind it. *)
  Fixpoint walk (collect : bool) (l : list expr) (u t : list expr) (s : S)
    : S * outcome (list expr) :=
    match l with
    | [] => (s, Ret (u ++ t))
    | EList args :: rest =>
        match value_of args with
        | None => (s, Err)
        | Some k =>
            match fns k with
            | None =>
                if collect then walk collect rest (u ++ [EList args]) rest s
                else (s, Err)
            | Some f =>
                let '(s', ok) := f (tl args) s in
                if ok then walk collect rest u t s' else (s', Err)
            end
        end
    | _ :: _ => (s, Err)
    end.

  Definition expr_walk_map (collect : bool) (l : list expr) (s : S) : S * outcome (list expr) :=
    walk collect l [] [] s.

  (** expr_walk_map_wrapped, /repo/src/sexpr_util.cc:44-53. *)
  Definition expr_walk_map_wrapped (strict : bool) (l : list expr) (s : S) :=
    match l with
    | EList items :: _ => expr_walk_map (negb strict) items s
    | _ => (s, Err)
    end.

  (** expr_walk_tmap, /repo/src/sexpr_util.cc:93-127: line 121 tests the chain of the
      keyword, not that of the commands. *)
  Fixpoint expr_walk_tmap (strict : bool) (l : list expr) (s : S) : S * outcome unit :=
    match l with
    | [] => (s, Ret tt)
    | EList args :: rest =>
        match value_of args with
        | None => (s, Err)
        | Some k =>
            let continue s' := match args with
                               | [_] => (s', Ret tt)     (* !expr_has_next(expr): break *)
                               | _ => expr_walk_tmap strict rest s'
                               end in
            match fns k with
            | None => if strict then (s, Err) else continue s
            | Some f =>
                let '(s', ok) := f (tl args) s in
                if ok then continue s' else (s', Err)
            end
        end
    | _ :: _ => (s, Err)
    end.
End Walk.

(** expr_calln, /repo/src/sexpr_util.cc:129-139, and try_chain,
    /repo/src/return_code.h:58-67. *)
Fixpoint calln {S} (fns : list (S -> S * bool)) (s : S) : S * bool :=
  match fns with
  | [] => (s, true)
  | f :: r => let '(s', ok) := f s in if ok then calln r s' else (s', false)
  end.

(** expr_to_string, /repo/src/sexpr_conv.cc:25-34. *)
Definition expr_to_string (e : list expr) : outcome str :=
  match value_of e with Some v => Ret v | None => Err end.

(** expr_tov, /repo/src/sexpr_conv_impl.h:64-85: the new contents of *values (partial when
    the conversion of some element fails) and the return code. [values] is the previous
    contents, cleared at line 69. *)
Fixpoint tov_loop {T} (conv : list expr -> outcome T) (e : list expr) (acc : list T)
  : list T * outcome unit :=
  match e with
  | [] => (acc, Ret tt)
  | _ :: rest =>
      match conv e with
      | Ret v => tov_loop conv rest (acc ++ [v])
      | Err => (acc, Err)
      | Throw => (acc, Throw)
      | UB => (acc, UB)
      | Diverge => (acc, Diverge)
      end
  end.
Definition expr_tov {T} (conv : list expr -> outcome T) (e : list expr) (values : list T)
  : list T * outcome unit := tov_loop conv e [].

(** expr_to_strings, /repo/src/sexpr_conv.cc:36-40. *)
Definition expr_to_strings := expr_tov expr_to_string.

(** expr_to_stringset, /repo/src/sexpr_conv.cc:42-62; the std::set is a list of members
    (most recently inserted first, duplicates harmless), not cleared. *)
Fixpoint stringset_loop (e : list expr) (acc : list str) : list str * outcome unit :=
  match e with
  | [] => (acc, Ret tt)
  | _ :: rest =>
      match value_of e with
      | Some v => stringset_loop rest (v :: acc)
      | None => (acc, Err)
      end
  end.
Definition expr_to_stringset (e : list expr) (values : list str) : list str * outcome unit :=
  match e with
  | EList items :: _ => stringset_loop items values
  | _ => (values, Err)
  end.

(** expr_to_switch, /repo/src/sexpr_conv.cc:119-136. *)
Definition expr_to_switch (e : list expr) : outcome bool :=
  match value_of e with
  | Some v => if str_eqb v (s_ "on") then Ret true
              else if str_eqb v (s_ "off") then Ret false else Err
  | None => Err
  end.

(** expr_to_enum, /repo/src/sexpr_conv_impl.h:18-40; the map is an association list. *)
Fixpoint assoc {T} (k : str) (l : list (str * T)) : option T :=
  match l with
  | [] => None
  | (k', v) :: r => if str_eqb k k' then Some v else assoc k r
  end.
Definition expr_to_enum {T} (defs : list (str * T)) (e : list expr) : outcome T :=
  match value_of e with
  | Some v => match assoc v defs with Some x => Ret x | None => Err end
  | None => Err
  end.

Section Numbers.
  (** double, its zero and the comparison with it. *)
  Context {num : Type}.
  Variable num_zero : num.
  Variable num_is_zero : num -> bool.
  (** std::stod: the value of the longest numeric prefix and its length, or an exception
      (caught by the callers). Left abstract: every theorem holds for any such function. *)
  Variable stod : str -> option (num * nat).

  (** expr_to_float64, /repo/src/sexpr_conv.cc:64-78. *)
  Definition expr_to_float64 (e : list expr) : outcome num :=
    match value_of e with
    | Some v => match stod v with Some (q, _) => Ret q | None => Err end
    | None => Err
    end.

  (** expr_to_float64_opt_pair, /repo/src/sexpr_conv.cc:92-111: new values of *v1, *v2. *)
  Definition expr_to_float64_opt_pair (e : list expr) (v1 v2 : option num)
    : (option num * option num) * outcome unit :=
    match e with
    | [a; b] =>
        match expr_to_float64 [a; b] with
        | Ret x => match expr_to_float64 [b] with
                   | Ret y => ((Some x, Some y), Ret tt)
                   | _ => ((Some x, v2), Err)
                   end
        | _ => ((v1, v2), Err)
        end
    | _ => ((v1, v2), Err)
    end.

  Context {Unit : Type}.
  (** unit_parse (/repo/src/units.cc) and the UnitConvMap. *)
  Variable unit_parse : str -> option Unit.

  (** expr_to_number, /repo/src/sexpr_conv.cc:138-179. *)
  Definition expr_to_number (conv : Unit -> option (num -> num)) (e : list expr) : outcome num :=
    match value_of e with
    | None => Err
    | Some v =>
        match stod v with
        | None => Err
        | Some (q, pos) =>
            if pos =? length v then (if num_is_zero q then Ret num_zero else Err)
            else match unit_parse (skipn pos v) with
                 | Some u => match conv u with Some f => Ret (f q) | None => Err end
                 | None => Err
                 end
        end
    end.

  (** expr_to_vec2, /repo/src/sexpr_conv.cc:181-203: the new components of *v. *)
  Definition expr_to_vec2 (conv1 conv2 : Unit -> option (num -> num)) (e : list expr) (v : num * num)
    : (num * num) * outcome unit :=
    match e with
    | [a; b] =>
        match expr_to_number conv1 [a; b] with
        | Ret x => match expr_to_number conv2 [b] with
                   | Ret y => ((x, y), Ret tt)
                   | _ => ((x, snd v), Err)
                   end
        | _ => (v, Err)
        end
    | _ => (v, Err)
    end.
End Numbers.
