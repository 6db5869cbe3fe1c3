(** Model of /repo/src/sexpr.cc and /repo/src/sexpr_parser.cc. *)
From Verif Require Import Base.

(** struct Expr, /repo/src/sexpr.cc:25-34.  A chain of nodes linked by [next] (owned by
    unique_ptr) is a Coq list; [list] of a LIST node is the chain it owns.  VALUE_LITERAL
    is [ELit], VALUE is [EVal].  Simplification: the value/list fields that a node of the
    other type leaves empty are not represented. *)
Inductive expr : Type :=
| EList (items : list expr)
| ELit (s : str)
| EVal (s : str).

(** The characters that end a literal, /repo/src/sexpr_parser.cc:28-40. *)
Definition lit_stop (c : ascii) : bool :=
  match c with
  | " " | "010" | "009" | "013" | "\" | "'" | """" | ";" | "(" | ")" => true
  | _ => false
  end%char.

(** expr_parse_literal, /repo/src/sexpr_parser.cc:21-50: returns the literal and the
    input left ([*cur] is the tail of the list, [end] its end). *)
Fixpoint parse_literal (s : str) : str * str :=
  match s with
  | [] => ([], [])
  | c :: r => if lit_stop c then ([], s)
              else let '(l, rest) := parse_literal r in (c :: l, rest)
  end.

(** expr_parse_string_escape, /repo/src/sexpr_parser.cc:60-68: the accepted codes. *)
Definition escape_ok (c : ascii) : bool :=
  match c with "\" | "'" | """" => true | _ => false end%char.

(** The loop of expr_parse_string with expr_parse_string_escape inlined,
    /repo/src/sexpr_parser.cc:52-102, after the opening quote [q] was consumed. *)
Fixpoint parse_string (q : ascii) (s : str) : outcome (str * str) :=
  match s with
  | [] => Err                                       (* unterminated string *)
  | c :: r =>
      if Ascii.eqb c q then Ret ([], r)
      else if Ascii.eqb c c_bs then
        match r with
        | [] => Err                                 (* short escape code *)
        | code :: r' =>
            if escape_ok code
            then let* (v, rest) := parse_string q r' in Ret (code :: v, rest)
            else Err                                (* invalid escape code *)
        end
      else let* (v, rest) := parse_string q r in Ret (c :: v, rest)
  end.

(** /repo/src/sexpr_parser.cc:124-126: skips to the newline, which stays. *)
Fixpoint skip_comment (s : str) : str :=
  match s with
  | [] => []
  | c :: r => if Ascii.eqb c c_nl then s else skip_comment r
  end.

(** The std::stack<ExprStorage*> of /repo/src/sexpr_parser.cc:111: each entry points at
    the still empty [next]/[list] slot at the end of a chain.  It is represented by the
    chain written so far in front of that slot, top of the stack first.  Writing through
    the slot appends to the chain.  Simplification: the node of an open list (created at
    line 130) is appended to its chain when the list is closed (line 148); nothing
    observes the difference, since the result of a failed parse is not used. *)
Definition stack := list (list expr).

Definition push_item (st : stack) (e : expr) : outcome stack :=
  match st with
  | [] => UB                                        (* top() of an empty stack *)
  | f :: below => Ret ((f ++ [e]) :: below)
  end.

(** One iteration of the main loop, /repo/src/sexpr_parser.cc:115-173. *)
Definition parse_step (s : str) (st : stack) : outcome (str * stack) :=
  match s with
  | [] => UB                                        (* not called at end of input *)
  | c :: r =>
      match c with
      | " " | "010" | "009" | "013" => Ret (r, st)
      | ";" => Ret (skip_comment s, st)
      | "(" => Ret (r, [] :: st)
      | ")" =>
          match st with
          | items :: below :: rest => Ret (r, (below ++ [EList items]) :: rest)
          | _ => Err                                (* unbalanced parens *)
          end
      | "'" | """" =>
          let* (v, rest) := parse_string c r in
          let* st' := push_item st (EVal v) in Ret (rest, st')
      | _ =>
          let '(l, rest) := parse_literal s in
          let* st' := push_item st (ELit l) in Ret (rest, st')
      end%char
  end.

(** The main loop, /repo/src/sexpr_parser.cc:114-182. [fuel] bounds the iterations. *)
Fixpoint parse_loop (fuel : nat) (s : str) (st : stack) : outcome (list expr) :=
  match s with
  | [] => match st with
          | [items] => Ret items
          | [] => UB
          | _ => Err                                (* unbalanced parens *)
          end
  | _ => match fuel with
         | O => Diverge
         | S n => let* (s', st') := parse_step s st in parse_loop n s' st'
         end
  end.

(** expr_parse, /repo/src/sexpr_parser.cc:104-183. *)
Definition expr_parse (fuel : nat) (s : str) : outcome (list expr) :=
  parse_loop fuel s [[]].

(** expr_inspect and expr_inspect_list, /repo/src/sexpr.cc:207-240, for non-null
    arguments. *)
Fixpoint inspect (e : expr) : str :=
  match e with
  | EVal v | ELit v => v
  | EList l =>
      "("%char ::
      (fix inspect_list (l : list expr) : str :=
         match l with
         | [] => []
         | [x] => inspect x
         | x :: rest => inspect x ++ c_sp :: inspect_list rest
         end) l ++ [")"%char]
  end.

Fixpoint inspect_list (l : list expr) : str :=
  match l with
  | [] => []
  | [x] => inspect x
  | x :: rest => inspect x ++ c_sp :: inspect_list rest
  end.
