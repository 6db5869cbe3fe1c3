(** Property-list programs as trees, their written forms, and a scanner for quotes and
    brackets. Independent of the parser; [expr] is the tree type of the result. *)
From Verif Require Import Base Sexpr_Model.

(** A value, and a property or a block. *)
Inductive pval := VLit (s : str) | VStr (s : str) | VFn (name : str) (args : list pval).
Inductive ptree := Prop_ (name : str) (args : list pval) | Block (name : str) (items : list ptree).

(** The expression a program denotes. *)
Fixpoint val_expr (v : pval) : expr :=
  match v with
  | VLit s => ELit s
  | VStr s => EVal s
  | VFn f args => EList (ELit f :: map val_expr args)
  end.
Fixpoint tree_expr (t : ptree) : expr :=
  match t with
  | Prop_ n args => EList (ELit n :: map val_expr args)
  | Block n items => EList (ELit n :: map tree_expr items)
  end.

Definition space (c : ascii) : Prop := c = c_sp \/ c = c_nl \/ c = c_tab \/ c = c_cr.
Definition blank (s : str) : Prop := Forall space s.
(** Characters with a meaning outside strings. *)
Definition special (c : ascii) : Prop := In c (s_ ",:;(){}" ++ [c_dq; c_sq]).
(** A bare word. *)
Definition word (s : str) : Prop := s <> [] /\ Forall (fun c => ~ space c /\ ~ special c) s.

(** A quoted string: [q] and backslashes inside are escaped, anything may be. *)
Inductive quoted_body (q : ascii) : str -> str -> Prop :=
| qb_nil : quoted_body q [] []
| qb_plain c b v : c <> q -> c <> c_bs -> quoted_body q b v -> quoted_body q (c :: b) (c :: v)
| qb_esc c b v : quoted_body q b v -> quoted_body q (c_bs :: c :: b) (c :: v).
Inductive quoted : str -> str -> Prop :=
| quoted_i q b v : q = c_dq \/ q = c_sq -> quoted_body q b v -> quoted (q :: b ++ [q]) v.

(** Written forms, with any white space between tokens; arguments are separated by commas or
    by white space. *)
Inductive val_text : pval -> str -> Prop :=
| xt_lit s : word s -> val_text (VLit s) s
| xt_str s t : quoted t s -> val_text (VStr s) t
| xt_fn f args w1 t : word f -> blank w1 -> args_text args t ->
    val_text (VFn f args) (f ++ w1 ++ s_ "(" ++ t ++ s_ ")")
with args_text : list pval -> str -> Prop :=
| at_nil w : blank w -> args_text [] w
| at_one v t w1 w2 : blank w1 -> blank w2 -> val_text v t -> args_text [v] (w1 ++ t ++ w2)
| at_cons v t vs u w1 w2 : blank w1 -> blank w2 -> val_text v t -> vs <> [] -> args_text vs u ->
    args_text (v :: vs) (w1 ++ t ++ w2 ++ s_ "," ++ u)
| at_space v t vs u w1 w2 : blank w1 -> blank w2 -> w2 <> [] -> val_text v t -> vs <> [] -> args_text vs u ->
    args_text (v :: vs) (w1 ++ t ++ w2 ++ u).

Inductive name_text : str -> str -> Prop :=
| nt_word s : word s -> name_text s s
| nt_quoted s t : quoted t s -> name_text s t.

Inductive tree_text : ptree -> str -> Prop :=
| tt_prop n nt w1 args t : name_text n nt -> blank w1 -> args_text args t ->
    tree_text (Prop_ n args) (nt ++ w1 ++ s_ ":" ++ t ++ s_ ";")
| tt_block n nt w1 items t : name_text n nt -> blank w1 -> trees_text items t ->
    tree_text (Block n items) (nt ++ w1 ++ s_ "{" ++ t ++ s_ "}")
with trees_text : list ptree -> str -> Prop :=
| ts_nil w : blank w -> trees_text [] w
| ts_cons x t xs u w : blank w -> tree_text x t -> trees_text xs u -> trees_text (x :: xs) (w ++ t ++ u).

(** Scanning quotes and brackets. *)
Inductive mode := Outside | Inside (q : ascii) | Escaped (q : ascii).
Definition scan1 (m : mode) (c : ascii) : mode :=
  match m with
  | Outside => if Ascii.eqb c c_dq || Ascii.eqb c c_sq then Inside c else Outside
  | Inside q => if Ascii.eqb c q then Outside else if Ascii.eqb c c_bs then Escaped q else Inside q
  | Escaped q => Inside q
  end.
Fixpoint scan (m : mode) (s : str) : mode :=
  match s with [] => m | c :: r => scan (scan1 m c) r end.
(** The number of occurrences of [x] outside strings. *)
Fixpoint count_out (x : ascii) (m : mode) (s : str) : nat :=
  match s with
  | [] => 0
  | c :: r => (match m with Outside => if Ascii.eqb c x then 1 else 0 | _ => 0 end) + count_out x (scan1 m c) r
  end.
Definition count (x : ascii) (s : str) : nat := count_out x Outside s.
