(** Specification of the S-expression language, independent of the parser's code
    (it shares with the model only the type [expr] of results). *)
From Verif Require Import Base Sexpr_Model.

Definition ws (c : ascii) : Prop := In c [c_sp; c_nl; c_tab; c_cr].
(** Characters that cannot occur in a bare word. *)
Definition special (c : ascii) : Prop :=
  ws c \/ In c [c_bs; c_sq; c_dq; ";"; "("; ")"]%char.
Definition quote (c : ascii) : Prop := c = c_sq \/ c = c_dq.

(** A bare word: non-empty, no special character. *)
Definition word (w : str) : Prop := w <> [] /\ Forall (fun c => ~ special c) w.
(** The text after a bare word does not continue it. *)
Definition word_ends (s : str) : Prop :=
  match s with [] => True | c :: _ => special c end.

(** [strbody q b v]: b, between quotes q, spells the string v. *)
Inductive strbody (q : ascii) : str -> str -> Prop :=
| sb_nil : strbody q [] []
| sb_plain c b v : c <> q -> c <> c_bs -> strbody q b v -> strbody q (c :: b) (c :: v)
| sb_esc c b v : c = c_bs \/ c = c_sq \/ c = c_dq -> strbody q b v ->
    strbody q (c_bs :: c :: b) (c :: v).

(** [items s es]: the text s (with every comment closed by a newline) spells es. *)
Inductive items : str -> list expr -> Prop :=
| it_nil : items [] []
| it_ws c s es : ws c -> items s es -> items (c :: s) es
| it_comment body s es : ~ In c_nl body -> items s es ->
    items (";"%char :: body ++ c_nl :: s) es
| it_string q b v s es : quote q -> strbody q b v -> items s es ->
    items (q :: b ++ q :: s) (EVal v :: es)
| it_word w s es : word w -> word_ends s -> items s es ->
    items (w ++ s) (ELit w :: es)
| it_list inner xs s es : items inner xs -> items s es ->
    items ("("%char :: inner ++ ")"%char :: s) (EList xs :: es).

(** A program: items, possibly followed by a last comment without newline. *)
Definition program (s : str) (es : list expr) : Prop :=
  items s es \/
  exists s0 body, s = s0 ++ ";"%char :: body /\ ~ In c_nl body /\ items s0 es.

(** Scanner positions: outside, inside a comment, inside a string (and after a
    backslash in it).  [bare_backslash s] : the text has a backslash outside comments and
    strings. *)
Inductive mode := Outside | Comment | InStr (q : ascii) | Esc (q : ascii).

Definition scan1 (m : mode) (c : ascii) : mode :=
  match m with
  | Outside => if Ascii.eqb c ";" then Comment
               else if Ascii.eqb c c_sq || Ascii.eqb c c_dq then InStr c else Outside
  | Comment => if Ascii.eqb c c_nl then Outside else Comment
  | InStr q => if Ascii.eqb c q then Outside
               else if Ascii.eqb c c_bs then Esc q else InStr q
  | Esc q => InStr q
  end.

Definition bare_backslash (s : str) : Prop :=
  exists p r, s = p ++ c_bs :: r /\ fold_left scan1 p Outside = Outside.

(** A separator: white space and newline-closed comments. *)
Inductive gap : str -> Prop :=
| gap_nil : gap []
| gap_ws c g : ws c -> gap g -> gap (c :: g)
| gap_comment body g : ~ In c_nl body -> gap g -> gap (";"%char :: body ++ c_nl :: g).

(** Writing a string between double quotes. *)
Definition esc_char (c : ascii) : str :=
  if Ascii.eqb c c_bs || Ascii.eqb c c_dq then [c_bs; c] else [c].
Definition write_string (v : str) : str := c_dq :: flat_map esc_char v ++ [c_dq].

(** [rendered es s]: s is a writing of es, with arbitrary separators between elements
    (bare words need at least one separating special character after them). *)
Inductive rendered : list expr -> str -> Prop :=
| rd_nil g : gap g -> rendered [] g
| rd_val g v es s : gap g -> rendered es s ->
    rendered (EVal v :: es) (g ++ write_string v ++ s)
| rd_lit g w es s : gap g -> word w -> word_ends s -> rendered es s ->
    rendered (ELit w :: es) (g ++ w ++ s)
| rd_list g xs t es s : gap g -> rendered xs t -> rendered es s ->
    rendered (EList xs :: es) (g ++ "("%char :: t ++ ")"%char :: s).

(** All bare words of a tree are words. *)
Inductive ok_expr : expr -> Prop :=
| ok_list l : Forall ok_expr l -> ok_expr (EList l)
| ok_lit w : word w -> ok_expr (ELit w)
| ok_val v : ok_expr (EVal v).

(** The canonical text: elements separated by one space. *)
Fixpoint write (e : expr) : str :=
  match e with
  | EVal v => write_string v
  | ELit w => w
  | EList l => "("%char :: flat_map (fun x => write x ++ [c_sp]) l ++ [")"%char]
  end.
Definition write_list (l : list expr) : str := flat_map (fun x => write x ++ [c_sp]) l.

(** Forgetting which values were quoted. *)
Fixpoint unquote (e : expr) : expr :=
  match e with
  | EVal v => ELit v
  | ELit v => ELit v
  | EList l => EList (map unquote l)
  end.
Inductive words_only : expr -> Prop :=
| wo_list l : Forall words_only l -> words_only (EList l)
| wo_lit w : word w -> words_only (ELit w)
| wo_val w : word w -> words_only (EVal w).
