(** The CSV language (RFC 4180 with LF or CRLF line ends), independent of the parser. *)
From Verif Require Import Base.

Definition comma : ascii := ","%char.

(** Inside quotes: quotes doubled, everything else as is. *)
Fixpoint double_quotes (v : str) : str :=
  match v with
  | [] => []
  | c :: r => if Ascii.eqb c c_dq then c_dq :: c_dq :: double_quotes r else c :: double_quotes r
  end.

(** [field t v]: the text t is a field with value v. *)
Inductive field : str -> str -> Prop :=
| f_quoted v : field (c_dq :: double_quotes v ++ [c_dq]) v
| f_plain v : Forall (fun c => c <> c_cr /\ c <> c_nl /\ c <> comma) v ->
    (forall r, v <> c_dq :: r) -> field v v.

(** Records: one or more fields separated by commas. *)
Inductive record : str -> list str -> Prop :=
| r_one t v : field t v -> record t [v]
| r_cons t v s vs : field t v -> record s vs -> record (t ++ comma :: s) (v :: vs).

Definition eol (e : str) : Prop := e = [c_nl] \/ e = [c_cr; c_nl].

(** Files: records, each ended by a line end; the end of the last line may be missing. *)
Inductive file : str -> list (list str) -> Prop :=
| file_nil : file [] []
| file_last s r : s <> [] -> record s r -> file s [r]
| file_row s r e s' rows : record s r -> eol e -> file s' rows -> file (s ++ e ++ s') (r :: rows).

(** What the code accepts instead: the last line, when it ends in a comma, is taken to end
    before that comma. *)
Inductive last_line : str -> list str -> Prop :=
| l_one t v : t <> [] -> field t v -> last_line t [v]
| l_comma t v : field t v -> last_line (t ++ [comma]) [v]
| l_cons t v s vs : field t v -> last_line s vs -> last_line (t ++ comma :: s) (v :: vs).

Inductive file_code : str -> list (list str) -> Prop :=
| fc_nil : file_code [] []
| fc_last s r : last_line s r -> file_code s [r]
| fc_row s r e s' rows : record s r -> eol e -> file_code s' rows ->
    file_code (s ++ e ++ s') (r :: rows).

(** The last byte of the text is not a comma. *)
Definition no_final_comma (s : str) : Prop := forall s0, s <> s0 ++ [comma].

(** A standard writer: every field quoted, every row ended by the chosen line end. *)
Definition write_field (v : str) : str := c_dq :: double_quotes v ++ [c_dq].
Fixpoint write_record (vs : list str) : str :=
  match vs with
  | [] => []
  | [v] => write_field v
  | v :: r => write_field v ++ comma :: write_record r
  end.
Definition write_table (e : str) (rows : list (list str)) : str :=
  flat_map (fun r => write_record r ++ e) rows.
