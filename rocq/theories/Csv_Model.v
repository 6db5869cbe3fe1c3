(** Model of /repo/src/utils/csv.cc. The (input, *offset) pair is the unread suffix of the
    input. *)
From Verif Require Import Base.

(** csv_parse_field_escaped, /repo/src/utils/csv.cc:19-49, behind the opening quote. *)
Fixpoint field_escaped (s : str) : outcome (str * str) :=
  match s with
  | [] => Err                                         (* unterminated string *)
  | c :: r =>
      if Ascii.eqb c c_dq then
        match r with
        | c2 :: r2 => if Ascii.eqb c2 c_dq
                      then let* (v, rest) := field_escaped r2 in Ret (c_dq :: v, rest)
                      else Ret ([], r)
        | [] => Ret ([], r)
        end
      else let* (v, rest) := field_escaped r in Ret (c :: v, rest)
  end.

Definition c_comma : ascii := ","%char.
Definition lit_end (c : ascii) : bool :=
  Ascii.eqb c c_cr || Ascii.eqb c c_nl || Ascii.eqb c c_comma.

(** csv_parse_field_literal, /repo/src/utils/csv.cc:51-70. *)
Fixpoint field_literal (s : str) : str * str :=
  match s with
  | [] => ([], [])
  | c :: r => if lit_end c then ([], s)
              else let '(v, rest) := field_literal r in (c :: v, rest)
  end.

(** csv_parse_field, /repo/src/utils/csv.cc:72-83 (only called with unread input). *)
Definition parse_field (s : str) : outcome (str * str) :=
  match s with
  | c :: r => if Ascii.eqb c c_dq then field_escaped r else Ret (field_literal s)
  | [] => Ret ([], [])
  end.

(** csv_parse_record, /repo/src/utils/csv.cc:85-122. *)
Fixpoint parse_record (fuel : nat) (s : str) (record : list str) : outcome (list str * str) :=
  match s with
  | [] => Ret (record, [])
  | _ =>
      match fuel with
      | O => Diverge
      | S n =>
          let* (field, rest) := parse_field s in
          let record' := record ++ [field] in
          match rest with
          | [] => Ret (record', [])                           (* end of file *)
          | c :: r =>
              if Ascii.eqb c c_cr || Ascii.eqb c c_nl then Ret (record', rest)
              else if Ascii.eqb c c_comma then parse_record n r record'
              else Err                                        (* invalid separator *)
          end
      end
  end.

(** csv_parse, /repo/src/utils/csv.cc:124-157. *)
Fixpoint parse_rows (fuel : nat) (s : str) (out : list (list str)) : outcome (list (list str)) :=
  match s with
  | [] => Ret out
  | _ =>
      match fuel with
      | O => Diverge
      | S n =>
          let* (record, rest) := parse_record (S n) s [] in
          let out' := out ++ [record] in
          match rest with
          | [] => Ret out'
          | c :: r =>
              if Ascii.eqb c c_cr then
                match r with
                | c2 :: r2 => if Ascii.eqb c2 c_nl then parse_rows n r2 out' else Err
                | [] => Err
                end
              else if Ascii.eqb c c_nl then parse_rows n r out'
              else parse_rows n rest out'                     (* switch: no case *)
          end
      end
  end.

Definition csv_parse (fuel : nat) (s : str) : outcome (list (list str)) := parse_rows fuel s [].

(** std::find / std::distance on the header row, /repo/src/utils/csv.cc:167-173. *)
Fixpoint index_of (k : str) (l : list str) : option nat :=
  match l with
  | [] => None
  | x :: r => if str_eqb x k then Some 0 else option_map S (index_of k r)
  end.

(** The row loop, /repo/src/utils/csv.cc:174-183; the same loop is in
    /repo/src/data.cc:177-186 (data_load_strings_csv) and :274-283 (data_load_simple_csv).
    Returns the values handed to the callback before returning, and how it ended. *)
Fixpoint extract_rows (idx : nat) (rows : list (list str)) : list str * outcome unit :=
  match rows with
  | [] => ([], Ret tt)
  | row :: rest =>
      if length row <? idx then ([], Err)
      else match nth_error row idx with                       (* row->at(idx) *)
           | None => ([], Throw)
           | Some v => let '(vs, o) := extract_rows idx rest in (v :: vs, o)
           end
  end.

(** csv_extract_column, /repo/src/utils/csv.cc:159-186. *)
Definition csv_extract_column (data : list (list str)) (column : str) : list str * outcome unit :=
  match data with
  | [] => ([], Ret tt)
  | headers :: rows =>
      match index_of column headers with
      | None => ([], Err)
      | Some idx => extract_rows idx rows
      end
  end.
