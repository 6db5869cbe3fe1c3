(** Model of /repo/src/utils/json.cc. The std::istream is the list of unread bytes; peek()
    at the end is EOF (a value different from every byte), and stays so. A function returns
    its outcome and the unread input, also after an error. *)
From Verif Require Import Base.

Definition jres (A : Type) : Type := (outcome A * str)%type.

(** enum TokenType with token_data, /repo/src/utils/json.h. *)
Inductive tok :=
| TObjB | TObjE | TArrB | TArrE | TStr (data : str) | TNum (data : str) | TTrue | TFalse | TNull.

(** json_parse_literal, /repo/src/utils/json.cc:24-39: reads as many bytes as the literal
    has (fewer at the end of the input, the rest of the buffer being NUL) and compares.
    [if (!input)] tests the pointer, never the stream. *)
Definition parse_lit (lit : str) (t : tok) (s : str) : jres tok :=
  if str_eqb (firstn (length lit) s) lit then (Ret t, skipn (length lit) s)
  else (Err, skipn (length lit) s).

(** json_parse_string, /repo/src/utils/json.cc:41-114, behind the opening quote. In the
    backslash case [input->get()] returns the backslash just peeked, so the inner switch
    always takes its [case '\\'] (append a backslash) and then falls through to [default]
    (append the next byte). At EOF, [default] appends get() = -1 for ever. *)
Fixpoint parse_str (s : str) : jres str :=
  match s with
  | [] => (Diverge, [])
  | c :: r =>
      if Ascii.eqb c c_bs then
        match r with
        | [] => (Diverge, [])
        | d :: r' => match parse_str r' with
                     | (Ret v, rest) => (Ret (c_bs :: d :: v), rest)
                     | o => o
                     end
        end
      else if Ascii.eqb c c_dq then (Ret [], r)
      else if Ascii.eqb c "000"%char then (Err, s)
      else match parse_str r with
           | (Ret v, rest) => (Ret (c :: v), rest)
           | o => o
           end
  end.

(** The characters json_parse_number collects, /repo/src/utils/json.cc:121-136. *)
Definition num_char (c : ascii) : bool :=
  match c with
  | "-" | "+" | "." | "0" | "1" | "2" | "3" | "4" | "5" | "6" | "7" | "8" | "9" | "e" | "E" => true
  | _ => false
  end%char.

(** json_parse_number, /repo/src/utils/json.cc:116-151. *)
Fixpoint parse_num (s : str) : jres str :=
  match s with
  | [] => (Err, [])
  | c :: r =>
      if num_char c then
        match parse_num r with (Ret v, rest) => (Ret (c :: v), rest) | o => o end
      else if Ascii.eqb c c_sp then parse_num r
      else if Ascii.eqb c "000"%char then (Err, s)
      else (Ret [], s)
  end.

(** json_parse, /repo/src/utils/json.cc:153-230. *)
Fixpoint json_parse (s : str) : jres tok :=
  match s with
  | [] => (Err, [])
  | c :: r =>
      match c with
      | "{" => (Ret TObjB, r)
      | "}" => (Ret TObjE, r)
      | "[" => (Ret TArrB, r)
      | "]" => (Ret TArrE, r)
      | ":" | "," | " " | "010" | "013" | "009" => json_parse r
      | "-" | "0" | "1" | "2" | "3" | "4" | "5" | "6" | "7" | "8" | "9" =>
          match parse_num s with
          | (Ret v, rest) => (Ret (TNum v), rest)
          | (Err, rest) => (Err, rest) | (Throw, rest) => (Throw, rest)
          | (UB, rest) => (UB, rest) | (Diverge, rest) => (Diverge, rest)
          end
      | """" =>
          match parse_str r with
          | (Ret v, rest) => (Ret (TStr v), rest)
          | (Err, rest) => (Err, rest) | (Throw, rest) => (Throw, rest)
          | (UB, rest) => (UB, rest) | (Diverge, rest) => (Diverge, rest)
          end
      | "t" => parse_lit (s_ "true") TTrue s
      | "f" => parse_lit (s_ "false") TFalse s
      | "n" => parse_lit (s_ "null") TNull s
      | _ => (Err, s)                       (* NUL or an unexpected character *)
      end%char
  end.

Definition jbind {A B} (m : jres A) (k : A -> str -> jres B) : jres B :=
  match m with
  | (Ret a, s) => k a s
  | (Err, s) => (Err, s) | (Throw, s) => (Throw, s) | (UB, s) => (UB, s)
  | (Diverge, s) => (Diverge, s)
  end.

(** json_read_array_begin, json_read_object_begin, json_read_string,
    /repo/src/utils/json.cc:232-277. *)
Definition read_array_begin (s : str) : jres unit :=
  jbind (json_parse s) (fun t s => match t with TArrB => (Ret tt, s) | _ => (Err, s) end).
Definition read_object_begin (s : str) : jres unit :=
  jbind (json_parse s) (fun t s => match t with TObjB => (Ret tt, s) | _ => (Err, s) end).
Definition read_string (s : str) : jres str :=
  jbind (json_parse s) (fun t s => match t with TStr v => (Ret v, s) | _ => (Err, s) end).

(** json_skip_array and json_skip_object, /repo/src/utils/json.cc:282-365. *)
Fixpoint skip_array (n : nat) (s : str) : jres unit :=
  match n with
  | O => (Diverge, s)
  | S n =>
      jbind (json_parse s) (fun t s =>
      match t with
      | TArrB => jbind (skip_array n s) (fun _ s => skip_array n s)
      | TObjB => jbind (skip_object n s) (fun _ s => skip_array n s)
      | TNum _ | TStr _ | TNull | TTrue | TFalse => skip_array n s
      | TArrE => (Ret tt, s)
      | TObjE => (Err, s)
      end)
  end
with skip_object (n : nat) (s : str) : jres unit :=
  match n with
  | O => (Diverge, s)
  | S n =>
      jbind (json_parse s) (fun t s =>
      match t with
      | TObjE => (Ret tt, s)
      | TStr _ =>
          jbind (json_parse s) (fun t s =>
          match t with
          | TArrB => jbind (skip_array n s) (fun _ s => skip_object n s)
          | TObjB => jbind (skip_object n s) (fun _ s => skip_object n s)
          | TNum _ | TStr _ | TNull | TTrue | TFalse => skip_object n s
          | TArrE | TObjE => (Err, s)
          end)
      | _ => (Err, s)
      end)
  end.

(** json_skip, /repo/src/utils/json.cc:367-400. *)
Definition json_skip (n : nat) (s : str) : jres unit :=
  jbind (json_parse s) (fun t s =>
  match t with
  | TArrB => skip_array n s
  | TObjB => skip_object n s
  | TNum _ | TStr _ | TNull | TTrue | TFalse => (Ret tt, s)
  | TObjE | TArrE => (Err, s)
  end).
