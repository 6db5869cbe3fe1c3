(** Model of /repo/src/plist_parser.cc. The state of the parser (input_cur_, has_token_,
    token_type_, token_buf_) is the unread input at the start of the pending token:
    getToken caches the token it has read until consumeToken, so looking again yields the
    same token, and consumeToken moves behind it. [false] returns are [Err]; the error
    message is in PlistSay_Model.v. Reading one byte past the end (line 382 ff. tests the byte
    before the bound) is harmless: eval passes std::string::data(), which is NUL-terminated
    (/repo/src/eval.cc:100). *)
From Verif Require Import Base Sexpr_Model.

(** enum TokenType with token_buf_, /repo/src/plist_parser.h:51-61. *)
Inductive ptok :=
| PString (s : str) | PQuoted (s : str)
| PComma | PColon | PSemi | PLParen | PRParen | PLBrace | PRBrace.

(** /repo/src/plist_parser.cc:249-259. *)
Definition pws (c : ascii) : bool :=
  match c with " " | "010" | "009" | "013" => true | _ => false end%char.
Fixpoint skip_ws (s : str) : str :=
  match s with
  | [] => []
  | c :: r => if pws c then skip_ws r else s
  end.

(** The bytes that end an unquoted string, /repo/src/plist_parser.cc:382-395. *)
Definition word_stop (c : ascii) : bool :=
  match c with
  | " " | "009" | "010" | "013" | "," | ":" | ";" | "(" | ")" | "{" | "}" | """" | "'" => true
  | _ => false
  end%char.
Fixpoint read_word (s : str) : str * str :=
  match s with
  | [] => ([], [])
  | c :: r => if word_stop c then ([], s) else let '(w, rest) := read_word r in (c :: w, rest)
  end.

(** /repo/src/plist_parser.cc:344-380: behind the opening quote [q]. The end of the input ends the string. *)
Fixpoint read_quoted (q : ascii) (escaped : bool) (s : str) : str * str :=
  match s with
  | [] => ([], [])
  | c :: r =>
      if Ascii.eqb c c_dq || Ascii.eqb c c_sq then
        if escaped || negb (Ascii.eqb q c)
        then let '(v, rest) := read_quoted q false r in (c :: v, rest)
        else ([], r)
      else if Ascii.eqb c c_bs then
        if escaped then let '(v, rest) := read_quoted q false r in (c_bs :: v, rest)
        else read_quoted q true r
      else let '(v, rest) := read_quoted q false r in (c :: v, rest)
  end.

(** getToken, /repo/src/plist_parser.cc:239-410; None: end of input. *)
Definition get_token (s : str) : option (ptok * str) :=
  match skip_ws s with
  | [] => None
  | c :: r =>
      match c with
      | "," => Some (PComma, r) | ":" => Some (PColon, r) | ";" => Some (PSemi, r)
      | "(" => Some (PLParen, r) | ")" => Some (PRParen, r)
      | "{" => Some (PLBrace, r) | "}" => Some (PRBrace, r)
      | """" | "'" => let '(v, rest) := read_quoted c false r in Some (PQuoted v, rest)
      | _ => let '(w, rest) := read_word (c :: r) in Some (PString w, rest)
      end%char
  end.

(** parsePropertyValues (/repo/src/plist_parser.cc:112-149) and parsePropertyValueOrEnum with
    parsePropertyValue (151-203). The result of expectAndConsumeToken(T_RPAREN) in line 172
    is ignored: the token is consumed only if it is there. *)
Fixpoint parse_values (n : nat) (s : str) : outcome (list expr * str) :=
  match n with
  | O => Diverge
  | S n =>
      match get_token s with
      | None => Ret ([], s)
      | Some (PSemi, _) | Some (PRParen, _) => Ret ([], s)
      | Some (PComma, r) => parse_values n r
      | Some (PString _, _) | Some (PQuoted _, _) =>
          let* (v, s1) := parse_value n s in
          let* (vs, s2) := parse_values n s1 in
          Ret (v :: vs, s2)
      | Some _ => Err
      end
  end
with parse_value (n : nat) (s : str) : outcome (expr * str) :=
  match n with
  | O => Diverge
  | S n =>
      match get_token s with
      | Some (PQuoted v, r) => Ret (EVal v, r)
      | Some (PString v, r) =>
          match get_token r with
          | Some (PLParen, r1) =>
              let* (args, s1) := parse_values n r1 in
              let s2 := match get_token s1 with Some (PRParen, r2) => r2 | _ => s1 end in
              Ret (EList (ELit v :: args), s2)
          | _ => Ret (ELit v, r)
          end
      | _ => Err
      end
  end.

(** parsePropertyOrMap (/repo/src/plist_parser.cc:64-99), with parseProperty (101-110), and
    parsePropertyMap (205-221), whose loop is [map_items]. *)
Fixpoint property_or_map (n : nat) (s : str) : outcome (expr * str) :=
  match n with
  | O => Diverge
  | S n =>
      match get_token s with
      | Some (PString name, r) | Some (PQuoted name, r) =>
          match get_token r with
          | Some (PColon, r1) =>
              let* (args, s1) := parse_values n r1 in
              match get_token s1 with
              | Some (PSemi, r2) => Ret (EList (ELit name :: args), r2)
              | _ => Err
              end
          | Some (PLBrace, r1) =>
              let* (items, s1) := map_items n r1 in
              match get_token s1 with
              | Some (PRBrace, r2) => Ret (EList (ELit name :: items), r2)
              | _ => Err
              end
          | _ => Err
          end
      | _ => Err
      end
  end
with map_items (n : nat) (s : str) : outcome (list expr * str) :=
  match n with
  | O => Diverge
  | S n =>
      match get_token s with
      | None => Ret ([], s)
      | Some (PRBrace, _) => Ret ([], s)
      | Some _ =>
          let* (x, s1) := property_or_map n s in
          let* (xs, s2) := map_items n s1 in
          Ret (x :: xs, s2)
      end
  end.

(** parse, /repo/src/plist_parser.cc:52-62. *)
Fixpoint parse_program (n : nat) (s : str) : outcome (list expr) :=
  match n with
  | O => Diverge
  | S n =>
      match get_token s with
      | None => Ret []
      | Some _ =>
          let* (x, s1) := property_or_map n s in
          let* xs := parse_program n s1 in
          Ret (x :: xs)
      end
  end.

(** Fuel sufficient for every input (Plist_Proofs.v, parse_total). *)
Definition plist_parse (s : str) : outcome (list expr) := parse_program (4 * length s + 4) s.
