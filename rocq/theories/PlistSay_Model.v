(** The messages of the property list parser, /repo/src/plist_parser.cc: setError and where it is called.
    The functions of Plist_Model with error_msg_ as a second component: setError (496-502) replaces it, and it
    keeps what a failed attempt that is ignored (line 172) has left there. *)
From Verif Require Import Base Sexpr_Model Plist_Model.

(** printToken, /repo/src/plist_parser.cc:459-494: the kind, and the text of a string that is not empty. *)
Definition kind_name (t : ptok) : str :=
  match t with
  | PString _ | PQuoted _ => s_ "STRING" | PColon => s_ "COLON" | PComma => s_ "COMMA" | PSemi => s_ "SEMICOLON"
  | PLParen => s_ "LPAREN" | PRParen => s_ "RPAREN" | PLBrace => s_ "LCBRACE" | PRBrace => s_ "RCBRACE"
  end.
Definition token_buf (t : ptok) : str := match t with PString w | PQuoted w => w | _ => [] end.
Definition print_token (t : ptok) : str :=
  kind_name t ++ match token_buf t with [] => [] | b => s_ "<" ++ b ++ s_ ">" end.

(** The texts of setError in lines 71, 90-94, 139-143, 427-431 and 446-449. *)
Definition end_of_file : str := s_ "unexpected end of file; expected COLON or LCBRACE".
Definition wants_colon (t : ptok) : str := s_ "unexpected token '" ++ print_token t ++ s_ "'; expected COLON OR LCBRACE".
Definition wants_semicolon (t : ptok) : str := s_ "unexpected token '" ++ print_token t ++ s_ "'; expected SEMICOLON OR COMMA".
Definition wants (kind : string) (t : ptok) : str :=
  s_ "unexpected token; expected: " ++ s_ kind ++ s_ ", got: " ++ print_token t.

(** A result and error_msg_. *)
Definition sbind {A B} (r : outcome A * str) (f : A -> str -> outcome B * str) : outcome B * str :=
  let '(o, m) := r in
  match o with Ret a => f a m | Err => (Err, m) | Throw => (Throw, m) | UB => (UB, m) | Diverge => (Diverge, m) end.

(** expectAndConsumeToken, /repo/src/plist_parser.cc:418-436: at the end of the input it fails without a
    message. [is] recognises the token that is expected. *)
Definition expect_said (kind : string) (is : ptok -> bool) (s m : str) : outcome str * str :=
  match get_token s with
  | None => (Err, m)
  | Some (t, r) => if is t then (Ret r, m) else (Err, wants kind t)
  end.
Definition is_semi (t : ptok) : bool := match t with PSemi => true | _ => false end.
Definition is_rparen (t : ptok) : bool := match t with PRParen => true | _ => false end.
Definition is_rbrace (t : ptok) : bool := match t with PRBrace => true | _ => false end.

(** parsePropertyValues (112-149), parsePropertyValueOrEnum with parsePropertyValue (151-203). The default
    case of parsePropertyValue (195-199) is never reached: the token has been looked at in line 119. *)
Fixpoint parse_values_said (n : nat) (s m : str) : outcome (list expr * str) * str :=
  match n with
  | O => (Diverge, m)
  | S n =>
      match get_token s with
      | None => (Ret ([], s), m)
      | Some (PSemi, _) | Some (PRParen, _) => (Ret ([], s), m)
      | Some (PComma, r) => parse_values_said n r m
      | Some (PString _, _) | Some (PQuoted _, _) =>
          sbind (parse_value_said n s m) (fun '(v, s1) m =>
          sbind (parse_values_said n s1 m) (fun '(vs, s2) m => (Ret (v :: vs, s2), m)))
      | Some (t, _) => (Err, wants_semicolon t)
      end
  end
with parse_value_said (n : nat) (s m : str) : outcome (expr * str) * str :=
  match n with
  | O => (Diverge, m)
  | S n =>
      match get_token s with
      | Some (PQuoted v, r) => (Ret (EVal v, r), m)
      | Some (PString v, r) =>
          match get_token r with
          | Some (PLParen, r1) =>
              sbind (parse_values_said n r1 m) (fun '(args, s1) m =>
              let '(o, m) := expect_said "RPAREN" is_rparen s1 m in
              (Ret (EList (ELit v :: args), match o with Ret s2 => s2 | _ => s1 end), m))
          | _ => (Ret (ELit v, r), m)
          end
      | Some (t, _) => (Err, s_ "unexpected token '" ++ print_token t ++ s_ "'; expected STRING")
      | None => (Err, m)
      end
  end.

(** parsePropertyOrMap (64-99) with parseProperty (101-110), parsePropertyMap (205-221) and
    expectAndConsumeString (438-453). *)
Fixpoint property_or_map_said (n : nat) (s m : str) : outcome (expr * str) * str :=
  match n with
  | O => (Diverge, m)
  | S n =>
      match get_token s with
      | Some (PString name, r) | Some (PQuoted name, r) =>
          match get_token r with
          | Some (PColon, r1) =>
              sbind (parse_values_said n r1 m) (fun '(args, s1) m =>
              sbind (expect_said "SEMICOLON" is_semi s1 m) (fun s2 m => (Ret (EList (ELit name :: args), s2), m)))
          | Some (PLBrace, r1) =>
              sbind (map_items_said n r1 m) (fun '(items, s1) m =>
              sbind (expect_said "RCBRACE" is_rbrace s1 m) (fun s2 m => (Ret (EList (ELit name :: items), s2), m)))
          | Some (t, _) => (Err, wants_colon t)
          | None => (Err, end_of_file)
          end
      | Some (t, _) => (Err, wants "STRING" t)
      | None => (Err, m)
      end
  end
with map_items_said (n : nat) (s m : str) : outcome (list expr * str) * str :=
  match n with
  | O => (Diverge, m)
  | S n =>
      match get_token s with
      | None => (Ret ([], s), m)
      | Some (PRBrace, _) => (Ret ([], s), m)
      | Some _ =>
          sbind (property_or_map_said n s m) (fun '(x, s1) m =>
          sbind (map_items_said n s1 m) (fun '(xs, s2) m => (Ret (x :: xs, s2), m)))
      end
  end.

(** parse and get_error, /repo/src/plist_parser.cc:48-62. *)
Fixpoint parse_program_said (n : nat) (s m : str) : outcome (list expr) * str :=
  match n with
  | O => (Diverge, m)
  | S n =>
      match get_token s with
      | None => (Ret [], m)
      | Some _ =>
          sbind (property_or_map_said n s m) (fun '(x, s1) m =>
          sbind (parse_program_said n s1 m) (fun xs m => (Ret (x :: xs), m)))
      end
  end.
Definition plist_parse_said (s : str) : outcome (list expr) * str := parse_program_said (4 * length s + 4) s [].
