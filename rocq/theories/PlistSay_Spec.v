(** What a message about a syntax error should say. *)
From Verif Require Import Base Plist_Model.

(** The names of the kinds of tokens in messages, and a spelling of each. *)
Inductive kind := KString | KColon | KComma | KSemicolon | KLParen | KRParen | KLBrace | KRBrace.
Definition name_of (k : kind) : str :=
  match k with
  | KString => s_ "STRING" | KColon => s_ "COLON" | KComma => s_ "COMMA" | KSemicolon => s_ "SEMICOLON"
  | KLParen => s_ "LPAREN" | KRParen => s_ "RPAREN" | KLBrace => s_ "LCBRACE" | KRBrace => s_ "RCBRACE"
  end.
Definition spelled (k : kind) : str :=
  match k with
  | KString => s_ " x " | KColon => s_ ":" | KComma => s_ "," | KSemicolon => s_ ";"
  | KLParen => s_ "(" | KRParen => s_ ")" | KLBrace => s_ "{" | KRBrace => s_ "}"
  end.
Definition kind_of (t : ptok) : kind :=
  match t with
  | PString _ | PQuoted _ => KString | PColon => KColon | PComma => KComma | PSemi => KSemicolon
  | PLParen => KLParen | PRParen => KRParen | PLBrace => KLBrace | PRBrace => KRBrace
  end.
(** A token as it is shown: its kind, and its text if it has one. *)
Inductive shown : ptok -> str -> Prop :=
| shown_text t w : t = PString w \/ t = PQuoted w -> w <> [] -> shown t (s_ "STRING<" ++ w ++ s_ ">")
| shown_empty t : t = PString [] \/ t = PQuoted [] -> shown t (s_ "STRING")
| shown_kind t : kind_of t <> KString -> shown t (name_of (kind_of t)).
(** [message] shows the token [t] and says that one of [ks] was expected instead. *)
Inductive complaint (t : ptok) : list kind -> str -> Prop :=
| complaint_one k w : shown t w ->
    complaint t [k] (s_ "unexpected token; expected: " ++ name_of k ++ s_ ", got: " ++ w)
| complaint_two k1 k2 w : shown t w ->
    complaint t [k1; k2] (s_ "unexpected token '" ++ w ++ s_ "'; expected " ++ name_of k1 ++ s_ " OR " ++ name_of k2).
(** How a token is written: white space, then a word, a quoted string, or a sign. The end of the text ends a
    string too. *)
From Verif Require Import Plist_Spec.
Inductive spells : str -> ptok -> Prop :=
| spells_word w v : blank w -> word v -> spells (w ++ v) (PString v)
| spells_quoted w q v : blank w -> quoted q v -> spells (w ++ q) (PQuoted v)
| spells_open w q b v e : blank w -> q = c_dq \/ q = c_sq -> quoted_body q b v -> e = [] \/ e = [c_bs] ->
    spells (w ++ q :: b ++ e) (PQuoted v)
| spells_sign w c t : blank w ->
    In (c, t) [(",", PComma); (":", PColon); (";", PSemi); ("(", PLParen); (")", PRParen); ("{", PLBrace); ("}", PRBrace)]%char ->
    spells (w ++ [c]) t.
