From Verif Require Import Base Json_Model.
(** Only the type [tok] is used from the model. *)

(** JSON values. [JStr raw]/member names carry the text between the quotes as written, escape
    sequences included; [JNum l] the number as written. *)
Inductive json :=
| JNull | JTrue | JFalse | JNum (lexeme : str) | JStr (raw : str)
| JArr (items : list json) | JObj (members : list (str * json)).

(** The tokens of a value, in document order. *)
Fixpoint tokens (v : json) : list tok :=
  match v with
  | JNull => [TNull] | JTrue => [TTrue] | JFalse => [TFalse]
  | JNum l => [TNum l] | JStr r => [TStr r]
  | JArr l => TArrB :: flat_map tokens l ++ [TArrE]
  | JObj m => TObjB :: flat_map (fun p => TStr (fst p) :: tokens (snd p)) m ++ [TObjE]
  end.

(** RFC 8259 lexical grammar. *)
Definition is_ws (c : ascii) : bool :=
  match c with " " | "009" | "010" | "013" => true | _ => false end%char.
Definition ws (s : str) : Prop := Forall (fun c => is_ws c = true) s.

Definition is_digit (c : ascii) : bool :=
  match c with "0" | "1" | "2" | "3" | "4" | "5" | "6" | "7" | "8" | "9" => true | _ => false end%char.
Definition digits (s : str) : Prop := s <> [] /\ Forall (fun c => is_digit c = true) s.
Inductive int_part : str -> Prop :=
| ip_zero : int_part (s_ "0")
| ip_nz c r : is_digit c = true -> c <> "0"%char -> Forall (fun c => is_digit c = true) r -> int_part (c :: r).
Inductive frac_part : str -> Prop :=
| fp_none : frac_part []
| fp_some d : digits d -> frac_part ("."%char :: d).
Inductive exp_part : str -> Prop :=
| ep_none : exp_part []
| ep_some e sign d : e = "e"%char \/ e = "E"%char -> sign = [] \/ sign = s_ "+" \/ sign = s_ "-" ->
    digits d -> exp_part (e :: sign ++ d).
Inductive number_lexeme : str -> Prop :=
| nl sign i f e : sign = [] \/ sign = s_ "-" -> int_part i -> frac_part f -> exp_part e ->
    number_lexeme (sign ++ i ++ f ++ e).

Definition is_hex (c : ascii) : bool :=
  is_digit c || match c with
  | "a" | "b" | "c" | "d" | "e" | "f" | "A" | "B" | "C" | "D" | "E" | "F" => true
  | _ => false end%char.
Definition simple_escape (c : ascii) : bool :=
  match c with """" | "\" | "/" | "b" | "f" | "n" | "r" | "t" => true | _ => false end%char.
Inductive string_body : str -> Prop :=
| sb_nil : string_body []
| sb_plain c r : (32 <= nat_of_ascii c) -> c <> c_dq -> c <> c_bs -> string_body r -> string_body (c :: r)
| sb_esc c r : simple_escape c = true -> string_body r -> string_body (c_bs :: c :: r)
| sb_u a b c d r : is_hex a = true -> is_hex b = true -> is_hex c = true -> is_hex d = true ->
    string_body r -> string_body (c_bs :: "u"%char :: a :: b :: c :: d :: r).

(** RFC 8259 syntax. *)
Inductive value_text : json -> str -> Prop :=
| vt_null : value_text JNull (s_ "null")
| vt_true : value_text JTrue (s_ "true")
| vt_false : value_text JFalse (s_ "false")
| vt_num l : number_lexeme l -> value_text (JNum l) l
| vt_str r : string_body r -> value_text (JStr r) (c_dq :: r ++ [c_dq])
| vt_arr0 w : ws w -> value_text (JArr []) (s_ "[" ++ w ++ s_ "]")
| vt_arr l s : elems_text l s -> value_text (JArr l) (s_ "[" ++ s ++ s_ "]")
| vt_obj0 w : ws w -> value_text (JObj []) (s_ "{" ++ w ++ s_ "}")
| vt_obj m s : members_text m s -> value_text (JObj m) (s_ "{" ++ s ++ s_ "}")
with elems_text : list json -> str -> Prop :=
| et_one w1 w2 v s : ws w1 -> ws w2 -> value_text v s -> elems_text [v] (w1 ++ s ++ w2)
| et_cons w1 w2 v s l t : ws w1 -> ws w2 -> value_text v s -> elems_text l t ->
    elems_text (v :: l) (w1 ++ s ++ w2 ++ s_ "," ++ t)
with members_text : list (str * json) -> str -> Prop :=
| mt_one w1 w2 w3 w4 k v s : ws w1 -> ws w2 -> ws w3 -> ws w4 -> string_body k -> value_text v s ->
    members_text [(k, v)] (w1 ++ (c_dq :: k ++ [c_dq]) ++ w2 ++ s_ ":" ++ w3 ++ s ++ w4)
| mt_cons w1 w2 w3 w4 k v s m t : ws w1 -> ws w2 -> ws w3 -> ws w4 -> string_body k -> value_text v s ->
    members_text m t ->
    members_text ((k, v) :: m) (w1 ++ (c_dq :: k ++ [c_dq]) ++ w2 ++ s_ ":" ++ w3 ++ s ++ w4 ++ s_ "," ++ t).

(** Resolving the simple escapes of a string body (RFC 8259 section 7), for bodies without
    \u escapes. *)
Definition esc_value (c : ascii) : ascii :=
  match c with "b" => "008" | "f" => "012" | "n" => "010" | "r" => "013" | "t" => "009" | _ => c end%char.
Inductive resolved : str -> str -> Prop :=
| rs_nil : resolved [] []
| rs_plain c r v : c <> c_bs -> resolved r v -> resolved (c :: r) (c :: v)
| rs_esc c r v : simple_escape c = true -> resolved r v -> resolved (c_bs :: c :: r) (esc_value c :: v).

(** A string body that never ends: no unescaped quote or NUL up to the end of the input. *)
Inductive unclosed : str -> Prop :=
| uc_nil : unclosed []
| uc_bs : unclosed [c_bs]
| uc_plain c r : c <> c_dq -> c <> c_bs -> c <> "000"%char -> unclosed r -> unclosed (c :: r)
| uc_esc c r : unclosed r -> unclosed (c_bs :: c :: r).
