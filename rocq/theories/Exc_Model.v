(** Model of /repo/src/utils/exception.cc and exception.h: the message is an array of 1024
    characters that is handled with the C library's string functions. *)
From Verif Require Import Base.

Definition c_nul : ascii := ascii_of_nat 0.
(** sizeof(message_), exception.h:90. *)
Definition cap : nat := 1024.
(** An element of the array may not have been written yet. *)
Definition chars : Type := list (option ascii).
Definition raw : chars := repeat None cap.
(** What message.c_str() shows to the C library. *)
Fixpoint upto_nul (t : str) : str :=
  match t with [] => [] | c :: r => if Ascii.eqb c c_nul then [] else c :: upto_nul r end.
(** The text at the start of an array: reading stops at the first NUL. The flag says that the end
    of the array was reached without one. Undefined if an element was never written. *)
Fixpoint text_in (b : chars) : outcome (str * bool) :=
  match b with
  | [] => Ret ([], true)
  | None :: _ => UB
  | Some c :: r => if Ascii.eqb c c_nul then Ret ([], false) else let* (t, f) := text_in r in Ret (c :: t, f)
  end.
(** strncpy(message_, text, sizeof(message_)): fills up with NUL, adds none to a long text. *)
Definition strncpy (t : str) : chars := map Some (firstn cap t) ++ repeat (Some c_nul) (cap - length t).
(** vsnprintf(message_ + pos, sizeof(message_) - pos, ...) for a text that was formatted: at most
    the space without one character, and a NUL. *)
Definition snprintf (pos : nat) (t : str) (b : chars) : chars :=
  let w := firstn (cap - pos - 1) t in
  firstn pos b ++ map Some w ++ Some c_nul :: skipn (pos + length w + 1) b.
(** strlen(message_): undefined if there is no NUL in the array. *)
Definition strlen (b : chars) : outcome nat :=
  let* (t, open) := text_in b in if (open : bool) then UB else Ret (length t).

Record exc := mk_exc { x_type : option str; x_file : option str; x_line : Z; x_func : option str; x_msg : chars }.
(** Exception(), exception.cc:21-27. *)
Definition exc_empty : exc := mk_exc None None 0 None (Some c_nul :: repeat None (cap - 1)).
(** Exception(const char*, ...), :29-40; [t]: the formatted text. *)
Definition exc_printf (t : str) : exc := mk_exc None None 0 None (snprintf 0 t raw).
(** Exception(const std::string&), :42-49. *)
Definition exc_string (t : str) : exc := mk_exc None None 0 None (strncpy (upto_nul t)).
(** Exception(const Exception&), :51-58: strncpy from the other array. *)
Definition exc_copy (x : exc) : outcome exc :=
  let* (t, _) := text_in (x_msg x) in
  Ret (mk_exc (x_type x) (x_file x) (x_line x) (x_func x) (strncpy t)).
Definition with_msg (b : chars) (x : exc) : exc := mk_exc (x_type x) (x_file x) (x_line x) (x_func x) b.
(** appendMessage, :93-99. *)
Definition exc_append (t : str) (x : exc) : outcome exc :=
  let* n := strlen (x_msg x) in Ret (with_msg (snprintf n t (x_msg x)) x).
(** setSource, setTypeName, setErrno, :60-91: they change the object and return a copy of it;
    [strerror] is strerror_r. *)
Definition set_source (file : str) (line : Z) (func : str) (x : exc) : outcome (exc * exc) :=
  let y := mk_exc (x_type x) (Some file) line (Some func) (x_msg x) in
  let* c := exc_copy y in Ret (y, c).
Definition set_type (n : str) (x : exc) : outcome (exc * exc) :=
  let y := mk_exc (Some n) (x_file x) (x_line x) (x_func x) (x_msg x) in
  let* c := exc_copy y in Ret (y, c).
Definition set_errno (strerror : Z -> str) (n : Z) (x : exc) : outcome (exc * exc) :=
  let* y := if (0 <? n)%Z then exc_append (s_ ": " ++ strerror n) x else Ret x in
  let* c := exc_copy y in Ret (y, c).
(** getMessage, getTypeName, ofType, method, file, line, :101-123. std::string of a null pointer
    and strcmp of one are undefined. *)
Definition get_message (x : exc) : outcome str :=
  let* (t, open) := text_in (x_msg x) in if (open : bool) then UB else Ret t.
Definition not_null (o : option str) : outcome str := match o with Some t => Ret t | None => UB end.
Definition get_type (x : exc) : outcome str := not_null (x_type x).
Definition of_type (n : str) (x : exc) : outcome bool := let* t := not_null (x_type x) in Ret (str_eqb t n).
Definition get_method (x : exc) : outcome str := not_null (x_func x).
Definition get_file (x : exc) : outcome str := not_null (x_file x).
Definition get_line (x : exc) : Z := x_line x.
