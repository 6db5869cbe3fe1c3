(** Times as text (C104). *)
From Coq Require Import ZArith.
From Verif Require Import Base Time_Spec Dec.
Local Open Scope Z_scope.

(** [t] microseconds after the epoch it is h:mi:s o'clock and [us] microseconds on y-m-d, in UTC. *)
Definition moment (t y m d h mi s us : Z) : Prop :=
  valid_time h mi s 0 /\ 0 <= us < 1000000 /\ exists n, day_number (y, m, d) n /\ t = instant n h mi s 0 0 + us.
(** The way times are written, from a text for the year. *)
Definition written (year : str) (m d h mi s : Z) : str :=
  year ++ s_ "-" ++ dec2 m ++ s_ "-" ++ dec2 d ++ s_ " " ++ dec2 h ++ s_ ":" ++ dec2 mi ++ s_ ":" ++ dec2 s.
(** A number written without leading zeros. *)
Definition plain (v : Z) (t : str) : Prop := value t = v /\ Forall Dec.is_digit t /\ t <> [] /\ (hd_error t = Some "0"%char -> v = 0).
(** A number of up to [width] digits, after any number of spaces. *)
Definition loose (low high : Z) (width : nat) (v : Z) (t : str) : Prop :=
  exists k ds, t = repeat " "%char k ++ ds /\ (1 <= length ds <= width)%nat /\ Forall Dec.is_digit ds /\ value ds = v /\ low <= v <= high.
Definition blank_text (t : str) : Prop := Forall (fun c => In c [" "; "009"; "010"; "011"; "012"; "013"]%char) t.

(** The parts of a format, how they are spelled in it and what they stand for. *)
Inductive piece := Plain (c : ascii) | Year | Month | Day | Hour | Minute | Second | Percent.
Definition spelled (p : piece) : str :=
  match p with
  | Plain c => [c]
  | Year => s_ "%Y" | Month => s_ "%m" | Day => s_ "%d" | Hour => s_ "%H" | Minute => s_ "%M" | Second => s_ "%S" | Percent => s_ "%%"
  end.
Definition ordinary (p : piece) : Prop := match p with Plain c => c <> "%"%char /\ c <> "000"%char | _ => True end.
Definition stands_for (year : str) (m d h mi s : Z) (p : piece) : str :=
  match p with
  | Plain c => [c]
  | Year => year | Month => dec2 m | Day => dec2 d | Hour => dec2 h | Minute => dec2 mi | Second => dec2 s
  | Percent => s_ "%"
  end.

(** The order of texts, byte by byte. *)
Definition text_before (a b : str) : Prop :=
  exists p x y r r', a = p ++ x :: r /\ b = p ++ y :: r' /\ (nat_of_ascii x < nat_of_ascii y)%nat.
