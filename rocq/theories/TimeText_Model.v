(** Model of the printing and reading of times, /repo/src/utils/UnixTime.cc:57-86 and
    CivilTime.cc:18-75, with the parts of the C library they use: gmtime_r, strftime and strptime for
    the conversions Y m d H M S and the percent sign (the others are parameters). *)
From Coq Require Import ZArith Lia.
From Verif Require Import Base Time_Model Dec.
Local Open Scope Z_scope.

(** struct tm: [None] where nothing has been written; the month counts from 0, the year from 1900. *)
Record tm := mk_tm { tm_sec : option Z; tm_min : option Z; tm_hour : option Z; tm_mday : option Z; tm_mon : option Z; tm_year : option Z }.
Definition tm0 : tm := mk_tm None None None None None None.
Definition set_tm_sec v t := mk_tm (Some v) (tm_min t) (tm_hour t) (tm_mday t) (tm_mon t) (tm_year t).
Definition set_tm_min v t := mk_tm (tm_sec t) (Some v) (tm_hour t) (tm_mday t) (tm_mon t) (tm_year t).
Definition set_tm_hour v t := mk_tm (tm_sec t) (tm_min t) (Some v) (tm_mday t) (tm_mon t) (tm_year t).
Definition set_tm_mday v t := mk_tm (tm_sec t) (tm_min t) (tm_hour t) (Some v) (tm_mon t) (tm_year t).
Definition set_tm_mon v t := mk_tm (tm_sec t) (tm_min t) (tm_hour t) (tm_mday t) (Some v) (tm_year t).
Definition set_tm_year v t := mk_tm (tm_sec t) (tm_min t) (tm_hour t) (tm_mday t) (tm_mon t) (Some v).

(* ---------------- the C library ---------------- *)
(** The calendar of gmtime_r: the day after a day. *)
Definition month_len (y m : Z) : Z :=
  nth (Z.to_nat (m - 1)) [31; if ((y mod 4 =? 0) && negb (y mod 100 =? 0)) || (y mod 400 =? 0) then 29 else 28; 31; 30; 31; 30; 31; 31; 30; 31; 30; 31] 0.
Definition next_day (x : Z * Z * Z) : Z * Z * Z :=
  let '(y, m, d) := x in
  if d <? month_len y m then (y, m, d + 1) else if m <? 12 then (y, m + 1, 1) else (y + 1, 1, 1).
(** gmtime_r, for seconds since the epoch (called in UnixTime.cc:60). *)
Definition gmtime (s : Z) : tm :=
  let '(y, m, d) := Nat.iter (Z.to_nat (s / 86400)) next_day (1970, 1, 1) in
  let r := s mod 86400 in
  mk_tm (Some (r mod 60)) (Some (r / 60 mod 60)) (Some (r / 3600)) (Some d) (Some (m - 1)) (Some (y - 1900)).

(** A C string ends at the first NUL. *)
Fixpoint c_str (s : str) : str :=
  match s with
  | [] => []
  | c :: r => if Ascii.eqb c "000" then [] else c :: c_str r
  end.

Section Libc.
  Variable other_out : ascii -> tm -> str.
  Variable other_in : ascii -> str -> tm -> option (str * tm).

  Definition pad2 (n : Z) : str := if n <? 10 then "0"%char :: dec n else dec n.
  Definition shown (f : Z -> str) (v : option Z) : str := match v with Some n => f n | None => [] end.
  (** strftime without its limit (called in UnixTime.cc:64). *)
  Fixpoint strftime (fmt : str) (t : tm) : str :=
    match fmt with
    | [] => []
    | "%"%char :: c :: r =>
        match c with
        | "Y" => shown (fun n => dec_int (n + 1900)) (tm_year t)
        | "m" => shown (fun n => pad2 (n + 1)) (tm_mon t)
        | "d" => shown pad2 (tm_mday t)
        | "H" => shown pad2 (tm_hour t)
        | "M" => shown pad2 (tm_min t)
        | "S" => shown pad2 (tm_sec t)
        | "%" => ["%"]
        | _ => other_out c t
        end%char ++ strftime r t
    | c :: r => c :: strftime r t
    end.

  (** strptime (called in CivilTime.cc:31): numbers may follow spaces and have up to [width] digits. *)
  Definition is_space (c : ascii) : bool := existsb (Ascii.eqb c) [" "; "009"; "010"; "011"; "012"; "013"]%char.
  Fixpoint skip_spaces (p : ascii -> bool) (s : str) : str :=
    match s with
    | [] => []
    | c :: r => if p c then skip_spaces p r else s
    end.
  Fixpoint more_digits (limit : Z) (n : nat) (v : Z) (s : str) : Z * str :=
    match n, s with
    | S k, c :: r => if (v * 10 <=? limit) && Time_Model.is_digit c then more_digits limit k (v * 10 + digit_val c) r else (v, s)
    | _, _ => (v, s)
    end.
  Definition get_number (low high : Z) (width : nat) (s : str) : option (Z * str) :=
    match skip_spaces (Ascii.eqb " ") s with
    | c :: r =>
        if Time_Model.is_digit c then
          let '(v, r') := more_digits high (width - 1) (digit_val c) r in
          if (low <=? v) && (v <=? high) then Some (v, r') else None
        else None
    | [] => None
    end.
  Definition number_into (low high : Z) (width : nat) (set : Z -> tm -> tm) (s : str) (t : tm) : option (str * tm) :=
    match get_number low high width s with
    | Some (v, r) => Some (r, set v t)
    | None => None
    end.
  Definition exact_char (c : ascii) (s : str) (t : tm) : option (str * tm) :=
    match s with
    | x :: r => if Ascii.eqb x c then Some (r, t) else None
    | [] => None
    end.
  Fixpoint strptime (fmt s : str) (t : tm) {struct fmt} : option tm :=
    let go r x := match x with Some (s', t') => strptime r s' t' | None => None end in
    match fmt with
    | [] => Some t
    | "%"%char :: c :: r =>
        go r (match c with
              | "Y" => number_into 0 9999 4 (fun v => set_tm_year (v - 1900)) s t
              | "m" => number_into 1 12 2 (fun v => set_tm_mon (v - 1)) s t
              | "d" => number_into 1 31 2 set_tm_mday s t
              | "H" => number_into 0 23 2 set_tm_hour s t
              | "M" => number_into 0 59 2 set_tm_min s t
              | "S" => number_into 0 61 2 set_tm_sec s t
              | "%" => exact_char "%" s t
              | _ => other_in c s t
              end%char)
    | c :: r => if is_space c then strptime r (skip_spaces is_space s) t else go r (exact_char c s t)
    end.

  (* ---------------- UnixTime and CivilTime ---------------- *)
  (** UnixTime::toString, UnixTime.cc:57-67: the buffer has 256 bytes; when the text does not fit, what
      strftime leaves in it is unspecified. *)
  Definition time_text (fmt : str) (secs : Z) : str := strftime (c_str fmt) (gmtime secs).
  Definition to_string (fmt : str) (micros : Z) : outcome str :=
    let s := time_text fmt (micros / 1000000) in
    if (256 <=? length s)%nat then UB else Ret (c_str s).
  (** CivilTime::parseString, CivilTime.cc:24-43: every field is read, also those the format did not
      set; the setters truncate to 8 bits, the year's to 16 bits (CivilTime.cc:45-75). *)
  Definition byte (v : Z) : Z := v mod 256.
  Definition civil_parse (s fmt : str) : outcome (option civil) :=
    match strptime (c_str fmt) (c_str s) tm0 with
    | None => Ret None
    | Some t =>
        match tm_sec t, tm_min t, tm_hour t, tm_mday t, tm_mon t, tm_year t with
        | Some sec, Some mi, Some h, Some d, Some mo, Some y =>
            Ret (Some (mk_civil ((y + 1900) mod 65536) (byte (mo + 1)) (byte d) (byte h) (byte mi) (byte sec) 0 0))
        | _, _, _, _, _, _ => UB
        end
    end.
  (** UnixTime::parseString, UnixTime.cc:69-86. *)
  Definition time_parse (s fmt : str) : outcome (option Z) :=
    let* c := civil_parse s fmt in
    Ret (match c with Some c => Some (unix_time c) | None => None end).
End Libc.
(** The default format, UnixTime.h:54, 66, 73. *)
Definition default_format : str := s_ "%Y-%m-%d %H:%M:%S".
