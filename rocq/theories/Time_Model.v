(** Model of /repo/src/utils: ISO8601.cc, CivilTime*.{cc,h}, UnixTime*.{cc,h},
    duration*.{cc,h}, time_constants.h. *)
From Verif Require Import Base.
From Coq Require Import ZArith.
Local Open Scope Z_scope.

(** uint64_t arithmetic. *)
Definition two64 : Z := 2 ^ 64.
Definition u64 (x : Z) : Z := x mod two64.

(** CivilTime, /repo/src/utils/CivilTime.h:107-116 (all fields zero initially,
    CivilTime_impl.h:1-9). *)
Record civil := mk_civil {
  c_year : Z; c_month : Z; c_day : Z; c_hour : Z; c_minute : Z; c_second : Z;
  c_milli : Z; c_offset : Z }.
Definition civil0 : civil := mk_civil 0 0 0 0 0 0 0 0.

(** ISO8601::isLeapYear, /repo/src/utils/ISO8601.cc:278-284. *)
Definition is_leap_year (year : Z) : bool :=
  ((year mod 4 =? 0) && negb (year mod 100 =? 0)) || (year mod 400 =? 0).

(** ISO8601::daysInMonth, /repo/src/utils/ISO8601.cc:286-292; C++'s % truncates. *)
Definition days_in_month (year month : Z) : Z :=
  if month =? 2 then 28 + (if is_leap_year year then 1 else 0)
  else 31 - Z.rem (Z.rem (month - 1) 7) 2.

(** The loop `for (auto i = from; i < to; ++i) days += g(i)`. *)
Definition sum_from (g : Z -> Z) (from to : Z) : Z :=
  fold_left (fun acc k => acc + g (from + Z.of_nat k)) (seq 0 (Z.to_nat (to - from))) 0.

(** time_constants.h:21-42. *)
Definition micros_per_second : Z := 1000000.
Definition micros_per_minute : Z := 60 * micros_per_second.
Definition micros_per_hour : Z := 60 * 60 * micros_per_second.
Definition micros_per_day : Z := 60 * 60 * 24 * micros_per_second.

(** UnixTime::UnixTime(const CivilTime&), /repo/src/utils/UnixTime.cc:24-42. All operations
    are additions and multiplications in uint64_t, so wrapping once at the end gives the
    same result. *)
Definition unix_time (c : civil) : Z :=
  let days := (c_day c - 1)
    + sum_from (fun i => 365 + (if is_leap_year i then 1 else 0)) 1970 (c_year c)
    + sum_from (fun i => days_in_month (c_year c) i) 1 (c_month c) in
  u64 (days * micros_per_day + c_hour c * micros_per_hour + c_minute c * micros_per_minute
       + c_second c * micros_per_second + c_milli c * 1000
       + c_offset c * micros_per_second * -1).

(** Differences and sums, /repo/src/utils/UnixTime_impl.h:44-57. *)
Definition time_diff (a b : Z) : Z := if a >? b then u64 (a - b) else u64 (b - a).
Definition time_add (t d : Z) : Z := u64 (t + d).
Definition time_sub (t d : Z) : Z := u64 (t - d).

(** Duration, /repo/src/utils/duration_impl.h. *)
Definition dur_add (a b : Z) : Z := u64 (a + b).
Definition milliseconds (d : Z) : Z := d / 1000.
Definition seconds (d : Z) : Z := d / micros_per_second.
Definition minutes (d : Z) : Z := seconds d / 60.
Definition hours (d : Z) : Z := minutes d / 60.
Definition days (d : Z) : Z := hours d / 24.
Definition from_days (v : Z) : Z := u64 (v * micros_per_second * (60 * 60 * 24)).
Definition from_hours (v : Z) : Z := u64 (v * micros_per_second * (60 * 60)).
Definition from_minutes (v : Z) : Z := u64 (v * micros_per_second * 60).
Definition from_seconds (v : Z) : Z := u64 (v * micros_per_second).
Definition from_milliseconds (v : Z) : Z := u64 (v * 1000).
Definition from_microseconds (v : Z) : Z := v.
Definition from_nanoseconds (v : Z) : Z := v / 1000.

(** inspect(Duration), /repo/src/utils/duration.cc:18-58. [i] counts the parts that asked for
    a separator; the years do not count. *)
Section Inspect.
  Variable show : Z -> str.                  (* operator<<(unsigned) *)
  Definition part (n : Z) (name : string) (sep : bool) : str :=
    if n =? 0 then [] else (if sep then [c_sp] else []) ++ show n ++ s_ name.
  Definition inspect (d : Z) : str :=
    let years := days d / 365 in
    let dd := days d mod 365 in
    let hh := hours d mod 24 in
    let mm := minutes d mod 60 in
    let ss := seconds d mod 60 in
    let ms := milliseconds d mod 1000 in
    let i1 := negb (dd =? 0) in
    let i2 := i1 || negb (hh =? 0) in
    let i3 := i2 || negb (mm =? 0) in
    let i4 := i3 || negb (ss =? 0) in
    part years " years" false ++ part dd " days" false ++ part hh " hours" i1
      ++ part mm " minutes" i2 ++ part ss " seconds" i3 ++ part ms "ms" i4.
End Inspect.

(** isdigit on bytes (bytes above 127 are taken as non-digits) and the value of a digit. *)
Definition is_digit (c : ascii) : bool := let n := nat_of_ascii c in (48 <=? n)%nat && (n <=? 57)%nat.
Definition digit_val (c : ascii) : Z := Z.of_nat (nat_of_ascii c) - 48.

(** The parsers below get the text between their [begin] pointer and [end]; std::string's
    NUL behind the last byte is what is read at [end], it is no digit and no separator.
    [Err] is the return value false. *)

(** isDigitString(p, p + 2) followed by std::stoi: scanning stops at the first non-digit, at
    the latest at the NUL. *)
Definition two_digits (r : str) : option (Z * str) :=
  match r with
  | a :: b :: r' => if is_digit a && is_digit b then Some (digit_val a * 10 + digit_val b, r') else None
  | _ => None
  end.

(** parseTimeOffset, /repo/src/utils/ISO8601.cc:19-79. *)
Definition parse_offset (r : str) (c : civil) : outcome civil :=
  let set o := Ret (mk_civil (c_year c) (c_month c) (c_day c) (c_hour c) (c_minute c)
                      (c_second c) (c_milli c) o) in
  let numeric sign r1 :=
    match two_digits r1 with
    | None => Err
    | Some (h, r2) =>
        if h <=? 24 then
          match r2 with
          | colon :: r3 =>
              if Ascii.eqb colon ":"%char then
                match two_digits r3 with
                | Some (m, _) => if m <=? 59 then set (sign * (h * 3600 + m * 60)) else Err
                | None => Err
                end
              else Err
          | [] => Err
          end
        else Err
    end in
  match r with
  | [x] => if Ascii.eqb x "z"%char || Ascii.eqb x "Z"%char then set 0
           else Err      (* "+" or "-" alone: hour_end > end *)
  | x :: r1 => if Ascii.eqb x "+"%char then numeric 1 r1
               else if Ascii.eqb x "-"%char then numeric (-1) r1 else Err
  | [] => Err
  end.

(** parseSecondFrac, /repo/src/utils/ISO8601.cc:81-108. *)
Fixpoint digits_prefix (r : str) : str * str :=
  match r with
  | a :: r' => if is_digit a then let '(x, y) := digits_prefix r' in (a :: x, y) else ([], r)
  | [] => ([], [])
  end.
Definition number_of (ds : str) : Z := fold_left (fun acc a => acc * 10 + digit_val a) ds 0.
Definition parse_frac (r : str) (c : civil) : outcome civil :=
  match r with
  | dot :: r1 =>
      if Ascii.eqb dot "."%char then
        let '(ds, r2) := digits_prefix r1 in
        let n := length ds in
        if (1 <=? n)%nat && (n <=? 3)%nat then
          parse_offset r2 (mk_civil (c_year c) (c_month c) (c_day c) (c_hour c) (c_minute c)
            (c_second c) (number_of ds * 10 ^ Z.of_nat (3 - n)) (c_offset c))
        else Err
      else Err
  | [] => Err
  end.

(** `a || b` on outcomes. The right side sees the CivilTime as the left side left it, but it
    is only reached with a successful result when nothing had been set (see parse_second). *)
Definition or_else {A} (a b : outcome A) : outcome A :=
  match a with Err => b | _ => a end.

(** parseSecond, /repo/src/utils/ISO8601.cc:110-134. When parseSecondFrac has set the
    milliseconds and then fails, the text continues with "." and parseTimeOffset fails, too. *)
Definition parse_second (r : str) (c : civil) : outcome civil :=
  match r with
  | x :: r1 =>
      if Ascii.eqb x ":"%char then
        match two_digits r1 with
        | Some (v, r2) =>
            if v <=? 59 then
              let c' := mk_civil (c_year c) (c_month c) (c_day c) (c_hour c) (c_minute c) v
                          (c_milli c) (c_offset c) in
              or_else (parse_frac r2 c') (parse_offset r2 c')
            else Err
        | None => Err
        end
      else Err
  | [] => Err
  end.
(** parseMinute, /repo/src/utils/ISO8601.cc:136-158. *)
Definition parse_minute (r : str) (c : civil) : outcome civil :=
  match r with
  | x :: r1 =>
      if Ascii.eqb x ":"%char then
        match two_digits r1 with
        | Some (v, r2) =>
            if v <=? 59 then
              parse_second r2 (mk_civil (c_year c) (c_month c) (c_day c) (c_hour c) v
                                 (c_second c) (c_milli c) (c_offset c))
            else Err
        | None => Err
        end
      else Err
  | [] => Err
  end.
(** parseHour, /repo/src/utils/ISO8601.cc:161-184. *)
Definition parse_hour (r : str) (c : civil) : outcome civil :=
  match r with
  | x :: r1 =>
      if Ascii.eqb x "T"%char || Ascii.eqb x "t"%char then
        match two_digits r1 with
        | Some (v, r2) =>
            if v <=? 24 then
              parse_minute r2 (mk_civil (c_year c) (c_month c) (c_day c) v (c_minute c)
                                 (c_second c) (c_milli c) (c_offset c))
            else Err
        | None => Err
        end
      else Err
  | [] => Err
  end.
(** parseDay, /repo/src/utils/ISO8601.cc:186-213. Line 192 copies two bytes without checking
    the end: with nothing behind the dash, the second byte lies behind the NUL. Line 199
    passes the day where daysInMonth wants the month. *)
Definition parse_day (r : str) (c : civil) : outcome civil :=
  match r with
  | x :: r1 =>
      if Ascii.eqb x "-"%char then
        match r1 with
        | [] => UB
        | _ =>
            match two_digits r1 with
            | Some (v, r2) =>
                if (0 <? v) && (v <=? days_in_month (c_year c) v) then
                  let c' := mk_civil (c_year c) (c_month c) v (c_hour c) (c_minute c)
                              (c_second c) (c_milli c) (c_offset c) in
                  match r2 with [] => Ret c' | _ => parse_hour r2 c' end
                else Err
            | None => Err
            end
        end
      else Err
  | [] => Err
  end.
(** parseMonth, /repo/src/utils/ISO8601.cc:215-241. *)
Definition parse_month (r : str) (c : civil) : outcome civil :=
  match r with
  | x :: r1 =>
      if Ascii.eqb x "-"%char then
        match two_digits r1 with
        | Some (v, r2) =>
            if (0 <? v) && (v <? 13) then
              let c' := mk_civil (c_year c) v (c_day c) (c_hour c) (c_minute c)
                          (c_second c) (c_milli c) (c_offset c) in
              match r2 with [] => Ret c' | _ => parse_day r2 c' end
            else Err
        | None => Err
        end
      else Err
  | [] => Err
  end.
(** parseYear and ISO8601::parse, /repo/src/utils/ISO8601.cc:243-276. *)
Definition iso_parse (s : str) : outcome civil :=
  match s with
  | a :: b :: c :: d :: r =>
      if is_digit a && is_digit b && is_digit c && is_digit d then
        let y := ((digit_val a * 10 + digit_val b) * 10 + digit_val c) * 10 + digit_val d in
        let ct := mk_civil y 0 0 0 0 0 0 0 in
        match r with [] => Ret ct | _ => parse_month r ct end
      else Err
  | _ => Err
  end.
