(** Specification of the calendar and of ISO 8601 texts. *)
From Verif Require Import Base.
From Coq Require Import ZArith.
Local Open Scope Z_scope.

(** The Gregorian rule: every fourth year, except centuries not divisible by 400. *)
Definition leap (y : Z) : Prop := (y mod 4 = 0 /\ y mod 100 <> 0) \/ y mod 400 = 0.
(** The length of a month. *)
Definition common_lengths : list Z := [31; 28; 31; 30; 31; 30; 31; 31; 30; 31; 30; 31].
Definition month_length (y m n : Z) : Prop :=
  (m <> 2 /\ 1 <= m <= 12 /\ nth_error common_lengths (Z.to_nat (m - 1)) = Some n) \/
  (m = 2 /\ ((leap y /\ n = 29) \/ (~ leap y /\ n = 28))).
Definition valid_date (y m d : Z) : Prop :=
  1 <= m <= 12 /\ exists n, month_length y m n /\ 1 <= d <= n.

(** The next day. *)
Inductive tomorrow : Z * Z * Z -> Z * Z * Z -> Prop :=
| tm_day y m d n : month_length y m n -> d < n -> tomorrow (y, m, d) (y, m, d + 1)
| tm_month y m n : month_length y m n -> m < 12 -> tomorrow (y, m, n) (y, m + 1, 1)
| tm_year y : tomorrow (y, 12, 31) (y + 1, 1, 1).
(** The number of days since 1 January 1970, counted day by day. *)
Inductive day_number : Z * Z * Z -> Z -> Prop :=
| dn_epoch : day_number (1970, 1, 1) 0
| dn_next x y n : day_number x n -> tomorrow x y -> day_number y (n + 1).

(** Decimal digits. *)
Definition dig (n : Z) : ascii := ascii_of_nat (48 + Z.to_nat n).
Definition dec2 (n : Z) : str := [dig (n / 10); dig (n mod 10)].
Definition dec4 (n : Z) : str := dec2 (n / 100) ++ dec2 (n mod 100).
Definition two (n : Z) : Prop := 0 <= n < 100.

(** Time zones: Z, +hh:mm or -hh:mm, with the offset in seconds. *)
Inductive zone : str -> Z -> Prop :=
| z_utc : zone (s_ "Z") 0
| z_plus h m : 0 <= h <= 23 -> 0 <= m <= 59 -> zone (s_ "+" ++ dec2 h ++ s_ ":" ++ dec2 m) (h * 3600 + m * 60)
| z_minus h m : 0 <= h <= 23 -> 0 <= m <= 59 -> zone (s_ "-" ++ dec2 h ++ s_ ":" ++ dec2 m) (- (h * 3600 + m * 60)).

(** Fractions of a second, with up to three digits, in milliseconds. *)
Inductive fraction : str -> Z -> Prop :=
| f_none : fraction [] 0
| f_one a : 0 <= a <= 9 -> fraction (s_ "." ++ [dig a]) (a * 100)
| f_two a : 0 <= a <= 99 -> fraction (s_ "." ++ dec2 a) (a * 10)
| f_three a b : 0 <= a <= 9 -> 0 <= b <= 99 -> fraction (s_ "." ++ [dig a] ++ dec2 b) (a * 100 + b).

(** What the reader really takes: the zone may be a lower-case z, its hour may be 24, and
    after a numeric offset any text may follow. *)
Inductive lax_zone : str -> Z -> Prop :=
| lz_utc c : c = "Z"%char \/ c = "z"%char -> lax_zone [c] 0
| lz_plus h m junk : 0 <= h <= 24 -> 0 <= m <= 59 ->
    lax_zone (s_ "+" ++ dec2 h ++ s_ ":" ++ dec2 m ++ junk) (h * 3600 + m * 60)
| lz_minus h m junk : 0 <= h <= 24 -> 0 <= m <= 59 ->
    lax_zone (s_ "-" ++ dec2 h ++ s_ ":" ++ dec2 m ++ junk) (- (h * 3600 + m * 60)).
(** The texts read as the date y-m-d (0 for what is missing), the time h:mi:s.ms and the
    offset. *)
Inductive lax_text : str -> Z -> Z -> Z -> Z -> Z -> Z -> Z -> Z -> Prop :=
| lt_year y : 0 <= y <= 9999 -> lax_text (dec4 y) y 0 0 0 0 0 0 0
| lt_month y m : 0 <= y <= 9999 -> 1 <= m <= 12 -> lax_text (dec4 y ++ s_ "-" ++ dec2 m) y m 0 0 0 0 0 0
| lt_day y m d : 0 <= y <= 9999 -> 1 <= m <= 12 -> 1 <= d <= 31 ->
    lax_text (dec4 y ++ s_ "-" ++ dec2 m ++ s_ "-" ++ dec2 d) y m d 0 0 0 0 0
| lt_time y m d t h mi s fr ms zn off : 0 <= y <= 9999 -> 1 <= m <= 12 -> 1 <= d <= 31 ->
    t = "T"%char \/ t = "t"%char -> 0 <= h <= 24 -> 0 <= mi <= 59 -> 0 <= s <= 59 ->
    fraction fr ms -> lax_zone zn off ->
    lax_text (dec4 y ++ s_ "-" ++ dec2 m ++ s_ "-" ++ dec2 d ++ [t] ++ dec2 h ++ s_ ":" ++ dec2 mi
              ++ s_ ":" ++ dec2 s ++ fr ++ zn) y m d h mi s ms off.

(** The instant, in microseconds since the epoch, of the time h:mi:s.ms at a zone off seconds
    ahead of UTC, on the day with number n. *)
Definition instant (n h mi s ms off : Z) : Z :=
  n * (24 * 3600 * 1000000) + h * (3600 * 1000000) + mi * (60 * 1000000) + s * 1000000
  + ms * 1000 - off * 1000000.
(** Times of day and their order. *)
Definition valid_time (h mi s ms : Z) : Prop :=
  0 <= h <= 23 /\ 0 <= mi <= 59 /\ 0 <= s <= 59 /\ 0 <= ms <= 999.
Fixpoint earlier (a b : list Z) : Prop :=
  match a, b with
  | x :: a', y :: b' => x < y \/ (x = y /\ earlier a' b')
  | _, _ => False
  end.

(** A duration in words: the parts that are not zero, separated by spaces. *)
Fixpoint spaced (parts : list str) : str :=
  match parts with
  | [] => []
  | [p] => p
  | p :: ps => p ++ s_ " " ++ spaced ps
  end.
Definition nonzero (parts : list (Z * string)) : list (Z * string) :=
  filter (fun p => negb (fst p =? 0)) parts.
Definition in_words (show : Z -> str) (parts : list (Z * string)) : str :=
  spaced (map (fun p => show (fst p) ++ s_ (snd p)) (nonzero parts)).
