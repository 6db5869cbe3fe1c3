(** C28 - C31: the calendar, instants, ISO 8601 texts, durations. *)
From Verif Require Import Base Time_Model Time_Spec Time_Proofs.
From Coq Require Import ZArith Lia Bool.
Local Open Scope Z_scope.

(* ======================= C28 ======================= *)

Theorem C28_leap_years : forall y : Z, is_leap_year y = true <-> leap y.
Proof. exact leap_iff. Qed.
Print Assumptions C28_leap_years.
Example C28_leap_years_example :
  is_leap_year 2000 = true /\ is_leap_year 2004 = true /\ is_leap_year 1900 = false /\ is_leap_year 2001 = false.
Proof. repeat split. Qed.

Theorem C28_month_lengths : forall y m n : Z, 1 <= m <= 12 ->
  (days_in_month y m = n <-> month_length y m n).
Proof. intros y m n M. symmetry. now apply month_length_dim. Qed.
Print Assumptions C28_month_lengths.
Example C28_month_lengths_example :
  map (days_in_month 2023) [1; 2; 3; 4; 5; 6; 7; 8; 9; 10; 11; 12] = [31; 28; 31; 30; 31; 30; 31; 31; 30; 31; 30; 31]
  /\ days_in_month 2024 2 = 29.
Proof. split; reflexivity. Qed.

(* ======================= C29 ======================= *)

(** Every date from 1970 on has a day number, and only one. *)
Theorem C29_every_day_counted : forall y m d : Z, 1970 <= y -> valid_date y m d ->
  exists n, day_number (y, m, d) n /\ forall n', day_number (y, m, d) n' -> n' = n.
Proof.
  intros y m d Y V. destruct (day_number_exists y m d Y V) as (n & N). exists n. split; [exact N|].
  intros n' N'. apply day_number_count in N as (_ & _ & <- & _). now apply day_number_count in N' as (_ & _ & <- & _).
Qed.
Print Assumptions C29_every_day_counted.

(** The instant is computed modulo 2^64. *)
Theorem C29_instant : forall y m d h mi s ms off n : Z, day_number (y, m, d) n ->
  unix_time (mk_civil y m d h mi s ms off) = instant n h mi s ms off mod 2 ^ 64.
Proof. intros y m d h mi s ms off n N. apply day_number_count in N as (_ & _ & <- & _). apply unix_time_count. Qed.
Print Assumptions C29_instant.

(** For instants from the epoch on it is exact: the years fit 16 bits, the zones are at most
    a day. *)
Theorem C29_exact_partial : forall y m d h mi s ms off n : Z, y < 65536 -> valid_time h mi s ms ->
  -86400 <= off <= 86400 -> day_number (y, m, d) n -> 0 <= instant n h mi s ms off ->
  unix_time (mk_civil y m d h mi s ms off) = instant n h mi s ms off.
Proof.
  intros y m d h mi s ms off n Y T O N P. rewrite (C29_instant _ _ _ _ _ _ _ _ _ N).
  apply day_number_count in N as (Y' & V & <- & _). apply Z.mod_small. split; [exact P|].
  pose proof (count_bound y m d Y' Y V). destruct T as (T1 & T2 & T3 & T4). unfold instant. lia.
Qed.
Print Assumptions C29_exact_partial.
Example C29_exact_partial_example :
  unix_time (mk_civil 2000 3 1 12 34 56 789 3600) = 951910496789000 /\ day_number (1970, 2, 1) 31.
Proof.
  split; [vm_compute; reflexivity|].
  destruct (day_number_exists 1970 2 1 ltac:(lia)) as (n & N).
  - split; [lia|]. exists 28. split; [|lia]. right. split; [reflexivity|]. right. split; [|reflexivity].
    intros [[A _]|A]; discriminate.
  - pose proof N as N'. apply day_number_count in N' as (_ & _ & E & _). change (count 1970 2 1) with 31 in E.
    now rewrite <- E in N.
Qed.

(** Later civil times give later instants. *)
Theorem C29_later_is_later_partial : forall y m d h mi s ms y' m' d' h' mi' s' ms' off : Z,
  1970 <= y -> y' < 65536 -> valid_date y m d -> valid_date y' m' d' ->
  valid_time h mi s ms -> valid_time h' mi' s' ms' -> -86400 <= off <= 86400 ->
  (forall n, day_number (y, m, d) n -> 0 <= instant n h mi s ms off) ->
  earlier [y; m; d; h; mi; s; ms] [y'; m'; d'; h'; mi'; s'; ms'] ->
  unix_time (mk_civil y m d h mi s ms off) < unix_time (mk_civil y' m' d' h' mi' s' ms' off).
Proof.
  intros y m d h mi s ms y' m' d' h' mi' s' ms' off Y Y' V V' T T' O P E.
  destruct (day_number_exists y m d Y V) as (n & N). specialize (P n N).
  assert (YY : y <= y') by (cbn [earlier] in E; lia).
  destruct (day_number_exists y' m' d' ltac:(lia) V') as (n' & N').
  pose proof N as C. apply day_number_count in C as (_ & _ & C & _).
  pose proof N' as C'. apply day_number_count in C' as (_ & _ & C' & _).
  assert (L := earlier_instant _ _ _ _ _ _ _ _ _ _ _ _ _ _ n n' off Y V V' T T' (eq_sym C) (eq_sym C') E).
  rewrite (C29_exact_partial y m d h mi s ms off n ltac:(lia) T O N P).
  rewrite (C29_exact_partial y' m' d' h' mi' s' ms' off n' Y' T' O N'); lia.
Qed.
Print Assumptions C29_later_is_later_partial.
Example C29_later_is_later_example :
  unix_time (mk_civil 1999 12 31 23 59 59 999 0) < unix_time (mk_civil 2000 1 1 0 0 0 0 0).
Proof. vm_compute. reflexivity. Qed.

(** It fails for instants before the epoch, even of civil times in 1970: they wrap around. *)
Theorem C29_before_epoch_refuted :
  exists y m d h mi s ms off n, 1970 <= y /\ day_number (y, m, d) n /\ valid_time h mi s ms /\ -86400 <= off <= 86400 /\
    unix_time (mk_civil y m d h mi s ms off) <> instant n h mi s ms off /\
    unix_time (mk_civil 2020 1 1 0 0 0 0 off) < unix_time (mk_civil y m d h mi s ms off).
Proof.
  exists 1970, 1, 1, 0, 0, 0, 0, 3600, 0. split; [lia|]. split; [constructor|].
  split; [unfold valid_time; lia|]. split; [lia|]. split; [vm_compute; discriminate|vm_compute; reflexivity].
Qed.
Print Assumptions C29_before_epoch_refuted.

(** Years before 1970 all count as 1970 (up to the leap day). *)
Theorem C29_before_1970_refuted : forall y h mi s ms off : Z, y <= 1970 ->
  unix_time (mk_civil y 1 1 h mi s ms off) = unix_time (mk_civil 1970 1 1 h mi s ms off).
Proof.
  intros y h mi s ms off Y. rewrite !unix_time_count. unfold count, year_days.
  now rewrite !sum_from_nil by lia.
Qed.
Print Assumptions C29_before_1970_refuted.

(** A date without day or month (as ISO8601::parse gives for "2020-06" and "2020") converts
    to an instant in the month or year before. *)
Theorem C29_missing_day_refuted : forall y m n : Z, 1970 <= y -> 1 <= m <= 12 -> day_number (y, m, 1) n ->
  unix_time (mk_civil y m 0 0 0 0 0 0) = instant (n - 1) 0 0 0 0 0 mod 2 ^ 64 /\
  (m = 1 -> unix_time (mk_civil y 0 0 0 0 0 0 0) = instant (n - 1) 0 0 0 0 0 mod 2 ^ 64).
Proof.
  intros y m n Y M N. apply day_number_count in N as (_ & _ & <- & _). rewrite !unix_time_count.
  split; [|intros ->]; f_equal; unfold instant, count, month_days; rewrite ?sum_from_nil by lia; lia.
Qed.
Print Assumptions C29_missing_day_refuted.
Example C29_missing_day_example :
  iso_parse (s_ "2020") = Ret (mk_civil 2020 0 0 0 0 0 0 0) /\
  unix_time (mk_civil 2020 0 0 0 0 0 0 0) = unix_time (mk_civil 2019 12 31 0 0 0 0 0).
Proof. split; vm_compute; reflexivity. Qed.

(* ======================= C30 ======================= *)

(** Every valid date is read, with exactly its components. *)
Theorem C30_dates_read : forall y m d : Z, 0 <= y <= 9999 -> valid_date y m d ->
  iso_parse (dec4 y) = Ret (mk_civil y 0 0 0 0 0 0 0) /\
  iso_parse (dec4 y ++ s_ "-" ++ dec2 m) = Ret (mk_civil y m 0 0 0 0 0 0) /\
  iso_parse (dec4 y ++ s_ "-" ++ dec2 m ++ s_ "-" ++ dec2 d) = Ret (mk_civil y m d 0 0 0 0 0).
Proof.
  intros y m d Y (M & n & L & D). apply month_length_dim in L; [|exact M]. pose proof (dim_bounds y m M).
  repeat split; apply iso_parse_ok; constructor; lia.
Qed.
Print Assumptions C30_dates_read.
Example C30_dates_read_example : iso_parse (s_ "2024-02-29") = Ret (mk_civil 2024 2 29 0 0 0 0 0).
Proof. reflexivity. Qed.

Theorem C30_date_times_read : forall y m d h mi s ms off fr zn, 0 <= y <= 9999 -> valid_date y m d ->
  valid_time h mi s ms -> fraction fr ms -> zone zn off ->
  iso_parse (dec4 y ++ s_ "-" ++ dec2 m ++ s_ "-" ++ dec2 d ++ s_ "T" ++ dec2 h ++ s_ ":" ++ dec2 mi
             ++ s_ ":" ++ dec2 s ++ fr ++ zn) = Ret (mk_civil y m d h mi s ms off).
Proof.
  intros y m d h mi s ms off fr zn Y (M & n & L & D) (T1 & T2 & T3 & T4) F Z.
  apply month_length_dim in L; [|exact M]. pose proof (dim_bounds y m M).
  apply iso_parse_ok. apply (lt_time y m d "T"%char h mi s fr ms zn off); auto; try lia.
  destruct Z as [|hh mm|hh mm].
  - apply lz_utc. auto.
  - replace (dec2 mm) with (dec2 mm ++ []) by apply app_nil_r. constructor; lia.
  - replace (dec2 mm) with (dec2 mm ++ []) by apply app_nil_r. constructor; lia.
Qed.
Print Assumptions C30_date_times_read.
Example C30_date_times_read_example :
  iso_parse (s_ "1999-12-31T23:59:59.07-03:30") = Ret (mk_civil 1999 12 31 23 59 59 70 (-12600)).
Proof. reflexivity. Qed.

(** What is accepted, exactly. Missing for the full claim: rejection of days that do not
    exist in their month (see the refutation below). *)
Theorem C30_accepted_exactly_partial : forall t c,
  iso_parse t = Ret c <->
  lax_text t (c_year c) (c_month c) (c_day c) (c_hour c) (c_minute c) (c_second c) (c_milli c) (c_offset c).
Proof.
  intros t c. split; [apply iso_parse_inv|]. intro H. apply iso_parse_ok in H. destruct c. exact H.
Qed.
Print Assumptions C30_accepted_exactly_partial.
Example C30_accepted_exactly_example : iso_parse (s_ "2020-13-01") = Err /\ iso_parse (s_ "20200101") = Err /\
  iso_parse (s_ "2020-01-32") = Err /\ iso_parse (s_ "2020-01-00") = Err.
Proof. repeat split. Qed.

(** Text to instant, in one step. *)
Theorem C30_text_to_instant : forall y m d h mi s ms off fr zn n, y <= 9999 -> day_number (y, m, d) n ->
  valid_time h mi s ms -> fraction fr ms -> zone zn off -> 0 <= instant n h mi s ms off ->
  exists c, iso_parse (dec4 y ++ s_ "-" ++ dec2 m ++ s_ "-" ++ dec2 d ++ s_ "T" ++ dec2 h ++ s_ ":" ++ dec2 mi
             ++ s_ ":" ++ dec2 s ++ fr ++ zn) = Ret c /\ unix_time c = instant n h mi s ms off.
Proof.
  intros y m d h mi s ms off fr zn n Y N T F Z P. eexists. split.
  - pose proof N as N'. apply day_number_count in N' as (Y' & V & _ & _). apply C30_date_times_read; eauto. lia.
  - apply C29_exact_partial; auto; [lia|]. destruct Z; lia.
Qed.
Print Assumptions C30_text_to_instant.

(** Days that do not exist are accepted in every year: 30 February, 31 April. *)
Theorem C30_missing_days_refuted : forall y, 0 <= y <= 9999 ->
  ~ valid_date y 2 30 /\ ~ valid_date y 4 31 /\
  iso_parse (dec4 y ++ s_ "-02-30") = Ret (mk_civil y 2 30 0 0 0 0 0) /\
  iso_parse (dec4 y ++ s_ "-04-31") = Ret (mk_civil y 4 31 0 0 0 0 0).
Proof.
  intros y Y. split; [|split; [|split]].
  - intros (_ & n & L & D). apply month_length_dim in L; [|lia]. unfold days_in_month in L. cbn in L.
    destruct (is_leap_year y); lia.
  - intros (_ & n & L & D). apply month_length_dim in L; [|lia]. unfold days_in_month in L. cbn in L. lia.
  - apply iso_parse_ok. apply (lt_day y 2 30); lia.
  - apply iso_parse_ok. apply (lt_day y 4 31); lia.
Qed.
Print Assumptions C30_missing_days_refuted.

(** A date-time without a zone, a leap second and seconds left out are rejected; 24:59 and
    junk behind a numeric zone are accepted. *)
Theorem C30_times_refuted :
  iso_parse (s_ "2020-01-01T12:00:00") = Err /\
  iso_parse (s_ "2016-12-31T23:59:60Z") = Err /\
  iso_parse (s_ "2020-01-01T12:00Z") = Err /\
  iso_parse (s_ "2020-01-01T24:59:59Z") = Ret (mk_civil 2020 1 1 24 59 59 0 0) /\
  iso_parse (s_ "2020-01-01T12:00:00+01:00 or so") = Ret (mk_civil 2020 1 1 12 0 0 0 3600).
Proof. repeat split. Qed.
Print Assumptions C30_times_refuted.

(** A month followed by a dash and nothing more makes the reader run over the end. *)
Theorem C30_overrun_refuted : forall y m, 0 <= y <= 9999 -> 1 <= m <= 12 ->
  iso_parse (dec4 y ++ s_ "-" ++ dec2 m ++ s_ "-") = UB.
Proof.
  intros y m Y M. destruct (dec4_digits y Y) as (a & b & c & dd & E & A & B & C & D & V). rewrite E.
  unfold iso_parse. cbn [app]. rewrite A, B, C, D. cbn [andb]. cbv zeta.
  change (s_ "-" ++ ?x) with ("-"%char :: x). cbv iota. unfold parse_month. cbn [Ascii.eqb Bool.eqb].
  rewrite two_digits_dec2 by (unfold two; lia). assert (((0 <? m) && (m <? 13)) = true) as -> by lia. reflexivity.
Qed.
Print Assumptions C30_overrun_refuted.
(** Nothing else does. *)
Theorem C30_no_other_overrun : forall t, iso_parse t <> Throw /\ iso_parse t <> Diverge /\
  (iso_parse t = UB -> exists y m, 0 <= y <= 9999 /\ 1 <= m <= 12 /\ t = dec4 y ++ s_ "-" ++ dec2 m ++ s_ "-").
Proof.
  intro t. assert (O : forall r c, parse_offset r c = Err \/ exists x, parse_offset r c = Ret x).
  { intros r c. unfold parse_offset. cbv zeta.
    repeat match goal with
    | |- context [match ?x with _ => _ end] => destruct x; eauto
    end. }
  assert (F : forall r c, parse_frac r c = Err \/ exists x, parse_frac r c = Ret x).
  { intros r c. unfold parse_frac. destruct r as [|x r]; auto. destruct (Ascii.eqb x "."); auto.
    destruct (digits_prefix r) as [ds r2]. cbv zeta. destruct (_ && _); auto. }
  assert (S : forall r c, parse_second r c = Err \/ exists x, parse_second r c = Ret x).
  { intros r c. unfold parse_second. destruct r as [|x r]; auto. destruct (Ascii.eqb x ":"); auto.
    destruct (two_digits r) as [[v r2]|]; auto. destruct (v <=? 59); auto. cbv zeta.
    destruct (F r2 (mk_civil (c_year c) (c_month c) (c_day c) (c_hour c) (c_minute c) v (c_milli c) (c_offset c))) as [->|(x0 & ->)];
    cbn [or_else]; eauto. }
  assert (MI : forall r c, parse_minute r c = Err \/ exists x, parse_minute r c = Ret x).
  { intros r c. unfold parse_minute. destruct r as [|x r]; auto. destruct (Ascii.eqb x ":"); auto.
    destruct (two_digits r) as [[v r2]|]; auto. destruct (v <=? 59); auto. }
  assert (H : forall r c, parse_hour r c = Err \/ exists x, parse_hour r c = Ret x).
  { intros r c. unfold parse_hour. destruct r as [|x r]; auto. destruct (_ || _); auto.
    destruct (two_digits r) as [[v r2]|]; auto. destruct (v <=? 24); auto. }
  assert (D : forall r c, parse_day r c = Err \/ (exists x, parse_day r c = Ret x) \/ (parse_day r c = UB /\ r = s_ "-")).
  { intros r c. unfold parse_day. destruct r as [|x r]; auto. destruct (Ascii.eqb x "-") eqn:X; auto.
    apply char_eqb_eq in X. subst x. destruct r as [|x r]; auto.
    destruct (two_digits (x :: r)) as [[v r2]|]; auto. destruct (_ && _); auto. cbv zeta. destruct r2 as [|x2 r2]; eauto.
    destruct (H (x2 :: r2) (mk_civil (c_year c) (c_month c) v (c_hour c) (c_minute c) (c_second c) (c_milli c) (c_offset c))) as [->|(z & ->)]; eauto. }
  assert (G : iso_parse t = Err \/ (exists x, iso_parse t = Ret x) \/
     (iso_parse t = UB /\ exists y m, 0 <= y <= 9999 /\ 1 <= m <= 12 /\ t = dec4 y ++ s_ "-" ++ dec2 m ++ s_ "-")).
  { unfold iso_parse. destruct t as [|a [|b [|c0 [|d r]]]]; auto.
    destruct (is_digit a && is_digit b && is_digit c0 && is_digit d) eqn:E; auto.
    rewrite !andb_true_iff in E. destruct E as [[[A B] C] DD].
    destruct (digits_dec4 a b c0 d A B C DD) as (y & Hy & Ey & Vy). rewrite <- Vy. cbv zeta.
    change (a :: b :: c0 :: d :: r) with ([a; b; c0; d] ++ r). rewrite <- Ey.
    destruct r as [|x r]; eauto. unfold parse_month.
    destruct (Ascii.eqb x "-"%char) eqn:X; auto. apply char_eqb_eq in X. subst x.
    destruct (two_digits r) as [[m r2]|] eqn:T; auto. apply two_digits_inv in T as [_ ->].
    destruct ((0 <? m) && (m <? 13)) eqn:Em; auto. assert (Hm : 1 <= m <= 12) by lia. cbv zeta.
    destruct r2 as [|x r]; eauto.
    match goal with |- context [parse_day ?u ?v] => destruct (D u v) as [->|[(z & ->)|(-> & ->)]] end; eauto.
    right. right. split; auto. exists y, m. auto. }
  destruct G as [->|[(x & ->)|(-> & G)]]; repeat split; try discriminate; auto.
Qed.
Print Assumptions C30_no_other_overrun.

(* ======================= C31 ======================= *)

Theorem C31_add_sub_inverse : forall t d : Z, 0 <= t < 2 ^ 64 ->
  time_sub (time_add t d) d = t /\ time_add (time_sub t d) d = t.
Proof. intros t d T. split; [now apply u64_add_sub|now apply u64_sub_add]. Qed.
Print Assumptions C31_add_sub_inverse.

Theorem C31_distance : forall a b : Z, 0 <= a < 2 ^ 64 -> 0 <= b < 2 ^ 64 ->
  time_diff a b = Z.abs (a - b) /\ time_diff a b = time_diff b a /\ (time_diff a b = 0 <-> a = b) /\
  (a <= b -> time_add a (time_diff a b) = b).
Proof.
  intros a b A B. rewrite !time_diff_abs by auto. repeat split; try lia.
  intro L. unfold time_add. rewrite u64_small; lia.
Qed.
Print Assumptions C31_distance.
Example C31_distance_example : time_diff 5 7 = 2 /\ time_diff 7 5 = 2 /\ time_add (2 ^ 64 - 1) 2 = 1.
Proof. repeat split. Qed.

(** Constructors and accessors. *)
Theorem C31_units_inverse : forall v : Z, 0 <= v ->
  (v * 1000 < 2 ^ 64 -> milliseconds (from_milliseconds v) = v) /\
  (v * 1000000 < 2 ^ 64 -> seconds (from_seconds v) = v) /\
  (v * 60000000 < 2 ^ 64 -> minutes (from_minutes v) = v) /\
  (v * 3600000000 < 2 ^ 64 -> hours (from_hours v) = v) /\
  (v * 86400000000 < 2 ^ 64 -> days (from_days v) = v).
Proof.
  intros v V.
  unfold from_milliseconds, from_seconds, from_minutes, from_hours, from_days, micros_per_second.
  split; [|split; [|split; [|split]]]; intro H; rewrite u64_small by lia.
  - unfold milliseconds. now apply Z.div_mul.
  - unfold seconds, micros_per_second. now apply Z.div_mul.
  - destruct (seconds_floor (v * 1000000 * 60) ltac:(lia)) as (-> & _ & _). unfold micros_per_second.
    replace (v * 1000000 * 60) with (v * (60 * 1000000)) by lia. now apply Z.div_mul.
  - destruct (seconds_floor (v * 1000000 * (60 * 60)) ltac:(lia)) as (_ & -> & _). unfold micros_per_second.
    replace (v * 1000000 * (60 * 60)) with (v * (3600 * 1000000)) by lia. now apply Z.div_mul.
  - destruct (seconds_floor (v * 1000000 * (60 * 60 * 24)) ltac:(lia)) as (_ & _ & ->). unfold micros_per_second.
    replace (v * 1000000 * (60 * 60 * 24)) with (v * (86400 * 1000000)) by lia. now apply Z.div_mul.
Qed.
Print Assumptions C31_units_inverse.
Example C31_units_inverse_example : days (from_days 400) = 400 /\ hours (from_days 2) = 48 /\ minutes (from_seconds 119) = 1.
Proof. repeat split. Qed.

(** The accessors count whole units. *)
Theorem C31_whole_units : forall d : Z, 0 <= d ->
  (days d * 86400000000 <= d < (days d + 1) * 86400000000) /\
  (hours d * 3600000000 <= d < (hours d + 1) * 3600000000) /\
  (minutes d * 60000000 <= d < (minutes d + 1) * 60000000) /\
  (seconds d * 1000000 <= d < (seconds d + 1) * 1000000) /\
  (milliseconds d * 1000 <= d < (milliseconds d + 1) * 1000).
Proof.
  intros d D. destruct (seconds_floor d D) as (-> & -> & ->). unfold seconds, milliseconds, micros_per_second.
  assert (G : forall k, 0 < k -> d / k * k <= d < (d / k + 1) * k).
  { intros k K. pose proof (Z.mod_pos_bound d k K). pose proof (Z.div_mod d k ltac:(lia)). nia. }
  repeat split; apply G; lia.
Qed.
Print Assumptions C31_whole_units.

(** C31. The constructors count microseconds; nanoseconds are cut to whole microseconds. *)
Theorem C31_constructors : forall v : Z, 0 <= v ->
  from_microseconds v = v /\
  from_nanoseconds v * 1000 <= v < (from_nanoseconds v + 1) * 1000 /\
  (v * 1000 < 2 ^ 64 -> from_milliseconds v = v * 1000) /\
  (v * 1000000 < 2 ^ 64 -> from_seconds v = v * 1000000) /\
  (v * 60000000 < 2 ^ 64 -> from_minutes v = v * 60000000) /\
  (v * 3600000000 < 2 ^ 64 -> from_hours v = v * 3600000000) /\
  (v * 86400000000 < 2 ^ 64 -> from_days v = v * 86400000000).
Proof.
  intros v V. unfold from_microseconds, from_nanoseconds, from_milliseconds, from_seconds, from_minutes, from_hours, from_days, micros_per_second.
  split; [reflexivity|]. split; [pose proof (Z.mod_pos_bound v 1000 ltac:(lia)); pose proof (Z.div_mod v 1000 ltac:(lia)); lia|].
  split; [|split; [|split; [|split]]]; intro H; rewrite u64_small by lia; lia.
Qed.
Print Assumptions C31_constructors.
Example C31_constructors_example : from_nanoseconds 2999 = 2 /\ from_days 2 = 172800000000.
Proof. split; reflexivity. Qed.

(** C31. Durations add up, within 64 bits exactly and else modulo 2^64, and adding a sum to a point in
    time is adding its parts one after the other. *)
Theorem C31_sums : forall a b t : Z, 0 <= a -> 0 <= b -> 0 <= t ->
  (a + b < 2 ^ 64 -> dur_add a b = a + b) /\
  (exists k, dur_add a b = a + b - k * 2 ^ 64) /\ 0 <= dur_add a b < 2 ^ 64 /\
  (t + a < 2 ^ 64 -> time_add t a = t + a) /\
  time_add t (dur_add a b) = time_add (time_add t a) b.
Proof.
  intros a b t A B T. unfold dur_add, time_add. split; [|split; [|split; [|split]]].
  - intro H. now rewrite u64_small by lia.
  - exists ((a + b) / 2 ^ 64). unfold u64, two64. pose proof (Z.div_mod (a + b) (2 ^ 64) ltac:(lia)). lia.
  - unfold u64, two64. apply Z.mod_pos_bound. lia.
  - intro H. now rewrite u64_small by lia.
  - unfold u64. rewrite Zplus_mod_idemp_l, Zplus_mod_idemp_r. f_equal. lia.
Qed.
Print Assumptions C31_sums.
Example C31_sums_example : dur_add (from_hours 1) (from_minutes 30) = from_minutes 90 /\ dur_add (2 ^ 64 - 1) 2 = 1.
Proof. split; reflexivity. Qed.

(* ======================= C56 ======================= *)

(** A duration of less than a year, in whole milliseconds, is printed as its parts: days,
    hours, minutes, seconds and milliseconds in range, adding up to the duration. Missing:
    years (below) and the microseconds, which are not printed. *)
Theorem C56_in_words_partial : forall show d, 0 <= d < 365 * 86400000000 -> d mod 1000 = 0 ->
  exists dd hh mm ss ms,
    0 <= dd <= 364 /\ 0 <= hh <= 23 /\ 0 <= mm <= 59 /\ 0 <= ss <= 59 /\ 0 <= ms <= 999 /\
    d = dd * 86400000000 + hh * 3600000000 + mm * 60000000 + ss * 1000000 + ms * 1000 /\
    inspect show d = in_words show
      [(dd, " days"); (hh, " hours"); (mm, " minutes"); (ss, " seconds"); (ms, "ms")]%string.
Proof.
  intros show d D M. exists (days d), (hours d mod 24), (minutes d mod 60), (seconds d mod 60), (milliseconds d mod 1000).
  destruct (seconds_floor d ltac:(lia)) as (Em & Eh & Ed).
  assert (W := C31_whole_units d ltac:(lia)). destruct W as (W1 & W2 & W3 & W4 & W5).
  assert (H1 : hours d / 24 = days d) by reflexivity.
  assert (H2 : minutes d / 60 = hours d) by reflexivity.
  assert (H3 : seconds d / 60 = minutes d) by reflexivity.
  assert (H4 : milliseconds d / 1000 = seconds d) by (unfold milliseconds, seconds, micros_per_second; now rewrite Z.div_div).
  pose proof (Z.div_mod (hours d) 24 ltac:(lia)). pose proof (Z.mod_pos_bound (hours d) 24 ltac:(lia)).
  pose proof (Z.div_mod (minutes d) 60 ltac:(lia)). pose proof (Z.mod_pos_bound (minutes d) 60 ltac:(lia)).
  pose proof (Z.div_mod (seconds d) 60 ltac:(lia)). pose proof (Z.mod_pos_bound (seconds d) 60 ltac:(lia)).
  pose proof (Z.div_mod (milliseconds d) 1000 ltac:(lia)). pose proof (Z.mod_pos_bound (milliseconds d) 1000 ltac:(lia)).
  assert (MS : d = milliseconds d * 1000) by (unfold milliseconds; pose proof (Z.div_mod d 1000 ltac:(lia)); lia).
  assert (DD : 0 <= days d < 365) by lia.
  split; [lia|]. split; [lia|]. split; [lia|]. split; [lia|]. split; [lia|]. split; [lia|].
  unfold inspect. cbv zeta. rewrite (Z.div_small (days d)), (Z.mod_small (days d) 365) by lia.
  unfold part, in_words, nonzero. cbn [Z.eqb app filter fst].
  destruct (days d =? 0); destruct (hours d mod 24 =? 0); destruct (minutes d mod 60 =? 0);
    destruct (seconds d mod 60 =? 0); destruct (milliseconds d mod 1000 =? 0);
    cbn [negb orb map spaced fst snd app]; rewrite <- ?app_assoc, ?app_nil_r; reflexivity.
Qed.
Print Assumptions C56_in_words_partial.
Example C56_in_words_example :
  inspect (fun z => [dig z]) (1 * 86400000000 + 5 * 60000000 + 7000) = s_ "1 days 5 minutes 7ms".
Proof. reflexivity. Qed.

(** From a year on, the years and the days run together. *)
Theorem C56_years_refuted : forall show y d, 1 <= y -> 1 <= d <= 364 ->
  inspect show (y * (365 * 86400000000) + d * 86400000000) = show y ++ s_ " years" ++ show d ++ s_ " days".
Proof.
  intros show y d Y D. set (x := y * (365 * 86400000000) + d * 86400000000).
  destruct (seconds_floor x ltac:(lia)) as (Em & Eh & Ed).
  assert (Hd : days x = y * 365 + d) by (rewrite Ed; unfold micros_per_second; unfold x; replace (y * (365 * 86400000000) + d * 86400000000) with ((y * 365 + d) * (86400 * 1000000)) by lia; now apply Z.div_mul).
  assert (Hh : hours x = (y * 365 + d) * 24) by (rewrite Eh; unfold micros_per_second; unfold x; replace (y * (365 * 86400000000) + d * 86400000000) with ((y * 365 + d) * 24 * (3600 * 1000000)) by lia; now apply Z.div_mul).
  assert (Hm : minutes x = (y * 365 + d) * 24 * 60) by (rewrite Em; unfold micros_per_second; unfold x; replace (y * (365 * 86400000000) + d * 86400000000) with ((y * 365 + d) * 24 * 60 * (60 * 1000000)) by lia; now apply Z.div_mul).
  assert (Hs : seconds x = (y * 365 + d) * 24 * 60 * 60) by (unfold seconds, micros_per_second; unfold x; replace (y * (365 * 86400000000) + d * 86400000000) with ((y * 365 + d) * 24 * 60 * 60 * 1000000) by lia; now apply Z.div_mul).
  assert (Hms : milliseconds x = (y * 365 + d) * 24 * 60 * 60 * 1000) by (unfold milliseconds; unfold x; replace (y * (365 * 86400000000) + d * 86400000000) with ((y * 365 + d) * 24 * 60 * 60 * 1000 * 1000) by lia; now apply Z.div_mul).
  unfold inspect. rewrite Hd, Hh, Hm, Hs, Hms, !Z.mod_mul by lia. cbv zeta.
  rewrite (Z.add_comm (y * 365) d), Z.div_add, Z.mod_add, (Z.div_small d), (Z.mod_small d) by lia.
  unfold part. cbn [Z.eqb negb orb app]. rewrite Z.add_0_l.
  destruct (Z.eqb_spec y 0); [lia|]. destruct (Z.eqb_spec d 0); [lia|]. cbn [app]. now rewrite <- ?app_assoc, ?app_nil_r.
Qed.
Print Assumptions C56_years_refuted.

(** A duration of less than a millisecond is printed as nothing. *)
Theorem C56_short_refuted : forall show d, 0 <= d < 1000 -> inspect show d = [].
Proof.
  intros show d D. unfold inspect, days, hours, minutes, seconds, milliseconds, micros_per_second.
  now rewrite !(Z.div_small d) by lia.
Qed.
Print Assumptions C56_short_refuted.
