(** Lemmas about the calendar and ISO 8601. *)
From Verif Require Import Base Time_Model Time_Spec.
From Coq Require Import ZArith Lia Bool.
Local Open Scope Z_scope.

Lemma leap_iff y : is_leap_year y = true <-> leap y.
Proof.
  unfold is_leap_year, leap. rewrite orb_true_iff, andb_true_iff, negb_true_iff, !Z.eqb_eq, Z.eqb_neq. tauto.
Qed.
Lemma leap_false y : is_leap_year y = false <-> ~ leap y.
Proof. rewrite <- leap_iff. destruct (is_leap_year y); intuition congruence. Qed.

Lemma month_length_dim y m n : 1 <= m <= 12 -> month_length y m n <-> days_in_month y m = n.
Proof.
  intro M. unfold month_length, days_in_month. destruct (Z.eqb_spec m 2) as [->|N].
  - destruct (is_leap_year y) eqn:L; [apply leap_iff in L|apply leap_false in L]; intuition (try lia).
  - assert (E : nth_error common_lengths (Z.to_nat (m - 1)) = Some (31 - Z.rem (Z.rem (m - 1) 7) 2)).
    { assert (m = 1 \/ m = 3 \/ m = 4 \/ m = 5 \/ m = 6 \/ m = 7 \/ m = 8 \/ m = 9 \/ m = 10 \/ m = 11 \/ m = 12) as C by lia.
      repeat (destruct C as [->|C]; [reflexivity|]). now subst m. }
    rewrite E. split.
    + intros [(_ & _ & H)|(H & _)]; [congruence|lia].
    + intros <-. left. auto.
Qed.
Lemma dim_bounds y m : 1 <= m <= 12 -> 28 <= days_in_month y m <= 31.
Proof.
  intro M. assert (m = 1 \/ m = 2 \/ m = 3 \/ m = 4 \/ m = 5 \/ m = 6 \/ m = 7 \/ m = 8 \/ m = 9 \/ m = 10 \/ m = 11 \/ m = 12) as C by lia.
  unfold days_in_month. repeat (destruct C as [->|C]; [destruct (is_leap_year y); cbn; lia|]). subst. cbn. lia.
Qed.

Lemma sum_from_nil g a b : b <= a -> sum_from g a b = 0.
Proof. intro H. unfold sum_from. now replace (Z.to_nat (b - a)) with 0%nat by lia. Qed.
Lemma sum_from_snoc g a b : a <= b -> sum_from g a (b + 1) = sum_from g a b + g b.
Proof.
  intro H. unfold sum_from. replace (Z.to_nat (b + 1 - a)) with (S (Z.to_nat (b - a))) by lia.
  rewrite seq_S, fold_left_app. cbn. f_equal. f_equal. lia.
Qed.

Definition year_len (y : Z) : Z := 365 + (if is_leap_year y then 1 else 0).
Definition year_days (y : Z) : Z := sum_from year_len 1970 y.
Definition month_days (y m : Z) : Z := sum_from (fun i => days_in_month y i) 1 m.
(** Days since the epoch, as the code counts. *)
Definition count (y m d : Z) : Z := (d - 1) + year_days y + month_days y m.

Lemma month_days_12 y : month_days y 12 + 31 = year_len y.
Proof.
  unfold month_days, year_len, sum_from. change (Z.to_nat (12 - 1)) with 11%nat.
  cbn [seq fold_left]. unfold days_in_month. destruct (is_leap_year y); reflexivity.
Qed.
Lemma month_days_step y m : 1 <= m -> month_days y (m + 1) = month_days y m + days_in_month y m.
Proof. intro H. unfold month_days. now rewrite sum_from_snoc. Qed.
Lemma month_days_1 y : month_days y 1 = 0.
Proof. reflexivity. Qed.
Lemma year_days_step y : 1970 <= y -> year_days (y + 1) = year_days y + year_len y.
Proof. apply sum_from_snoc. Qed.

Lemma count_tomorrow y m d y' m' d' : 1970 <= y -> 1 <= m <= 12 -> tomorrow (y, m, d) (y', m', d') ->
  count y' m' d' = count y m d + 1.
Proof.
  intros Y M T. remember (y, m, d) as a. remember (y', m', d') as b. revert Heqa Heqb.
  destruct T as [yy mm dd n L H|yy mm n L H|yy]; intros Ea Eb; injection Ea; injection Eb; intros; subst; unfold count.
  - lia.
  - apply month_length_dim in L; [|lia]. rewrite month_days_step by lia. lia.
  - rewrite year_days_step by lia. rewrite month_days_1. pose proof (month_days_12 y). lia.
Qed.

Lemma day_number_count x n : day_number x n ->
  let '(y, m, d) := x in 1970 <= y /\ valid_date y m d /\ count y m d = n /\ 0 <= n.
Proof.
  induction 1 as [|[[y m] d] [[y' m'] d'] n D IH T].
  - split; [lia|]. split; [|split; [reflexivity|lia]]. split; [lia|]. exists 31. split; [|lia]. left. repeat split; lia.
  - destruct IH as (Y & (M & k & L & K) & C & N).
    assert (C' := count_tomorrow _ _ _ _ _ _ Y M T).
    assert (V : 1970 <= y' /\ valid_date y' m' d').
    { inversion T; subst.
      - split; [lia|]. split; [lia|]. exists n0. split; auto. lia.
      - split; [lia|]. split; [lia|]. exists (days_in_month y' (m + 1)). split; [apply month_length_dim; lia|].
        pose proof (dim_bounds y' (m + 1)). lia.
      - split; [lia|]. split; [lia|]. exists 31. split; [|lia]. left. repeat split; lia. }
    destruct V as [Y' V']. repeat split; auto; try lia; apply V'.
Qed.

Lemma Z_ind_from (a : Z) (P : Z -> Prop) : P a -> (forall x, a <= x -> P x -> P (x + 1)) -> forall x, a <= x -> P x.
Proof.
  intros H0 HS x Hx. replace x with (a + Z.of_nat (Z.to_nat (x - a))) by lia.
  induction (Z.to_nat (x - a)) as [|k IH]; [now rewrite Z.add_0_r|].
  replace (a + Z.of_nat (S k)) with (a + Z.of_nat k + 1) by lia. apply HS; auto. lia.
Qed.

Lemma day_number_exists y m d : 1970 <= y -> valid_date y m d -> exists n, day_number (y, m, d) n.
Proof.
  intros Y (M & k & L & D).
  assert (DAYS : forall y m, 1 <= m <= 12 -> (exists n, day_number (y, m, 1) n) ->
      forall d, 1 <= d -> d <= days_in_month y m -> exists n, day_number (y, m, d) n).
  { intros y0 m0 M0 H0. apply (Z_ind_from 1 (fun d => d <= days_in_month y0 m0 -> exists n, day_number (y0, m0, d) n)).
    - auto.
    - intros x X IH U. destruct IH as (n & N); [lia|]. exists (n + 1). eapply dn_next; [exact N|].
      apply (tm_day y0 m0 x (days_in_month y0 m0)); [now apply month_length_dim|lia]. }
  assert (MONTHS : forall y, (exists n, day_number (y, 1, 1) n) ->
      forall m, 1 <= m -> m <= 12 -> exists n, day_number (y, m, 1) n).
  { intros y0 H0. apply (Z_ind_from 1 (fun m => m <= 12 -> exists n, day_number (y0, m, 1) n)).
    - auto.
    - intros x X IH U. specialize (IH ltac:(lia)).
      destruct (DAYS y0 x ltac:(lia) IH (days_in_month y0 x)) as (n & N); [pose proof (dim_bounds y0 x); lia|lia|].
      exists (n + 1). eapply dn_next; [exact N|]. apply tm_month; [apply month_length_dim; lia|lia]. }
  assert (YEARS : forall y, 1970 <= y -> exists n, day_number (y, 1, 1) n).
  { apply Z_ind_from.
    - exists 0. constructor.
    - intros x X IH. specialize (MONTHS x IH 12 ltac:(lia) ltac:(lia)).
      destruct (DAYS x 12 ltac:(lia) MONTHS 31) as (n & N); [lia|unfold days_in_month; cbn; lia|].
      exists (n + 1). eapply dn_next; [exact N|]. constructor. }
  apply month_length_dim in L; [|exact M].
  apply DAYS; auto; try lia. apply MONTHS; try lia. now apply YEARS.
Qed.

Lemma year_len_bounds y : 365 <= year_len y <= 366.
Proof. unfold year_len. destruct (is_leap_year y); lia. Qed.
Lemma year_days_bound y : 1970 <= y -> 365 * (y - 1970) <= year_days y <= 366 * (y - 1970).
Proof.
  revert y. apply Z_ind_from.
  - cbn. lia.
  - intros y Y IH. rewrite year_days_step by lia. pose proof (year_len_bounds y). lia.
Qed.
Lemma year_days_mono y y' : 1970 <= y -> y <= y' -> year_days y <= year_days y'.
Proof.
  intros Y. revert y'. apply Z_ind_from; [lia|]. intros x X IH. rewrite year_days_step by lia.
  pose proof (year_len_bounds x). lia.
Qed.
Lemma month_days_mono y m m' : 1 <= m -> m <= m' -> m' <= 12 -> month_days y m <= month_days y m'.
Proof.
  intro M. revert m'. apply (Z_ind_from m (fun m' => m' <= 12 -> month_days y m <= month_days y m')); [lia|].
  intros x X IH U. rewrite month_days_step by lia. pose proof (dim_bounds y x). lia.
Qed.
Lemma valid_in_year y m d : valid_date y m d -> 0 <= d - 1 + month_days y m < year_len y.
Proof.
  intros (M & k & L & D). apply month_length_dim in L; [|exact M].
  assert (A := month_days_mono y 1 m ltac:(lia) ltac:(lia) ltac:(lia)). rewrite month_days_1 in A.
  split; [lia|]. destruct (Z.eq_dec m 12) as [->|N].
  - pose proof (month_days_12 y). unfold days_in_month in L. cbn in L. lia.
  - assert (B := month_days_mono y (m + 1) 12 ltac:(lia) ltac:(lia) ltac:(lia)).
    rewrite month_days_step in B by lia. pose proof (month_days_12 y). lia.
Qed.
Lemma count_mono y m d y' m' d' : 1970 <= y -> valid_date y m d -> valid_date y' m' d' ->
  (y < y' \/ (y = y' /\ (m < m' \/ (m = m' /\ d < d')))) -> count y m d < count y' m' d'.
Proof.
  intros Y V V' [L|(-> & [L|(-> & L)])]; unfold count.
  - pose proof (valid_in_year _ _ _ V). pose proof (valid_in_year _ _ _ V').
    pose proof (year_days_mono (y + 1) y' ltac:(lia) ltac:(lia)). rewrite year_days_step in * by lia. lia.
  - destruct V as (M & k & K & D). destruct V' as (M' & k' & K' & D'). apply month_length_dim in K; [|exact M].
    pose proof (month_days_mono y' (m + 1) m' ltac:(lia) ltac:(lia) ltac:(lia)).
    rewrite month_days_step in * by lia. lia.
  - lia.
Qed.
Lemma count_bound y m d : 1970 <= y -> y < 65536 -> valid_date y m d -> 0 <= count y m d < 23300000.
Proof.
  intros Y U V. pose proof (valid_in_year _ _ _ V). pose proof (year_days_bound y Y).
  pose proof (year_len_bounds y). unfold count. lia.
Qed.

Lemma unix_time_count y m d h mi s ms off :
  unix_time (mk_civil y m d h mi s ms off) = instant (count y m d) h mi s ms off mod 2 ^ 64.
Proof.
  unfold unix_time, u64, two64, instant, count, year_days, month_days, year_len. cbn [c_year c_month c_day c_hour c_minute c_second c_milli c_offset].
  unfold micros_per_day, micros_per_hour, micros_per_minute, micros_per_second. f_equal. ring.
Qed.

Lemma u64_small x : 0 <= x < 2 ^ 64 -> u64 x = x.
Proof. intro H. unfold u64, two64. now apply Z.mod_small. Qed.

(* ---------------- digits ---------------- *)
Lemma nat_of_dig k : 0 <= k <= 9 -> nat_of_ascii (dig k) = (48 + Z.to_nat k)%nat.
Proof. intro H. unfold dig. apply nat_ascii_embedding. lia. Qed.
Lemma is_digit_dig k : 0 <= k <= 9 -> is_digit (dig k) = true.
Proof.
  intro H. unfold is_digit. rewrite nat_of_dig by auto. apply andb_true_iff.
  split; apply Nat.leb_le; lia.
Qed.
Lemma digit_val_dig k : 0 <= k <= 9 -> digit_val (dig k) = k.
Proof. intro H. unfold digit_val. rewrite nat_of_dig by auto. lia. Qed.
Lemma is_digit_inv a : is_digit a = true -> 0 <= digit_val a <= 9 /\ a = dig (digit_val a).
Proof.
  unfold is_digit, digit_val. intro H. apply andb_true_iff in H as [A B]. apply Nat.leb_le in A, B.
  split; [lia|]. unfold dig. replace (48 + Z.to_nat (Z.of_nat (nat_of_ascii a) - 48))%nat with (nat_of_ascii a) by lia.
  symmetry. apply ascii_nat_embedding.
Qed.

Lemma two_digits_dec2 v r : two v -> two_digits (dec2 v ++ r) = Some (v, r).
Proof.
  unfold two. intro H. unfold dec2, two_digits. cbn [app].
  assert (0 <= v / 10 <= 9) by (split; [apply Z.div_pos|apply Z.lt_succ_r, Z.div_lt_upper_bound]; lia).
  assert (0 <= v mod 10 <= 9) by (pose proof (Z.mod_pos_bound v 10); lia).
  rewrite !is_digit_dig, !digit_val_dig by auto. cbn [andb]. do 2 f_equal.
  pose proof (Z.div_mod v 10 ltac:(lia)). lia.
Qed.
Lemma two_digits_inv r v r' : two_digits r = Some (v, r') -> two v /\ r = dec2 v ++ r'.
Proof.
  unfold two_digits. destruct r as [|a [|b r]]; try discriminate.
  destruct (is_digit a) eqn:A; [|discriminate]. destruct (is_digit b) eqn:B; [|discriminate]. cbn [andb].
  intro H. injection H as <- <-. apply is_digit_inv in A as [A1 A2], B as [B1 B2]. unfold two.
  split; [lia|]. unfold dec2. cbn [app].
  replace ((digit_val a * 10 + digit_val b) / 10) with (digit_val a).
  - replace ((digit_val a * 10 + digit_val b) mod 10) with (digit_val b); [congruence|].
    rewrite Z.add_comm, Z.mod_add, Z.mod_small; lia.
  - rewrite Z.add_comm, Z.div_add, (Z.div_small (digit_val b)); lia.
Qed.
Lemma dec2_first v r : two v -> exists a, dec2 v ++ r = a :: dig (v mod 10) :: r /\ is_digit a = true.
Proof.
  intro H. exists (dig (v / 10)). split; [reflexivity|]. apply is_digit_dig. unfold two in H.
  split; [apply Z.div_pos|apply Z.lt_succ_r, Z.div_lt_upper_bound]; lia.
Qed.

(* ---------------- the parsers ---------------- *)
Definition with_offset (c : civil) (o : Z) : civil :=
  mk_civil (c_year c) (c_month c) (c_day c) (c_hour c) (c_minute c) (c_second c) (c_milli c) o.
Definition with_milli (c : civil) (o : Z) : civil :=
  mk_civil (c_year c) (c_month c) (c_day c) (c_hour c) (c_minute c) (c_second c) o (c_offset c).

Lemma char_eqb_eq (a b : ascii) : Ascii.eqb a b = true -> a = b.
Proof. apply Ascii.eqb_eq. Qed.

Lemma parse_offset_ok zn off c : lax_zone zn off -> parse_offset zn c = Ret (with_offset c off).
Proof.
  intro H. destruct H as [x [->| ->]|h m junk Hh Hm|h m junk Hh Hm].
  - reflexivity.
  - reflexivity.
  - assert (E : two_digits (dec2 h ++ s_ ":" ++ dec2 m ++ junk) = Some (h, s_ ":" ++ dec2 m ++ junk))
      by (apply two_digits_dec2; unfold two; lia).
    assert (E2 : two_digits (dec2 m ++ junk) = Some (m, junk)) by (apply two_digits_dec2; unfold two; lia).
    destruct (dec2_first h (s_ ":" ++ dec2 m ++ junk) ltac:(unfold two; lia)) as (a & Ea & _).
    unfold parse_offset. change (s_ "+" ++ ?x) with ("+"%char :: x). cbv zeta. rewrite Ea in E |- *. cbn [Ascii.eqb Bool.eqb].
    rewrite E. assert ((h <=? 24) = true) as -> by lia. change (s_ ":" ++ ?x) with (":"%char :: x). cbn [Ascii.eqb Bool.eqb].
    rewrite E2. assert ((m <=? 59) = true) as -> by lia. unfold with_offset. do 2 f_equal; lia.
  - assert (E : two_digits (dec2 h ++ s_ ":" ++ dec2 m ++ junk) = Some (h, s_ ":" ++ dec2 m ++ junk))
      by (apply two_digits_dec2; unfold two; lia).
    assert (E2 : two_digits (dec2 m ++ junk) = Some (m, junk)) by (apply two_digits_dec2; unfold two; lia).
    destruct (dec2_first h (s_ ":" ++ dec2 m ++ junk) ltac:(unfold two; lia)) as (a & Ea & _).
    unfold parse_offset. change (s_ "-" ++ ?x) with ("-"%char :: x). cbv zeta. rewrite Ea in E |- *. cbn [Ascii.eqb Bool.eqb].
    rewrite E. assert ((h <=? 24) = true) as -> by lia. change (s_ ":" ++ ?x) with (":"%char :: x). cbn [Ascii.eqb Bool.eqb].
    rewrite E2. assert ((m <=? 59) = true) as -> by lia. unfold with_offset. do 2 f_equal; lia.
Qed.

Lemma parse_offset_inv r c c' : parse_offset r c = Ret c' -> exists off, lax_zone r off /\ c' = with_offset c off.
Proof.
  unfold parse_offset. cbv zeta.
  assert (NUM : forall sg r1 (w : str), 
    match two_digits r1 with
    | None => Err
    | Some (h, r2) =>
        if h <=? 24 then
          match r2 with
          | colon :: r3 =>
              if Ascii.eqb colon ":"%char then
                match two_digits r3 with
                | Some (m, _) => if m <=? 59 then Ret (mk_civil (c_year c) (c_month c) (c_day c) (c_hour c) (c_minute c)
                      (c_second c) (c_milli c) (sg * (h * 3600 + m * 60))) else Err
                | None => Err
                end
              else Err
          | [] => Err
          end
        else Err
    end = Ret c' -> exists h m junk, 0 <= h <= 24 /\ 0 <= m <= 59 /\ r1 = dec2 h ++ s_ ":" ++ dec2 m ++ junk /\
       c' = with_offset c (sg * (h * 3600 + m * 60))).
  { intros sg r1 _ H. destruct (two_digits r1) as [[h r2]|] eqn:E1; [|discriminate].
    apply two_digits_inv in E1 as [T1 ->]. destruct (Z.leb_spec h 24) as [Lh|]; [|discriminate].
    destruct r2 as [|x r3]; [discriminate|]. destruct (Ascii.eqb x ":"%char) eqn:Ex; [|discriminate].
    apply char_eqb_eq in Ex. subst x. destruct (two_digits r3) as [[m junk]|] eqn:E2; [|discriminate].
    apply two_digits_inv in E2 as [T2 ->]. destruct (Z.leb_spec m 59) as [Lm|]; [|discriminate].
    injection H as <-. unfold two in *. exists h, m, junk. repeat split; auto; lia. }
  destruct r as [|x [|y r1]]; [discriminate| |].
  - destruct (Ascii.eqb x "z"%char || Ascii.eqb x "Z"%char) eqn:E; [|discriminate]. intro H. injection H as <-.
    exists 0. split; [|reflexivity]. constructor. apply orb_true_iff in E as [E|E]; apply char_eqb_eq in E; auto.
  - destruct (Ascii.eqb x "+"%char) eqn:E; [|destruct (Ascii.eqb x "-"%char) eqn:E'; [|discriminate]].
    + apply char_eqb_eq in E. subst x. intro H. apply (NUM 1 (y :: r1) []) in H as (h & m & junk & Hh & Hm & -> & ->).
      exists (h * 3600 + m * 60). split; [now constructor|]. f_equal; lia.
    + apply char_eqb_eq in E'. subst x. intro H. apply (NUM (-1) (y :: r1) []) in H as (h & m & junk & Hh & Hm & -> & ->).
      exists (- (h * 3600 + m * 60)). split; [now constructor|]. f_equal; lia.
Qed.

Lemma lax_zone_head zn off : lax_zone zn off -> exists x r, zn = x :: r /\ is_digit x = false /\ x <> "."%char.
Proof.
  destruct 1 as [x [->| ->]|h m junk Hh Hm|h m junk Hh Hm]; do 2 eexists; (split; [reflexivity|]); split; try reflexivity; discriminate.
Qed.

Lemma digits_prefix_ok ds r : forallb is_digit ds = true -> (match r with [] => True | x :: _ => is_digit x = false end) ->
  digits_prefix (ds ++ r) = (ds, r).
Proof.
  intros D R. induction ds as [|a ds IH].
  - cbn. destruct r; [reflexivity|]. cbn. now rewrite R.
  - cbn in *. apply andb_true_iff in D as [A D]. rewrite A, IH; auto.
Qed.
Lemma digits_prefix_inv r ds r2 : digits_prefix r = (ds, r2) -> r = ds ++ r2 /\ forallb is_digit ds = true.
Proof.
  revert ds r2. induction r as [|a r IH]; cbn; intros ds r2 H.
  - now injection H as <- <-.
  - destruct (is_digit a) eqn:A.
    + destruct (digits_prefix r) as [x y]. injection H as <- <-. destruct (IH x y eq_refl) as [-> B].
      cbn. now rewrite A, B.
    + injection H as <- <-. auto.
Qed.

Lemma dec2_bounds a : 0 <= a <= 99 -> 0 <= a / 10 <= 9 /\ 0 <= a mod 10 <= 9 /\ a = 10 * (a / 10) + a mod 10.
Proof.
  intro H. pose proof (Z.mod_pos_bound a 10 ltac:(lia)). pose proof (Z.div_mod a 10 ltac:(lia)).
  repeat split; try lia.
Qed.

Lemma parse_frac_ok fr ms zn off c : fraction fr ms -> fr <> [] -> lax_zone zn off ->
  parse_frac (fr ++ zn) c = Ret (with_offset (with_milli c ms) off).
Proof.
  intros F N Z. destruct (lax_zone_head _ _ Z) as (x & r & -> & X & _).
  assert (G : forall ds, forallb is_digit ds = true -> (1 <= length ds <= 3)%nat ->
     number_of ds * 10 ^ Z.of_nat (3 - length ds) = ms ->
     parse_frac ("."%char :: ds ++ x :: r) c = Ret (with_offset (with_milli c ms) off)).
  { intros ds D L E. unfold parse_frac. cbn [Ascii.eqb Bool.eqb]. rewrite (digits_prefix_ok ds (x :: r)) by auto.
    cbv zeta. assert (((1 <=? length ds)%nat && (length ds <=? 3)%nat) = true) as ->
      by (apply andb_true_iff; split; apply Nat.leb_le; lia).
    rewrite E. change (mk_civil _ _ _ _ _ _ _ _) with (with_milli c ms). now apply parse_offset_ok. }
  destruct F as [|a A|a A|a b A B].
  - congruence.
  - apply (G [dig a]); [unfold dec2; cbn [forallb]; now rewrite !is_digit_dig by auto|cbn; lia|].
    cbn [length]. unfold number_of. cbn [fold_left]. rewrite digit_val_dig by lia. change (10 ^ Z.of_nat (3 - 1)) with 100. lia.
  - destruct (dec2_bounds a A) as (B1 & B2 & B3).
    apply (G (dec2 a)); [unfold dec2; cbn [forallb]; now rewrite !is_digit_dig by auto|cbn; lia|].
    unfold number_of, dec2. cbn [length]. cbn [fold_left]. rewrite !digit_val_dig by lia. change (10 ^ Z.of_nat (3 - 2)) with 10. lia.
  - destruct (dec2_bounds b B) as (B1 & B2 & B3).
    apply (G (dig a :: dec2 b)); [unfold dec2; cbn [forallb]; now rewrite !is_digit_dig by auto|cbn; lia|].
    unfold number_of, dec2. cbn [length]. cbn [fold_left]. rewrite !digit_val_dig by lia. change (10 ^ Z.of_nat (3 - 3)) with 1. lia.
Qed.

Lemma parse_frac_inv r c c' : parse_frac r c = Ret c' -> exists fr ms zn off,
  r = fr ++ zn /\ fraction fr ms /\ fr <> [] /\ lax_zone zn off /\ c' = with_offset (with_milli c ms) off.
Proof.
  unfold parse_frac. destruct r as [|x r1]; [discriminate|]. destruct (Ascii.eqb x "."%char) eqn:X; [|discriminate].
  apply char_eqb_eq in X. subst x. destruct (digits_prefix r1) as [ds r2] eqn:D. cbv zeta.
  apply digits_prefix_inv in D as [-> D].
  destruct ((1 <=? length ds)%nat && (length ds <=? 3)%nat) eqn:L; [|discriminate].
  apply andb_true_iff in L as [L1 L2]. apply Nat.leb_le in L1, L2. intro H.
  apply parse_offset_inv in H as (off & Z & ->).
  assert (F : fraction ("."%char :: ds) (number_of ds * 10 ^ Z.of_nat (3 - length ds))).
  { destruct ds as [|a [|b [|c0 [|d ds]]]]; cbn [length] in *; try lia; cbn [forallb] in D; rewrite !andb_true_iff in D.
    - destruct D as [A _]. apply is_digit_inv in A as [A EA]. replace (number_of _ * _) with (digit_val a * 100)
        by (unfold number_of; cbn [fold_left]; change (10 ^ Z.of_nat (3 - 1)) with 100; lia).
      rewrite EA at 1. now apply (f_one (digit_val a)).
    - destruct D as (A & B & _). apply is_digit_inv in A as [A EA], B as [B EB].
      replace (number_of _ * _) with ((digit_val a * 10 + digit_val b) * 10)
        by (unfold number_of; cbn [fold_left]; change (10 ^ Z.of_nat (3 - 2)) with 10; lia).
      pose proof (f_two (digit_val a * 10 + digit_val b) ltac:(lia)) as F. unfold dec2 in F.
      rewrite Z.add_comm, Z.div_add, (Z.div_small (digit_val b)), Z.mod_add, (Z.mod_small (digit_val b)), Z.add_0_l in F by lia.
      rewrite <- EA, <- EB in F. rewrite Z.add_comm in F. exact F.
    - destruct D as (A & B & C & _). apply is_digit_inv in A as [A EA], B as [B EB], C as [C EC].
      replace (number_of _ * _) with (digit_val a * 100 + (digit_val b * 10 + digit_val c0))
        by (unfold number_of; cbn [fold_left]; change (10 ^ Z.of_nat (3 - 3)) with 1; lia).
      pose proof (f_three (digit_val a) (digit_val b * 10 + digit_val c0) ltac:(lia) ltac:(lia)) as F. unfold dec2 in F.
      rewrite (Z.add_comm (_ * 10)), Z.div_add, (Z.div_small (digit_val c0)), Z.mod_add, (Z.mod_small (digit_val c0)), Z.add_0_l in F by lia.
      rewrite <- EA, <- EB, <- EC in F. rewrite (Z.add_comm (digit_val c0)) in F. exact F. }
  exists ("."%char :: ds), (number_of ds * 10 ^ Z.of_nat (3 - length ds)), r2, off.
  repeat split; auto; discriminate.
Qed.

(** The part behind the seconds. *)
Lemma parse_tail_iff r c c' : c_milli c = 0 ->
  or_else (parse_frac r c) (parse_offset r c) = Ret c' <->
  exists fr ms zn off, r = fr ++ zn /\ fraction fr ms /\ lax_zone zn off /\ c' = with_offset (with_milli c ms) off.
Proof.
  intro C0. assert (CM : with_milli c 0 = c) by (destruct c; cbn in *; subst; reflexivity).
  split.
  - intro H. destruct (parse_frac r c) as [c1| | | |] eqn:F; cbn in H; try discriminate.
    + injection H as ->. apply parse_frac_inv in F as (fr & ms & zn & off & -> & A & _ & B & ->). exists fr, ms, zn, off. auto.
    + apply parse_offset_inv in H as (off & Z & ->). exists [], 0, r, off. rewrite CM. repeat split; auto. constructor.
  - intros (fr & ms & zn & off & -> & F & Z & ->). destruct fr as [|x fr].
    + assert (ms = 0) as -> by (inversion F; auto). rewrite CM. cbn [app].
      destruct (lax_zone_head _ _ Z) as (x & r & -> & _ & X).
      assert (parse_frac (x :: r) c = Err) as ->.
      { unfold parse_frac. destruct (Ascii.eqb x ".") eqn:E; [|reflexivity]. apply char_eqb_eq in E. contradiction. }
      cbn [or_else]. now apply parse_offset_ok.
    + rewrite (parse_frac_ok (x :: fr) ms zn off c); auto. discriminate.
Qed.

Lemma days_ok y d : 1 <= d <= 31 -> d <= days_in_month y d.
Proof.
  intro H. unfold days_in_month. destruct (Z.eqb_spec d 2); [destruct (is_leap_year y); lia|].
  destruct (Z.eq_dec d 31) as [->|]; [cbn; lia|].
  assert (0 <= Z.rem (Z.rem (d - 1) 7) 2 < 2) by (apply Z.rem_bound_pos; [apply Z.rem_bound_pos|]; lia). lia.
Qed.
Lemma days_le y d : 1 <= d -> d <= days_in_month y d -> d <= 31.
Proof.
  intros H. unfold days_in_month. destruct (Z.eqb_spec d 2); [lia|].
  assert (0 <= Z.rem (Z.rem (d - 1) 7) 2 < 2) by (apply Z.rem_bound_pos; [apply Z.rem_bound_pos|]; lia). lia.
Qed.

Lemma dec4_digits y : 0 <= y <= 9999 -> exists a b c d, dec4 y = [a; b; c; d] /\
  is_digit a = true /\ is_digit b = true /\ is_digit c = true /\ is_digit d = true /\
  ((digit_val a * 10 + digit_val b) * 10 + digit_val c) * 10 + digit_val d = y.
Proof.
  intro H. assert (A : 0 <= y / 100 <= 99) by (split; [apply Z.div_pos|apply Z.lt_succ_r, Z.div_lt_upper_bound]; lia).
  assert (B : 0 <= y mod 100 <= 99) by (pose proof (Z.mod_pos_bound y 100); lia).
  destruct (dec2_bounds _ A) as (A1 & A2 & A3), (dec2_bounds _ B) as (B1 & B2 & B3).
  do 4 eexists. split; [reflexivity|]. rewrite !is_digit_dig, !digit_val_dig by auto.
  repeat split. pose proof (Z.div_mod y 100 ltac:(lia)). lia.
Qed.
Lemma digits_dec4 a b c d : is_digit a = true -> is_digit b = true -> is_digit c = true -> is_digit d = true ->
  exists y, 0 <= y <= 9999 /\ dec4 y = [a; b; c; d] /\ y = ((digit_val a * 10 + digit_val b) * 10 + digit_val c) * 10 + digit_val d.
Proof.
  intros A B C D. apply is_digit_inv in A as [A EA], B as [B EB], C as [C EC], D as [D ED].
  eexists. split; [|split; [|reflexivity]]; [lia|].
  set (u := digit_val a * 10 + digit_val b). set (v := digit_val c * 10 + digit_val d).
  replace ((u * 10 + digit_val c) * 10 + digit_val d) with (u * 100 + v) by (unfold v; lia).
  unfold dec4. assert (0 <= u <= 99) by (unfold u; lia). assert (0 <= v <= 99) by (unfold v; lia).
  rewrite (Z.add_comm (u * 100)), Z.div_add, (Z.div_small v), Z.mod_add, (Z.mod_small v), Z.add_0_l by lia.
  assert (TU := two_digits_dec2 u [] ltac:(unfold two; lia)). assert (TV := two_digits_dec2 v [] ltac:(unfold two; lia)).
  unfold dec2. unfold u, v.
  rewrite !(Z.add_comm (_ * 10)), !Z.div_add, !Z.mod_add by lia.
  rewrite (Z.div_small (digit_val b)), (Z.div_small (digit_val d)), !Z.mod_small, !Z.add_0_l by lia.
  rewrite <- EA, <- EB, <- EC, <- ED. reflexivity.
Qed.

Lemma step_char (x k : ascii) {A} (a b c : A) : Ascii.eqb x k = true -> (if Ascii.eqb x k then a else b) = c -> x = k /\ a = c.
Proof. intros E. rewrite E. intro. split; auto. now apply char_eqb_eq. Qed.

Lemma iso_parse_ok s y m d h mi sc ms off : lax_text s y m d h mi sc ms off ->
  iso_parse s = Ret (mk_civil y m d h mi sc ms off).
Proof.
  assert (Y : forall y r, 0 <= y <= 9999 -> iso_parse (dec4 y ++ r) =
     match r with [] => Ret (mk_civil y 0 0 0 0 0 0 0) | _ => parse_month r (mk_civil y 0 0 0 0 0 0 0) end).
  { intros y0 r H. destruct (dec4_digits y0 H) as (a & b & c & dd & E & A & B & C & D & V). rewrite E.
    unfold iso_parse. cbn [app]. rewrite A, B, C, D, V. reflexivity. }
  assert (M : forall m r c, 1 <= m <= 12 -> parse_month (s_ "-" ++ dec2 m ++ r) c =
     match r with [] => Ret (mk_civil (c_year c) m (c_day c) (c_hour c) (c_minute c) (c_second c) (c_milli c) (c_offset c))
     | _ => parse_day r (mk_civil (c_year c) m (c_day c) (c_hour c) (c_minute c) (c_second c) (c_milli c) (c_offset c)) end).
  { intros m0 r c H. unfold parse_month. change (s_ "-" ++ ?x) with ("-"%char :: x). cbn [Ascii.eqb Bool.eqb].
    rewrite two_digits_dec2 by (unfold two; lia). assert (((0 <? m0) && (m0 <? 13)) = true) as -> by lia. reflexivity. }
  assert (D : forall d r c, 1 <= d <= 31 -> parse_day (s_ "-" ++ dec2 d ++ r) c =
     match r with [] => Ret (mk_civil (c_year c) (c_month c) d (c_hour c) (c_minute c) (c_second c) (c_milli c) (c_offset c))
     | _ => parse_hour r (mk_civil (c_year c) (c_month c) d (c_hour c) (c_minute c) (c_second c) (c_milli c) (c_offset c)) end).
  { intros d0 r c H. unfold parse_day. change (s_ "-" ++ ?x) with ("-"%char :: x). cbn [Ascii.eqb Bool.eqb].
    rewrite two_digits_dec2 by (unfold two; lia). assert (L := days_ok (c_year c) d0 H).
    assert (((0 <? d0) && (d0 <=? days_in_month (c_year c) d0)) = true) as -> by lia. reflexivity. }
  destruct 1 as [y Hy|y m Hy Hm|y m d Hy Hm Hd|y m d t h mi s fr ms zn off Hy Hm Hd Ht Hh Hmi Hs F Z].
  - replace (dec4 y) with (dec4 y ++ []) by apply app_nil_r. now rewrite Y.
  - rewrite Y by auto. replace (dec2 m) with (dec2 m ++ []) by apply app_nil_r.
    change (s_ "-" ++ dec2 m ++ []) with ("-"%char :: dec2 m ++ []) at 1. cbv iota.
    change ("-"%char :: dec2 m ++ []) with (s_ "-" ++ dec2 m ++ []). now rewrite M.
  - rewrite Y by auto. change (s_ "-" ++ dec2 m ++ ?r) with ("-"%char :: dec2 m ++ r) at 1. cbv iota.
    change ("-"%char :: dec2 m ++ ?r) with (s_ "-" ++ dec2 m ++ r). rewrite M by auto.
    replace (dec2 d) with (dec2 d ++ []) by apply app_nil_r.
    change (s_ "-" ++ dec2 d ++ []) with ("-"%char :: dec2 d ++ []) at 1. cbv iota.
    change ("-"%char :: dec2 d ++ []) with (s_ "-" ++ dec2 d ++ []). now rewrite D.
  - rewrite Y by auto. change (s_ "-" ++ dec2 m ++ ?r) with ("-"%char :: dec2 m ++ r) at 1. cbv iota.
    change ("-"%char :: dec2 m ++ ?r) with (s_ "-" ++ dec2 m ++ r). rewrite M by auto.
    change (s_ "-" ++ dec2 d ++ ?r) with ("-"%char :: dec2 d ++ r) at 1. cbv iota.
    change ("-"%char :: dec2 d ++ ?r) with (s_ "-" ++ dec2 d ++ r). rewrite D by auto.
    cbn [app]. cbv iota. unfold parse_hour.
    assert ((Ascii.eqb t "T" || Ascii.eqb t "t") = true) as -> by (destruct Ht as [->| ->]; reflexivity).
    rewrite two_digits_dec2 by (unfold two; lia). assert ((h <=? 24) = true) as -> by lia.
    unfold parse_minute. change (s_ ":" ++ ?x) with (":"%char :: x). cbn [Ascii.eqb Bool.eqb app].
    rewrite two_digits_dec2 by (unfold two; lia). assert ((mi <=? 59) = true) as -> by lia.
    unfold parse_second. change (s_ ":" ++ ?x) with (":"%char :: x). cbn [Ascii.eqb Bool.eqb].
    rewrite two_digits_dec2 by (unfold two; lia). assert ((s <=? 59) = true) as -> by lia. cbv zeta.
    apply parse_tail_iff; [reflexivity|]. exists fr, ms, zn, off. auto.
Qed.

Lemma iso_parse_inv s c : iso_parse s = Ret c ->
  lax_text s (c_year c) (c_month c) (c_day c) (c_hour c) (c_minute c) (c_second c) (c_milli c) (c_offset c).
Proof.
  unfold iso_parse. destruct s as [|a [|b [|c0 [|d r]]]]; try discriminate.
  destruct (is_digit a && is_digit b && is_digit c0 && is_digit d) eqn:E; [|discriminate].
  rewrite !andb_true_iff in E. destruct E as [[[A B] C] D].
  destruct (digits_dec4 a b c0 d A B C D) as (y & Hy & Ey & Vy). rewrite <- Vy.
  change (a :: b :: c0 :: d :: r) with ([a; b; c0; d] ++ r). rewrite <- Ey. clear Ey Vy A B C D a b c0 d.
  destruct r as [|x r].
  { intro H. injection H as <-. rewrite app_nil_r. now constructor. }
  unfold parse_month. destruct (Ascii.eqb x "-"%char) eqn:X; [|discriminate]. apply char_eqb_eq in X. subst x.
  destruct (two_digits r) as [[m r2]|] eqn:T; [|discriminate]. apply two_digits_inv in T as [_ ->].
  destruct ((0 <? m) && (m <? 13)) eqn:Em; [|discriminate]. assert (Hm : 1 <= m <= 12) by lia. clear Em.
  cbv zeta. cbn [c_year c_day c_hour c_minute c_second c_milli c_offset].
  destruct r2 as [|x r].
  { intro H. injection H as <-. rewrite app_nil_r. now constructor. }
  unfold parse_day. destruct (Ascii.eqb x "-"%char) eqn:X; [|discriminate]. apply char_eqb_eq in X. subst x.
  destruct r as [|x r]; [discriminate|].
  destruct (two_digits (x :: r)) as [[dd r2]|] eqn:T; [|discriminate]. apply two_digits_inv in T as [_ ->].
  destruct ((0 <? dd) && (dd <=? days_in_month _ dd)) eqn:Ed; [|discriminate].
  apply andb_true_iff in Ed as [E1 E2]. apply Z.ltb_lt in E1. apply Z.leb_le in E2.
  assert (Hd : 1 <= dd <= 31) by (split; [lia|]; eapply days_le; eauto; lia). clear E1 E2.
  cbv zeta. cbn [c_year c_month c_day c_hour c_minute c_second c_milli c_offset].
  destruct r2 as [|x2 r2].
  { intro H. injection H as <-. rewrite app_nil_r. now constructor. }
  unfold parse_hour. destruct (Ascii.eqb x2 "T"%char || Ascii.eqb x2 "t"%char) eqn:X; [|discriminate].
  assert (Ht : x2 = "T"%char \/ x2 = "t"%char) by (apply orb_true_iff in X as [X|X]; apply char_eqb_eq in X; auto). clear X.
  destruct (two_digits r2) as [[h r3]|] eqn:T; [|discriminate]. apply two_digits_inv in T as [Th ->].
  destruct (Z.leb_spec h 24) as [Hh|]; [|discriminate].
  unfold parse_minute. destruct r3 as [|x3 r3]; [discriminate|].
  destruct (Ascii.eqb x3 ":"%char) eqn:X; [|discriminate]. apply char_eqb_eq in X. subst x3.
  destruct (two_digits r3) as [[mi r4]|] eqn:T; [|discriminate]. apply two_digits_inv in T as [Tmi ->].
  destruct (Z.leb_spec mi 59) as [Hmi|]; [|discriminate].
  unfold parse_second. destruct r4 as [|x4 r4]; [discriminate|].
  destruct (Ascii.eqb x4 ":"%char) eqn:X; [|discriminate]. apply char_eqb_eq in X. subst x4.
  destruct (two_digits r4) as [[sc r5]|] eqn:T; [|discriminate]. apply two_digits_inv in T as [Tsc ->].
  destruct (Z.leb_spec sc 59) as [Hsc|]; [|discriminate]. cbv zeta.
  intro H. apply parse_tail_iff in H as (fr & ms & zn & off & -> & F & Z & ->); [|reflexivity].
  unfold with_offset, with_milli. cbn [c_year c_month c_day c_hour c_minute c_second c_milli c_offset].
  unfold two in *. change (?u :: dec2 ?v ++ ?w) with ([u] ++ dec2 v ++ w).
  apply (lt_time y m dd x2 h mi sc fr ms zn off); auto; lia.
Qed.

Lemma earlier_instant y m d h mi s ms y' m' d' h' mi' s' ms' n n' off :
  1970 <= y -> valid_date y m d -> valid_date y' m' d' -> valid_time h mi s ms -> valid_time h' mi' s' ms' ->
  n = count y m d -> n' = count y' m' d' ->
  earlier [y; m; d; h; mi; s; ms] [y'; m'; d'; h'; mi'; s'; ms'] ->
  instant n h mi s ms off < instant n' h' mi' s' ms' off.
Proof.
  intros Y V V' (T1 & T2 & T3 & T4) (T1' & T2' & T3' & T4') N N' E. unfold instant.
  cbn [earlier] in E.
  assert (n < n' \/ (n = n' /\ (h < h' \/ (h = h' /\ (mi < mi' \/ (mi = mi' /\ (s < s' \/ (s = s' /\ (ms < ms' \/ (ms = ms' /\ False)))))))))) as C.
  { destruct E as [E|(E1 & [E|(E2 & [E|(E3 & E)])])].
    - left. subst. apply count_mono; auto.
    - left. subst. apply count_mono; auto.
    - left. subst. apply count_mono; auto.
    - right. split; [congruence|exact E]. }
  lia.
Qed.

Lemma u64_add_sub t d : 0 <= t < 2 ^ 64 -> time_sub (time_add t d) d = t.
Proof.
  intro H. unfold time_sub, time_add, u64, two64. rewrite Zminus_mod_idemp_l.
  replace (t + d - d) with t by lia. now apply Z.mod_small.
Qed.
Lemma u64_sub_add t d : 0 <= t < 2 ^ 64 -> time_add (time_sub t d) d = t.
Proof.
  intro H. unfold time_sub, time_add, u64, two64. rewrite Zplus_mod_idemp_l.
  replace (t - d + d) with t by lia. now apply Z.mod_small.
Qed.
Lemma time_diff_abs a b : 0 <= a < 2 ^ 64 -> 0 <= b < 2 ^ 64 -> time_diff a b = Z.abs (a - b).
Proof.
  intros A B. unfold time_diff. destruct (a >? b) eqn:E; rewrite u64_small; lia.
Qed.
Lemma seconds_floor d : 0 <= d -> minutes d = d / (60 * micros_per_second) /\
  hours d = d / (3600 * micros_per_second) /\ days d = d / (86400 * micros_per_second).
Proof.
  intro H. unfold days, hours, minutes, seconds, micros_per_second. rewrite !Z.div_div by lia. auto.
Qed.
