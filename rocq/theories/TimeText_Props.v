(** C104: times as text. *)
From Coq Require Import Reals Lra ZArith Lia.
From Verif Require Import Base Time_Model Time_Spec Time_Proofs Time_Props Dec TimeText_Model TimeText_Spec Num Format_Model Format_Props.
Local Open Scope Z_scope.

Lemma month_len_dim y m : 1 <= m <= 12 -> month_len y m = days_in_month y m.
Proof.
  intro M. unfold month_len, days_in_month, is_leap_year. set (b := _ || _).
  assert (E : m = 1 \/ m = 2 \/ m = 3 \/ m = 4 \/ m = 5 \/ m = 6 \/ m = 7 \/ m = 8 \/ m = 9 \/ m = 10 \/ m = 11 \/ m = 12) by lia.
  decompose [or] E; subst m; try reflexivity. cbn. now destruct b.
Qed.
Lemma gm_days n : day_number (Nat.iter n next_day (1970, 1, 1)) (Z.of_nat n).
Proof.
  induction n as [|n IH]; [exact dn_epoch|]. rewrite Nat2Z.inj_succ, <- Z.add_1_r. cbn [Nat.iter nat_rect].
  change (nat_rect (fun _ => (Z * Z * Z)%type) (1970, 1, 1) (fun _ => next_day) n) with (Nat.iter n next_day (1970, 1, 1)).
  eapply dn_next; [exact IH|]. apply day_number_count in IH. destruct (Nat.iter n next_day (1970, 1, 1)) as [[y m] d].
  destruct IH as (Y & (M & k & L & D) & _). pose proof L as L'. apply month_length_dim in L; [|exact M].
  cbn [next_day]. rewrite month_len_dim by exact M. rewrite L.
  destruct (Z.ltb_spec d k) as [A|A]; [econstructor; eauto|]. assert (d = k) as -> by lia.
  destruct (Z.ltb_spec m 12) as [B|B]; [apply tm_month; auto|]. assert (m = 12) as -> by lia.
  unfold days_in_month in L. cbn in L. subst k. apply Time_Spec.tm_year.
Qed.

Lemma dec2_pad n : 0 <= n < 100 -> pad2 n = dec2 n.
Proof.
  intro H. assert (A : forallb (fun k => str_eqb (pad2 (Z.of_nat k)) (dec2 (Z.of_nat k))) (seq 0 100) = true) by (vm_compute; reflexivity).
  rewrite forallb_forall in A. specialize (A (Z.to_nat n)). rewrite Z2Nat.id in A by lia.
  assert (E : str_eqb (pad2 n) (dec2 n) = true) by (apply A, in_seq; lia). destruct (str_eqb_spec (pad2 n) (dec2 n)); [assumption|discriminate].
Qed.
Lemma dec_dec4 y : 1970 <= y <= 9999 -> dec y = dec4 y.
Proof.
  intro H. assert (A : forallb (fun k => str_eqb (dec (Z.of_nat k)) (dec4 (Z.of_nat k))) (seq 1970 (Z.to_nat 8030)) = true) by (vm_compute; reflexivity).
  rewrite forallb_forall in A. specialize (A (Z.to_nat y)). rewrite Z2Nat.id in A by lia.
  assert (E : str_eqb (dec y) (dec4 y) = true) by (apply A, in_seq; lia). destruct (str_eqb_spec (dec y) (dec4 y)); [assumption|discriminate].
Qed.

(** The moment determines the fields gmtime_r gives. *)
Lemma gmtime_moment t y m d h mi s us : moment t y m d h mi s us ->
  gmtime (t / 1000000) = mk_tm (Some s) (Some mi) (Some h) (Some d) (Some (m - 1)) (Some (y - 1900)).
Proof.
  intros ((H & MI & S & _) & U & n & N & ->). assert (Q : (instant n h mi s 0 0 + us) / 1000000 = n * 86400 + h * 3600 + mi * 60 + s).
  { symmetry. apply (Z.div_unique _ _ _ us); [lia|]. unfold instant. lia. }
  rewrite Q. unfold gmtime. assert (N0 : 0 <= n) by (apply day_number_count in N; tauto).
  assert (D : (n * 86400 + h * 3600 + mi * 60 + s) / 86400 = n) by (symmetry; apply (Z.div_unique _ _ _ (h * 3600 + mi * 60 + s)); lia).
  assert (R : (n * 86400 + h * 3600 + mi * 60 + s) mod 86400 = h * 3600 + mi * 60 + s) by (symmetry; apply (Z.mod_unique _ _ n); lia).
  rewrite D, R. pose proof (gm_days (Z.to_nat n)) as G. rewrite Z2Nat.id in G by exact N0.
  destruct (Nat.iter (Z.to_nat n) next_day (1970, 1, 1)) as [[y' m'] d']. cbv zeta.
  assert (E : (y', m', d') = (y, m, d)).
  { apply day_number_count in G as (Y' & V' & C' & _). apply day_number_count in N as (Y & V & C & _).
    assert (NL : forall a b c a' b' c', 1970 <= a -> valid_date a b c -> valid_date a' b' c' -> count a b c = count a' b' c' ->
                 ~ (a < a' \/ (a = a' /\ (b < b' \/ (b = b' /\ c < c'))))).
    { intros a b c a' b' c' A V1 V2 E L. pose proof (count_mono _ _ _ _ _ _ A V1 V2 L). lia. }
    pose proof (NL _ _ _ _ _ _ Y' V' V ltac:(lia)). pose proof (NL _ _ _ _ _ _ Y V V' ltac:(lia)).
    assert (y' = y) by lia. assert (m' = m) by lia. assert (d' = d) by lia. congruence. }
  injection E as -> -> ->.
  assert (E1 : (h * 3600 + mi * 60 + s) mod 60 = s) by (symmetry; apply (Z.mod_unique _ _ (h * 60 + mi)); lia).
  assert (E2 : (h * 3600 + mi * 60 + s) / 60 = h * 60 + mi) by (symmetry; apply (Z.div_unique _ _ _ s); lia).
  assert (E3 : (h * 60 + mi) mod 60 = mi) by (symmetry; apply (Z.mod_unique _ _ h); lia).
  assert (E4 : (h * 3600 + mi * 60 + s) / 3600 = h) by (symmetry; apply (Z.div_unique _ _ _ (mi * 60 + s)); lia).
  now rewrite E1, E2, E3, E4.
Qed.
Lemma moment_exists t : 0 <= t -> exists y m d h mi s us, moment t y m d h mi s us.
Proof.
  intro T. set (q := t / 1000000). set (us := t mod 1000000).
  assert (Q0 : 0 <= q) by (apply Z.div_pos; lia). pose proof (Z.div_mod t 1000000 ltac:(lia)). pose proof (Z.mod_pos_bound t 1000000 ltac:(lia)).
  set (n := q / 86400). set (r := q mod 86400). pose proof (Z.div_mod q 86400 ltac:(lia)). pose proof (Z.mod_pos_bound q 86400 ltac:(lia)).
  assert (N0 : 0 <= n) by (apply Z.div_pos; lia).
  pose proof (gm_days (Z.to_nat n)) as G. rewrite Z2Nat.id in G by exact N0. destruct (Nat.iter (Z.to_nat n) next_day (1970, 1, 1)) as [[y m] d].
  exists y, m, d, (r / 3600), (r mod 3600 / 60), (r mod 60), us.
  pose proof (Z.div_mod r 3600 ltac:(lia)). pose proof (Z.mod_pos_bound r 3600 ltac:(lia)).
  pose proof (Z.div_mod (r mod 3600) 60 ltac:(lia)). pose proof (Z.mod_pos_bound (r mod 3600) 60 ltac:(lia)).
  assert (E : (r mod 3600) mod 60 = r mod 60).
  { rewrite <- (Znumtheory.Zmod_div_mod 60 3600 r); [reflexivity|lia|lia|]. exists 60. reflexivity. }
  fold q in H |- *. fold us in H, H0. fold n r in H1, H2. rewrite E in *.
  assert (0 <= r / 3600 <= 23) by (split; [apply Z.div_pos; lia|apply Z.lt_succ_r, Z.div_lt_upper_bound; lia]).
  assert (0 <= r mod 3600 / 60 <= 59) by (split; [apply Z.div_pos; lia|apply Z.lt_succ_r, Z.div_lt_upper_bound; lia]).
  split; [unfold valid_time; lia|]. split; [lia|]. exists n. split; [exact G|]. unfold instant. lia.
Qed.

(* ---------------- printing ---------------- *)
Lemma c_str_id s : ~ In "000"%char s -> c_str s = s.
Proof.
  induction s as [|c s IH]; intro N; [reflexivity|]. cbn [c_str]. destruct (Ascii.eqb_spec c "000"); [exfalso; apply N; now left|].
  f_equal. apply IH. intro I. apply N. now right.
Qed.
Lemma strftime_plain o c r t : c <> "%"%char -> strftime o (c :: r) t = c :: strftime o r t.
Proof. intro N. destruct c as [[] [] [] [] [] [] [] []]; try reflexivity. congruence. Qed.
Lemma digits_no_nul l : Forall Dec.is_digit l -> ~ In "000"%char l.
Proof. intros F I. rewrite Forall_forall in F. apply F in I. unfold Dec.is_digit in I. cbn in I. lia. Qed.
Lemma dec2_no_nul v : 0 <= v < 100 -> ~ In "000"%char (dec2 v).
Proof.
  intros H [E|[E|[]]]; apply (f_equal nat_of_ascii) in E; rewrite nat_of_dig in E.
  1,3: cbn in E; lia.
  - pose proof (Z.div_pos v 10). assert (v / 10 < 10) by (apply Z.div_lt_upper_bound; lia). lia.
  - pose proof (Z.mod_pos_bound v 10). lia.
Qed.
Lemma moment_ranges t y m d h mi s us : moment t y m d h mi s us -> 1970 <= y /\ 1 <= m <= 12 /\ 1 <= d <= 31 /\ valid_date y m d.
Proof.
  intros (_ & _ & n & N & _). apply day_number_count in N as (Y & (M & k & L & K) & _). pose proof L as L'. apply month_length_dim in L'; [|exact M].
  pose proof (dim_bounds y m M). repeat split; try lia. exists k. auto.
Qed.

Lemma time_text_dec : forall other (ps : list piece) (t y m d h mi s us : Z), moment t y m d h mi s us -> Forall ordinary ps ->
  time_text other (concat (map spelled ps)) (t / 1000000) = concat (map (stands_for (dec y) m d h mi s) ps).
Proof.
  intros other ps t y m d h mi s us Mo F. destruct (moment_ranges _ _ _ _ _ _ _ _ Mo) as (Y & M & D & _).
  set (text := concat (map (stands_for (dec y) m d h mi s) ps)). unfold time_text.
  pose proof (gmtime_moment _ _ _ _ _ _ _ _ Mo) as G. rewrite G. destruct Mo as ((H & MI & S & _) & _).
  assert (N1 : c_str (concat (map spelled ps)) = concat (map spelled ps)).
  { apply c_str_id. intro I. apply in_concat in I as (x & I & J). apply in_map_iff in I as (p & <- & I). rewrite Forall_forall in F. apply F in I.
    destruct p; cbn in I, J; intuition congruence. }
  rewrite N1. assert (E : strftime other (concat (map spelled ps)) (mk_tm (Some s) (Some mi) (Some h) (Some d) (Some (m - 1)) (Some (y - 1900))) = text).
  { unfold text. clear - F Y M D H MI S. induction F as [|p ps O F IH]; [reflexivity|]. cbn [map concat]. destruct p; cbn [spelled stands_for].
    - destruct O as [O _]. change ([c] ++ concat (map spelled ps)) with (c :: concat (map spelled ps)). rewrite strftime_plain by exact O. now rewrite IH.
    - change (s_ "%Y" ++ ?x) with ("%"%char :: "Y"%char :: x). cbn [strftime tm_year shown]. rewrite IH. f_equal. unfold dec_int.
      replace (y - 1900 + 1900) with y by lia. destruct (Z.ltb_spec y 0); [lia|reflexivity].
    - change (s_ "%m" ++ ?x) with ("%"%char :: "m"%char :: x). cbn [strftime tm_mon shown]. rewrite IH. f_equal. replace (m - 1 + 1) with m by lia. apply dec2_pad. lia.
    - change (s_ "%d" ++ ?x) with ("%"%char :: "d"%char :: x). cbn [strftime tm_mday shown]. rewrite IH. f_equal. apply dec2_pad. lia.
    - change (s_ "%H" ++ ?x) with ("%"%char :: "H"%char :: x). cbn [strftime tm_hour shown]. rewrite IH. f_equal. apply dec2_pad. lia.
    - change (s_ "%M" ++ ?x) with ("%"%char :: "M"%char :: x). cbn [strftime tm_min shown]. rewrite IH. f_equal. apply dec2_pad. lia.
    - change (s_ "%S" ++ ?x) with ("%"%char :: "S"%char :: x). cbn [strftime tm_sec shown]. rewrite IH. f_equal. apply dec2_pad. lia.
    - change (s_ "%%" ++ ?x) with ("%"%char :: "%"%char :: x). cbn [strftime]. now rewrite IH. }
  exact E.
Qed.
Lemma formats_dec : forall other (ps : list piece) (t y m d h mi s us : Z), moment t y m d h mi s us -> Forall ordinary ps ->
  let text := concat (map (stands_for (dec y) m d h mi s) ps) in
  (length text < 256)%nat -> to_string other (concat (map spelled ps)) t = Ret text.
Proof.
  intros other ps t y m d h mi s us Mo F. destruct (moment_ranges _ _ _ _ _ _ _ _ Mo) as (Y & M & D & _).
  destruct (dec_ok y ltac:(lia)) as (V1 & V2 & V3 & V4). cbv zeta.
  set (text := concat (map (stands_for (dec y) m d h mi s) ps)). intro L. unfold to_string. rewrite (time_text_dec other ps t y m d h mi s us Mo F). fold text. destruct Mo as ((H & MI & S & _) & _).
  destruct (Nat.leb_spec 256 (length text)) as [X|_]; [lia|]. f_equal. apply c_str_id. unfold text.
  intro I. apply in_concat in I as (x & I & J). apply in_map_iff in I as (p & <- & I). rewrite Forall_forall in F. apply F in I.
  destruct p; cbn [stands_for ordinary] in I, J.
  - destruct J as [J|[]]. destruct I. congruence.
  - exact (digits_no_nul _ V2 J).
  - exact (dec2_no_nul m ltac:(lia) J).
  - exact (dec2_no_nul d ltac:(lia) J).
  - exact (dec2_no_nul h ltac:(lia) J).
  - exact (dec2_no_nul mi ltac:(lia) J).
  - exact (dec2_no_nul s ltac:(lia) J).
  - destruct J as [J|[]]. discriminate.
Qed.
(** C104. Whatever the format is made of: the text of a moment is the format with each conversion
    replaced by the year, month, day, hour, minute or second of that moment in UTC. Missing: texts of 256
    bytes and more (refuted below), and the other conversions of strftime. *)
Theorem C104_formats_partial : forall other (ps : list piece) (t y m d h mi s us : Z), moment t y m d h mi s us -> Forall ordinary ps ->
  exists year, plain y year /\ let text := concat (map (stands_for year m d h mi s) ps) in
    ((length text < 256)%nat -> to_string other (concat (map spelled ps)) t = Ret text).
Proof.
  intros other ps t y m d h mi s us Mo F. exists (dec y). destruct (moment_ranges _ _ _ _ _ _ _ _ Mo) as (Y & M & D & _).
  destruct (dec_ok y ltac:(lia)) as (V1 & V2 & V3 & V4). split; [split; [exact V1|split; [exact V2|split; [exact V3|exact V4]]]|]. cbv zeta.
  exact (formats_dec other ps t y m d h mi s us Mo F).
Qed.
Print Assumptions C104_formats_partial.

(* ---------------- reading ---------------- *)
Lemma skip_digit c r : Time_Model.is_digit c = true -> skip_spaces (Ascii.eqb " ") (c :: r) = c :: r.
Proof. intro D. cbn [skip_spaces]. destruct (Ascii.eqb_spec " " c) as [<-|]; [discriminate|reflexivity]. Qed.
Lemma get2 low high v r : 0 <= low -> low <= v <= high -> high < 100 -> get_number low high 2 (dec2 v ++ r) = Some (v, r).
Proof.
  intros A B C. destruct (dec2_bounds v ltac:(lia)) as (D1 & D2 & D3). unfold get_number, dec2. cbn [app]. rewrite skip_digit by (now apply is_digit_dig).
  rewrite is_digit_dig, digit_val_dig by exact D1. change (2 - 1)%nat with 1%nat. cbn [more_digits]. rewrite is_digit_dig, digit_val_dig by exact D2.
  destruct (Z.leb_spec (v / 10 * 10) high) as [_|X]; [|lia]. cbn [andb]. replace (v / 10 * 10 + v mod 10) with v by lia.
  destruct (Z.leb_spec low v); [|lia]. destruct (Z.leb_spec v high); [|lia]. reflexivity.
Qed.
Lemma get4 v r : 0 <= v <= 9999 -> get_number 0 9999 4 (dec4 v ++ r) = Some (v, r).
Proof.
  intro H. destruct (dec4_digits v H) as (a & b & c & d & -> & A & B & C & D & E). unfold get_number. cbn [app]. rewrite skip_digit by exact A.
  rewrite A. change (4 - 1)%nat with 3%nat. cbn [more_digits]. rewrite B, C, D.
  apply is_digit_inv in A as [A _], B as [B _], C as [C _], D as [D _].
  destruct (Z.leb_spec (digit_val a * 10) 9999) as [_|X]; [|lia]. destruct (Z.leb_spec ((digit_val a * 10 + digit_val b) * 10) 9999) as [_|X]; [|lia].
  destruct (Z.leb_spec (((digit_val a * 10 + digit_val b) * 10 + digit_val c) * 10) 9999) as [_|X]; [|lia]. cbn [andb]. rewrite E.
  destruct (Z.leb_spec 0 v); [|lia]. destruct (Z.leb_spec v 9999); [|lia]. reflexivity.
Qed.
Section Read.
  Variable oi : ascii -> str -> tm -> option (str * tm).
  Notation then_ r x := (match x with Some (s', t') => strptime oi r s' t' | None => None end).
  Lemma pt_default s t : strptime oi default_format s t =
    then_ (s_ "-%m-%d %H:%M:%S") (number_into 0 9999 4 (fun v => set_tm_year (v - 1900)) s t).
  Proof. reflexivity. Qed.
  Lemma pt_m s t : strptime oi (s_ "-%m-%d %H:%M:%S") s t =
    then_ (s_ "%m-%d %H:%M:%S") (exact_char "-" s t).
  Proof. reflexivity. Qed.
  Lemma pt_m2 s t : strptime oi (s_ "%m-%d %H:%M:%S") s t =
    then_ (s_ "-%d %H:%M:%S") (number_into 1 12 2 (fun v => set_tm_mon (v - 1)) s t).
  Proof. reflexivity. Qed.
  Lemma pt_d s t : strptime oi (s_ "-%d %H:%M:%S") s t = then_ (s_ "%d %H:%M:%S") (exact_char "-" s t).
  Proof. reflexivity. Qed.
  Lemma pt_d2 s t : strptime oi (s_ "%d %H:%M:%S") s t = then_ (s_ " %H:%M:%S") (number_into 1 31 2 set_tm_mday s t).
  Proof. reflexivity. Qed.
  Lemma pt_sp s t : strptime oi (s_ " %H:%M:%S") s t = strptime oi (s_ "%H:%M:%S") (skip_spaces is_space s) t.
  Proof. reflexivity. Qed.
  Lemma pt_H s t : strptime oi (s_ "%H:%M:%S") s t = then_ (s_ ":%M:%S") (number_into 0 23 2 set_tm_hour s t).
  Proof. reflexivity. Qed.
  Lemma pt_M s t : strptime oi (s_ ":%M:%S") s t = then_ (s_ "%M:%S") (exact_char ":" s t).
  Proof. reflexivity. Qed.
  Lemma pt_M2 s t : strptime oi (s_ "%M:%S") s t = then_ (s_ ":%S") (number_into 0 59 2 set_tm_min s t).
  Proof. reflexivity. Qed.
  Lemma pt_S s t : strptime oi (s_ ":%S") s t = then_ (s_ "%S") (exact_char ":" s t).
  Proof. reflexivity. Qed.
  Lemma pt_S2 s t : strptime oi (s_ "%S") s t = then_ ([] : str) (number_into 0 61 2 set_tm_sec s t).
  Proof. reflexivity. Qed.
End Read.
Lemma exact_same c r t : exact_char c (c :: r) t = Some (r, t).
Proof. unfold exact_char. now rewrite Ascii.eqb_refl. Qed.
Lemma into2 low high v f r t : 0 <= low -> low <= v <= high -> high < 100 -> number_into low high 2 f (dec2 v ++ r) t = Some (r, f v t).
Proof. intros A B C. unfold number_into. now rewrite get2. Qed.
Lemma c_str_app_id a b : ~ In "000"%char a -> c_str (a ++ b) = a ++ c_str b.
Proof.
  induction a as [|c a IH]; intro N; [reflexivity|]. cbn [app c_str]. destruct (Ascii.eqb_spec c "000"); [exfalso; apply N; now left|].
  f_equal. apply IH. intro I. apply N. now right.
Qed.
Lemma dec4_no_nul v : 0 <= v <= 9999 -> ~ In "000"%char (dec4 v).
Proof.
  intros H I. unfold dec4 in I. apply in_app_iff in I as [I|I]; apply dec2_no_nul in I; auto.
  - split; [apply Z.div_pos; lia|apply Z.div_lt_upper_bound; lia].
  - apply Z.mod_pos_bound. lia.
Qed.
Lemma parse_written oi y m d h mi s junk : 0 <= y <= 9999 -> 1 <= m <= 12 -> 1 <= d <= 31 -> valid_time h mi s 0 ->
  civil_parse oi (written (dec4 y) m d h mi s ++ junk) default_format = Ret (Some (mk_civil y m d h mi s 0 0)).
Proof.
  intros Y M D (H & MI & S & _). unfold civil_parse. assert (E : c_str default_format = default_format) by reflexivity. rewrite E. clear E.
  assert (N : ~ In "000"%char (written (dec4 y) m d h mi s)).
  { assert (NA : forall a b, ~ In "000"%char a -> ~ In "000"%char b -> ~ In "000"%char (a ++ b)) by (intros a b A B I; apply in_app_iff in I as [I|I]; contradiction).
    assert (N1 : ~ In "000"%char (s_ "-")) by (intros [I|[]]; discriminate). assert (N2 : ~ In "000"%char (s_ ":")) by (intros [I|[]]; discriminate). assert (N3 : ~ In "000"%char (s_ " ")) by (intros [I|[]]; discriminate).
    unfold written. apply NA; [now apply dec4_no_nul|]. apply NA; [exact N1|]. apply NA; [apply dec2_no_nul; lia|]. apply NA; [exact N1|]. apply NA; [apply dec2_no_nul; lia|].
    apply NA; [exact N3|]. apply NA; [apply dec2_no_nul; lia|]. apply NA; [exact N2|]. apply NA; [apply dec2_no_nul; lia|]. apply NA; [exact N2|]. apply dec2_no_nul; lia. }
  rewrite (c_str_app_id _ _ N). generalize (c_str junk). clear junk. intro junk. unfold written. rewrite <- !app_assoc.
  rewrite pt_default. unfold number_into at 1. rewrite get4 by exact Y. rewrite pt_m. change (s_ "-" ++ ?x) with ("-"%char :: x). rewrite exact_same.
  rewrite pt_m2, into2 by lia. rewrite pt_d. change (s_ "-" ++ ?x) with ("-"%char :: x). rewrite exact_same. rewrite pt_d2, into2 by lia. rewrite pt_sp.
  change (s_ " " ++ ?x) with (" "%char :: x).
  assert (E : skip_spaces is_space (" "%char :: dec2 h ++ s_ ":" ++ dec2 mi ++ s_ ":" ++ dec2 s ++ junk) = dec2 h ++ s_ ":" ++ dec2 mi ++ s_ ":" ++ dec2 s ++ junk).
  { cbn [skip_spaces]. change (is_space " ") with true. cbv iota. destruct (dec2_first h (s_ ":" ++ dec2 mi ++ s_ ":" ++ dec2 s ++ junk) ltac:(unfold two; lia)) as (a & -> & A).
    cbn [skip_spaces]. assert (is_space a = false) as ->; [|reflexivity]. clear - A. destruct a as [[] [] [] [] [] [] [] []]; try reflexivity; discriminate A. }
  rewrite E. clear E. rewrite pt_H, into2 by lia. rewrite pt_M. change (s_ ":" ++ ?x) with (":"%char :: x). rewrite exact_same. rewrite pt_M2, into2 by lia.
  rewrite pt_S. change (":"%char :: dec2 s ++ junk) with (s_ ":" ++ dec2 s ++ junk). change (s_ ":" ++ ?x) with (":"%char :: x). rewrite exact_same. rewrite pt_S2, into2 by lia.
  cbn [strptime]. cbn [tm_sec tm_min tm_hour tm_mday tm_mon tm_year set_tm_sec set_tm_min set_tm_hour set_tm_mday set_tm_mon set_tm_year tm0].
  unfold byte. rewrite !Z.mod_small by lia. do 3 f_equal; lia.
Qed.

Lemma dec2_inj_nat a b : 0 <= a < 100 -> 0 <= b < 100 -> a < b -> text_before (dec2 a) (dec2 b).
Proof.
  intros A B L. destruct (dec2_bounds a ltac:(lia)) as (A1 & A2 & A3), (dec2_bounds b ltac:(lia)) as (B1 & B2 & B3). unfold dec2.
  destruct (Z.eq_dec (a / 10) (b / 10)) as [E|E].
  - exists [dig (a / 10)], (dig (a mod 10)), (dig (b mod 10)), [], []. split; [reflexivity|]. split; [now rewrite E|]. rewrite !nat_of_dig by lia. lia.
  - exists [], (dig (a / 10)), (dig (b / 10)), [dig (a mod 10)], [dig (b mod 10)]. split; [reflexivity|]. split; [reflexivity|]. rewrite !nat_of_dig by lia. lia.
Qed.
Lemma before_app a b r r' : text_before a b -> text_before (a ++ r) (b ++ r').
Proof.
  intros (p & x & y & u & v & -> & -> & L). exists p, x, y, (u ++ r), (v ++ r'). rewrite <- !app_assoc. cbn [app]. auto.
Qed.
Lemma before_same p a b : text_before a b -> text_before (p ++ a) (p ++ b).
Proof. intros (q & x & y & u & v & -> & -> & L). exists (p ++ q), x, y, u, v. rewrite <- !app_assoc. auto. Qed.
Lemma dec4_before a b : 0 <= a -> b <= 9999 -> a < b -> text_before (dec4 a) (dec4 b).
Proof.
  intros A B L. pose proof (Z.div_mod a 100 ltac:(lia)). pose proof (Z.div_mod b 100 ltac:(lia)). pose proof (Z.mod_pos_bound a 100 ltac:(lia)). pose proof (Z.mod_pos_bound b 100 ltac:(lia)).
  assert (0 <= a / 100 < 100) by (split; [apply Z.div_pos; lia|apply Z.div_lt_upper_bound; lia]).
  assert (0 <= b / 100 < 100) by (split; [apply Z.div_pos; lia|apply Z.div_lt_upper_bound; lia]).
  unfold dec4. destruct (Z.eq_dec (a / 100) (b / 100)) as [E|E].
  - rewrite E. apply before_same, dec2_inj_nat; lia.
  - apply before_app, dec2_inj_nat; lia.
Qed.


Lemma dec_length f : forall n, (length (dec_ f n) <= f)%nat.
Proof. induction f as [|f IH]; intro n; cbn [dec_]; [cbn; lia|]. rewrite app_length. cbn [length]. specialize (IH (n / 10)). destruct (n <? 10); cbn [length]; lia. Qed.
Lemma year_short t y m d h mi s us : moment t y m d h mi s us -> t < 2 ^ 64 -> y < 600000 /\ (length (dec y) <= 20)%nat.
Proof.
  intros Mo T. destruct (moment_ranges _ _ _ _ _ _ _ _ Mo) as (Y & _ & _ & V). destruct Mo as ((H & MI & S & _) & U & n & N & ->).
  apply day_number_count in N as (_ & _ & C & _). pose proof (valid_in_year _ _ _ V). pose proof (year_days_bound y Y). unfold count in C. unfold instant in T.
  assert (B : y < 600000) by lia. split; [exact B|]. unfold dec. eapply Nat.le_trans; [apply dec_length|].
  assert (Z.log2 y < 20) by (apply Z.log2_lt_pow2; lia). pose proof (Z.log2_nonneg y). lia.
Qed.
Lemma to_string_default other t y m d h mi s us : moment t y m d h mi s us -> t < 2 ^ 64 ->
  to_string other default_format t = Ret (written (dec y) m d h mi s).
Proof.
  intros Mo T. destruct (year_short _ _ _ _ _ _ _ _ Mo T) as [_ L].
  pose proof (formats_dec other [Year; Plain "-"; Month; Plain "-"; Day; Plain " "; Hour; Plain ":"; Minute; Plain ":"; Second] t y m d h mi s us Mo) as E.
  cbv zeta in E.
  assert (X : written (dec y) m d h mi s = concat (map (stands_for (dec y) m d h mi s) [Year; Plain "-"; Month; Plain "-"; Day; Plain " "; Hour; Plain ":"; Minute; Plain ":"; Second]))
    by (unfold written; cbn [map stands_for concat]; rewrite app_nil_r; reflexivity).
  rewrite X. apply E.
  - repeat constructor; cbn; try discriminate; auto.
  - cbn [map stands_for concat]. rewrite !app_length. unfold dec2. cbn [length s_ list_ascii_of_string]. lia.
Qed.

(** C104. Every moment of 64 bits has a date and a time of day, and this is what is printed. *)
Theorem C104_printed : forall other (t : Z), 0 <= t < 2 ^ 64 ->
  exists y m d h mi s us year, moment t y m d h mi s us /\ plain y year /\ (y <= 9999 -> year = dec4 y) /\
    to_string other default_format t = Ret (written year m d h mi s).
Proof.
  intros other t [T0 T]. destruct (moment_exists t T0) as (y & m & d & h & mi & s & us & Mo). exists y, m, d, h, mi, s, us, (dec y).
  destruct (moment_ranges _ _ _ _ _ _ _ _ Mo) as (Y & _). destruct (dec_ok y ltac:(lia)) as (V1 & V2 & V3 & V4).
  split; [exact Mo|]. split; [split; [exact V1|split; [exact V2|split; [exact V3|exact V4]]]|]. split; [intro; apply dec_dec4; lia|].
  now apply (to_string_default other _ _ _ _ _ _ _ us).
Qed.
Print Assumptions C104_printed.

(** C104. Up to the year 9999, reading a printed time gives it back, in whole seconds. Missing: later
    years (refuted below). *)
Theorem C104_round_trip_partial : forall out inp (t y m d h mi s us : Z), moment t y m d h mi s us -> y <= 9999 ->
  exists text, to_string out default_format t = Ret text /\ time_parse inp text default_format = Ret (Some (t - us)).
Proof.
  intros out inp t y m d h mi s us Mo Y9. destruct (moment_ranges _ _ _ _ _ _ _ _ Mo) as (Y & M & D & V). pose proof Mo as (TT & U & n & N & ->).
  pose proof TT as (H & MI & S & _). pose proof N as N'. apply day_number_count in N' as (_ & _ & C & _). pose proof (count_bound y m d Y ltac:(lia) V) as B.
  eexists. split; [apply (to_string_default out _ _ _ _ _ _ _ us Mo); unfold instant; lia|].
  rewrite dec_dec4 by lia. unfold time_parse. rewrite <- (app_nil_r (written _ _ _ _ _ _)). rewrite parse_written by (auto; lia). cbn [bind]. do 2 f_equal.
  rewrite (C29_exact_partial y m d h mi s 0 0 n); auto; try lia. unfold instant. lia.
Qed.
Print Assumptions C104_round_trip_partial.
(** C104. A time from the year 10000 on is printed and not read back. *)
Theorem C104_year_10000_refuted : forall out inp (t y m d h mi s us : Z), moment t y m d h mi s us -> t < 2 ^ 64 -> 10000 <= y ->
  exists text, to_string out default_format t = Ret text /\ time_parse inp text default_format = Ret None.
Proof.
  intros out inp t y m d h mi s us Mo T Y. eexists. split; [now apply (to_string_default out _ _ _ _ _ _ _ us Mo)|].
  destruct (year_short _ _ _ _ _ _ _ _ Mo T) as [Y6 _].
  (* five or six digits: four are read, then there is no minus sign *)
  assert (E : exists a b c e f r, dec y = a :: b :: c :: e :: f :: r /\ forallb Time_Model.is_digit [a; b; c; e; f] = true).
  { destruct (dec_ok y ltac:(lia)) as (V1 & V2 & V3 & V4). remember (dec y) as l eqn:L. clear L. unfold value in V1.
    destruct l as [|a [|b [|c [|e [|f r]]]]]; cbn [fold_left] in V1; try congruence.
    1,2,3,4: exfalso; repeat match goal with H : Forall _ (_ :: _) |- _ => inversion H; clear H; subst end; unfold Dec.is_digit in *; lia.
    exists a, b, c, e, f, r. split; [reflexivity|]. cbn [forallb].
    assert (G : forall x, Dec.is_digit x -> Time_Model.is_digit x = true). { intros x [X1 X2]. unfold Time_Model.is_digit. cbv zeta. apply andb_true_iff. split; apply Nat.leb_le; lia. }
    repeat match goal with H : Forall _ (_ :: _) |- _ => inversion H; clear H; subst end. rewrite !G by assumption. reflexivity. }
  destruct E as (a & b & c & e & f & r & E & G). cbn [forallb] in G. apply andb_true_iff in G as [A G]. apply andb_true_iff in G as [B G]. apply andb_true_iff in G as [C G]. apply andb_true_iff in G as [D G]. apply andb_true_iff in G as [F _].
  unfold time_parse, civil_parse. change (c_str default_format) with default_format. unfold written. rewrite E.
  assert (NZ : forall x, Time_Model.is_digit x = true -> Ascii.eqb x "000" = false). { intros x X. destruct (Ascii.eqb_spec x "000") as [->|]; [discriminate|reflexivity]. }
  cbn [app c_str]. rewrite !NZ by assumption. rewrite pt_default. unfold number_into at 1. unfold get_number. rewrite skip_digit by exact A. rewrite A. change (4 - 1)%nat with 3%nat. cbn [more_digits].
  rewrite B, C, D. apply is_digit_inv in A as [A _], B as [B _], C as [C _], D as [D _].
  destruct (Z.leb_spec (digit_val a * 10) 9999) as [_|X]; [|lia]. destruct (Z.leb_spec ((digit_val a * 10 + digit_val b) * 10) 9999) as [_|X]; [|lia].
  destruct (Z.leb_spec (((digit_val a * 10 + digit_val b) * 10 + digit_val c) * 10) 9999) as [_|X]; [|lia]. cbn [andb].
  match goal with |- context [(0 <=? ?v)] => destruct (Z.leb_spec 0 v) as [_|X]; [|lia]; destruct (Z.leb_spec v 9999) as [_|X]; [|lia] end. cbn [andb].
  rewrite pt_m. unfold exact_char. destruct (Ascii.eqb_spec f "-") as [->|_]; [discriminate|]. reflexivity.
Qed.
Print Assumptions C104_year_10000_refuted.

(** C104. Up to the year 9999 the printed times are in the order of the times. *)
Theorem C104_order : forall out (t y m d h mi s us t' y' m' d' h' mi' s' us' : Z),
  moment t y m d h mi s us -> moment t' y' m' d' h' mi' s' us' -> y' <= 9999 -> t / 1000000 < t' / 1000000 ->
  exists a b, to_string out default_format t = Ret a /\ to_string out default_format t' = Ret b /\ text_before a b.
Proof.
  intros out t y m d h mi s us t' y' m' d' h' mi' s' us' Mo Mo' Y9 L.
  destruct (moment_ranges _ _ _ _ _ _ _ _ Mo) as (Y & M & D & V). destruct (moment_ranges _ _ _ _ _ _ _ _ Mo') as (Y' & M' & D' & V').
  pose proof Mo as ((H & MI & S & _) & U & n & N & E). pose proof Mo' as ((H' & MI' & S' & _) & U' & n' & N' & E').
  apply day_number_count in N as (_ & _ & C & _). apply day_number_count in N' as (_ & _ & C' & _). pose proof (count_bound y' m' d' Y' ltac:(lia) V') as B.
  assert (Q : t / 1000000 = n * 86400 + h * 3600 + mi * 60 + s). { rewrite E. symmetry. apply (Z.div_unique _ _ _ us); [lia|]. unfold instant. lia. }
  assert (Q' : t' / 1000000 = n' * 86400 + h' * 3600 + mi' * 60 + s'). { rewrite E'. symmetry. apply (Z.div_unique _ _ _ us'); [lia|]. unfold instant. lia. }
  assert (LN : n <= n') by lia.
  assert (NM : ~ (y' < y \/ (y' = y /\ (m' < m \/ (m' = m /\ d' < d))))). { intro X. pose proof (count_mono _ _ _ _ _ _ Y' V' V X). lia. }
  do 2 eexists. split; [apply (to_string_default out _ _ _ _ _ _ _ us Mo); rewrite E; unfold instant; lia|].
  split; [apply (to_string_default out _ _ _ _ _ _ _ us' Mo'); rewrite E'; unfold instant; lia|].
  rewrite !dec_dec4 by lia. unfold written.
  destruct (Z.eq_dec y y') as [<-|]; [|apply before_app, dec4_before; lia]. apply before_same, before_same.
  destruct (Z.eq_dec m m') as [<-|]; [|apply before_app, dec2_inj_nat; lia]. apply before_same, before_same.
  destruct (Z.eq_dec d d') as [<-|]; [|apply before_app, dec2_inj_nat; lia]. apply before_same, before_same. assert (n = n') by lia. subst n'.
  destruct (Z.eq_dec h h') as [<-|]; [|apply before_app, dec2_inj_nat; lia]. apply before_same, before_same.
  destruct (Z.eq_dec mi mi') as [<-|]; [|apply before_app, dec2_inj_nat; lia]. apply before_same, before_same.
  apply dec2_inj_nat; lia.
Qed.
Print Assumptions C104_order.

Lemma more_sound high : forall k v s v' r, more_digits high k v s = (v', r) ->
  exists ds, s = ds ++ r /\ (length ds <= k)%nat /\ Forall Dec.is_digit ds /\ fold_left (fun a c => a * 10 + (Z.of_nat (nat_of_ascii c) - 48)) ds v = v'.
Proof.
  induction k as [|k IH]; intros v s v' r E.
  - cbn in E. injection E as <- <-. exists []. repeat split; auto.
  - destruct s as [|c s]; [cbn in E; injection E as <- <-; exists []; repeat split; [cbn; lia|constructor]|]. cbn [more_digits] in E.
    destruct ((v * 10 <=? high) && Time_Model.is_digit c) eqn:G.
    + apply andb_true_iff in G as [_ G]. destruct (IH _ _ _ _ E) as (ds & -> & L & F & X). exists (c :: ds). split; [reflexivity|]. split; [cbn; lia|].
      split; [|exact X]. constructor; [|exact F]. unfold Time_Model.is_digit in G. cbv zeta in G. apply andb_true_iff in G as [G1 G2]. apply Nat.leb_le in G1, G2. split; assumption.
    + injection E as <- <-. exists []. repeat split; [cbn; lia|constructor].
Qed.
Lemma skip_sound p s : exists a, s = a ++ skip_spaces p s /\ Forall (fun c => p c = true) a.
Proof.
  induction s as [|c s (a & E & F)]; [exists []; auto|]. cbn [skip_spaces]. destruct (p c) eqn:P; [|exists []; auto].
  exists (c :: a). cbn [app]. split; [now f_equal|]. now constructor.
Qed.
Lemma into_sound low high w f s t s' t' : (1 <= w)%nat -> number_into low high w f s t = Some (s', t') ->
  exists v x, s = x ++ s' /\ loose low high w v x /\ t' = f v t.
Proof.
  intros W E. unfold number_into in E. destruct (get_number low high w s) as [[v r]|] eqn:G; [|discriminate]. injection E as <- <-.
  unfold get_number in G. destruct (skip_sound (Ascii.eqb " ") s) as (a & Es & Fa). destruct (skip_spaces (Ascii.eqb " ") s) as [|c q]; [discriminate|].
  destruct (Time_Model.is_digit c) eqn:D; [|discriminate]. destruct (more_digits high (w - 1) (digit_val c) q) as [v' r'] eqn:Mo.
  destruct ((low <=? v') && (v' <=? high)) eqn:B; [|discriminate]. injection G as <- <-. apply andb_true_iff in B as [B1 B2]. apply Z.leb_le in B1, B2.
  destruct (more_sound _ _ _ _ _ _ Mo) as (ds & -> & L & F & X). exists v', (a ++ c :: ds). split; [rewrite Es, <- app_assoc; reflexivity|]. split; [|reflexivity].
  exists (length a), (c :: ds). split.
  { f_equal. clear - Fa. induction Fa as [|x a P _ IH]; [reflexivity|]. cbn [length repeat]. apply Ascii.eqb_eq in P. now subst x; f_equal. }
  split; [cbn [length]; lia|]. split.
  { constructor; [|exact F]. unfold Time_Model.is_digit in D. cbv zeta in D. apply andb_true_iff in D as [G1 G2]. apply Nat.leb_le in G1, G2. split; assumption. }
  split; [|split; assumption]. exact X.
Qed.
Lemma exact_sound c s t s' t' : exact_char c s t = Some (s', t') -> s = c :: s' /\ t' = t.
Proof. unfold exact_char. destruct s as [|x s]; [discriminate|]. destruct (Ascii.eqb_spec x c) as [->|]; [|discriminate]. intro E. injection E as <- <-. auto. Qed.

(** C104. What is read as a time has the six numbers in their order and ranges, with the separators
    between them; the result is the instant these numbers denote. *)
Theorem C104_accepted : forall inp (text : str) (t : Z), time_parse inp text default_format = Ret (Some t) ->
  exists y m d h mi s yt mt dt ht mit st blanks rest,
    c_str text = yt ++ s_ "-" ++ mt ++ s_ "-" ++ dt ++ blanks ++ ht ++ s_ ":" ++ mit ++ s_ ":" ++ st ++ rest /\
    loose 0 9999 4 y yt /\ loose 1 12 2 m mt /\ loose 1 31 2 d dt /\ blank_text blanks /\
    loose 0 23 2 h ht /\ loose 0 59 2 mi mit /\ loose 0 61 2 s st /\ t = unix_time (mk_civil y m d h mi s 0 0).
Proof.
  intros inp text t E. unfold time_parse, civil_parse in E. change (c_str default_format) with default_format in E.
  destruct (strptime inp default_format (c_str text) tm0) as [tt|] eqn:P; [|discriminate E].
  rewrite pt_default in P. destruct (number_into 0 9999 4 _ (c_str text) tm0) as [[s1 t1]|] eqn:E1; [|discriminate]. apply into_sound in E1 as (y & yt & -> & Ly & ->); [|lia].
  rewrite pt_m in P. destruct (exact_char "-" s1 _) as [[s2 t2]|] eqn:E2; [|discriminate]. apply exact_sound in E2 as [-> ->].
  rewrite pt_m2 in P. destruct (number_into 1 12 2 _ s2 _) as [[s3 t3]|] eqn:E3; [|discriminate]. apply into_sound in E3 as (m & mt & -> & Lm & ->); [|lia].
  rewrite pt_d in P. destruct (exact_char "-" s3 _) as [[s4 t4]|] eqn:E4; [|discriminate]. apply exact_sound in E4 as [-> ->].
  rewrite pt_d2 in P. destruct (number_into 1 31 2 _ s4 _) as [[s5 t5]|] eqn:E5; [|discriminate]. apply into_sound in E5 as (d & dt & -> & Ld & ->); [|lia].
  rewrite pt_sp in P. destruct (skip_sound is_space s5) as (bl & Es & Fb). revert P. set (s5' := skip_spaces is_space s5) in *. clearbody s5'. subst s5. intro P.
  rewrite pt_H in P. destruct (number_into 0 23 2 _ s5' _) as [[s6 t6]|] eqn:E6; [|discriminate]. apply into_sound in E6 as (h & ht & -> & Lh & ->); [|lia].
  rewrite pt_M in P. destruct (exact_char ":" s6 _) as [[s7 t7]|] eqn:E7; [|discriminate]. apply exact_sound in E7 as [-> ->].
  rewrite pt_M2 in P. destruct (number_into 0 59 2 _ s7 _) as [[s8 t8]|] eqn:E8; [|discriminate]. apply into_sound in E8 as (mi & mit & -> & Lmi & ->); [|lia].
  rewrite pt_S in P. destruct (exact_char ":" s8 _) as [[s9 t9]|] eqn:E9; [|discriminate]. apply exact_sound in E9 as [-> ->].
  rewrite pt_S2 in P. destruct (number_into 0 61 2 _ s9 _) as [[s10 t10]|] eqn:E10; [|discriminate]. apply into_sound in E10 as (s & st & -> & Ls & ->); [|lia].
  cbn [strptime] in P. injection P as <-. cbn [tm_sec tm_min tm_hour tm_mday tm_mon tm_year set_tm_sec set_tm_min set_tm_hour set_tm_mday set_tm_mon set_tm_year tm0 bind] in E.
  injection E as <-. exists y, m, d, h, mi, s, yt, mt, dt, ht, mit, st, bl, s10.
  split; [reflexivity|]. do 3 (split; [assumption|]). split.
  { unfold blank_text. eapply Forall_impl; [|exact Fb]. intros c X. apply existsb_exists in X as (z & I & Q). apply Ascii.eqb_eq in Q. now subst. }
  do 3 (split; [assumption|]). unfold byte.
  destruct Ly as (? & ? & _ & _ & _ & _ & Ly), Lm as (? & ? & _ & _ & _ & _ & Lm), Ld as (? & ? & _ & _ & _ & _ & Ld), Lh as (? & ? & _ & _ & _ & _ & Lh), Lmi as (? & ? & _ & _ & _ & _ & Lmi), Ls as (? & ? & _ & _ & _ & _ & Ls).
  rewrite !Z.mod_small by lia. do 2 f_equal; lia.
Qed.
Print Assumptions C104_accepted.
(** C104. Text after the seconds is not noticed. *)
Theorem C104_junk_refuted : forall out inp (t y m d h mi s us : Z) (junk : str), moment t y m d h mi s us -> y <= 9999 ->
  exists text, to_string out default_format t = Ret text /\ time_parse inp (text ++ junk) default_format = Ret (Some (t - us)).
Proof.
  intros out inp t y m d h mi s us junk Mo Y9. destruct (moment_ranges _ _ _ _ _ _ _ _ Mo) as (Y & M & D & V). pose proof Mo as (TT & U & n & N & ->).
  pose proof TT as (H & MI & S & _). pose proof N as N'. apply day_number_count in N' as (_ & _ & C & _). pose proof (count_bound y m d Y ltac:(lia) V) as B.
  eexists. split; [apply (to_string_default out _ _ _ _ _ _ _ us Mo); unfold instant; lia|].
  rewrite dec_dec4 by lia. unfold time_parse. rewrite parse_written by (auto; lia). cbn [bind]. do 2 f_equal.
  rewrite (C29_exact_partial y m d h mi s 0 0 n); auto; try lia. unfold instant. lia.
Qed.
Print Assumptions C104_junk_refuted.
(** C104. A format without all six numbers makes the reader use memory that was never written. *)
Theorem C104_short_format_refuted : forall inp (y : Z), 0 <= y <= 9999 -> time_parse inp (dec4 y) (s_ "%Y") = UB.
Proof.
  intros inp y Y. unfold time_parse, civil_parse. rewrite (c_str_id (dec4 y)) by (now apply dec4_no_nul). change (c_str (s_ "%Y")) with (s_ "%Y").
  change (strptime inp (s_ "%Y") (dec4 y) tm0) with (match number_into 0 9999 4 (fun v => set_tm_year (v - 1900)) (dec4 y) tm0 with Some (s', t') => strptime inp [] s' t' | None => None end).
  unfold number_into. rewrite <- (app_nil_r (dec4 y)), get4 by exact Y. reflexivity.
Qed.
Print Assumptions C104_short_format_refuted.
(** C104. A text of 256 bytes or more does not fit the buffer: what is returned is unspecified. *)
Theorem C104_long_refuted : forall out (fmt : str) (t : Z), ~ In "%"%char fmt -> ~ In "000"%char fmt -> (256 <= length fmt)%nat -> to_string out fmt t = UB.
Proof.
  intros out fmt t P N L. unfold to_string, time_text. rewrite c_str_id by exact N. assert (E : forall x, strftime out fmt x = fmt).
  { intro x. clear N L. induction fmt as [|c f IH]; [reflexivity|]. rewrite strftime_plain by (intros ->; apply P; now left). f_equal. apply IH. intro I. apply P. now right. }
  rewrite E. destruct (Nat.leb_spec 256 (length fmt)); [reflexivity|lia].
Qed.
Print Assumptions C104_long_refuted.
(** C104. Axis labels: the label of a number of seconds is the date and time that many seconds after the
    epoch. *)
Theorem C104_labels : forall out (stod : str -> option xr) (i : nat) (txt : str) (v : R) (y m d h mi s us : Z),
  stod txt = Some (Fin v) -> (0 <= v < 18446744073709)%R ->
  moment (Flocq.Core.Raux.Zfloor v * 1000000) y m d h mi s us -> y <= 9999 ->
  format_datetime exact stod (time_text out) default_format i txt = Ret (written (dec4 y) m d h mi s).
Proof.
  intros out stod i txt v y m d h mi s us E B Mo Y. rewrite (C50_datetime_partial _ _ _ _ _ _ E B). f_equal.
  destruct (moment_ranges _ _ _ _ _ _ _ _ Mo) as (Y0 & _). rewrite <- dec_dec4 by lia.
  pose proof (time_text_dec out [Year; Plain "-"; Month; Plain "-"; Day; Plain " "; Hour; Plain ":"; Minute; Plain ":"; Second] _ _ _ _ _ _ _ _ Mo) as R.
  rewrite Z.div_mul in R by lia. cbn [map stands_for concat] in R. rewrite app_nil_r in R. apply R. repeat constructor; cbn; try discriminate; auto.
Qed.
Print Assumptions C104_labels.

Example C104_case : moment 2678461000007 1970 2 1 0 1 1 7 /\ to_string (fun _ _ => []) default_format 2678461000007 = Ret (s_ "1970-02-01 00:01:01") /\
  time_parse (fun _ _ _ => None) (s_ "1970-02-01 00:01:01") default_format = Ret (Some 2678461000000) /\
  time_parse (fun _ _ _ => None) (s_ "1970- 2-1   0:1:1 o'clock") default_format = Ret (Some 2678461000000) /\
  time_parse (fun _ _ _ => None) (s_ "1970-02-01 24:00:00") default_format = Ret None /\
  to_string (fun _ _ => []) (s_ "%d.%m.%Y 100%%") 2678461000007 = Ret (s_ "01.02.1970 100%").
Proof.
  split; [|repeat split; vm_compute; reflexivity]. split; [unfold valid_time; lia|]. split; [lia|]. exists 31. split; [exact (gm_days 31)|reflexivity].
Qed.
