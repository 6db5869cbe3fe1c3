(** C109: numbers with metric prefixes. *)
From Coq Require Import Reals Lra ZArith.
From Flocq Require Import Core.
From Verif Require Import Base Num Num_Facts Dec Svg_Spec Format_Model Format_Proofs Metric_Model.
Local Open Scope R_scope.

(* ---------------- specification ---------------- *)
(** The prefix for a number, what it stands for, and the number of digits after the point. *)
Definition prefixes : list (str * R * nat) :=
  [(s_ "p", / 10 ^ 12, 1%nat); (s_ "n", / 10 ^ 9, 1%nat); (s_ "μ", / 10 ^ 6, 1%nat); (s_ "m", / 10 ^ 3, 1%nat); ([], 1, 2%nat); ([], 1, 1%nat);
   (s_ "K", 10 ^ 3, 1%nat); (s_ "M", 10 ^ 6, 1%nat); (s_ "G", 10 ^ 9, 1%nat); (s_ "T", 10 ^ 12, 1%nat)].
(** Below which number the prefix is used (the last one: for all others). *)
Definition limits : list R := [/ 10 ^ 9; / 10 ^ 6; / 10 ^ 3; / 10; 10; 10 ^ 3; 10 ^ 6; 10 ^ 9; 10 ^ 12].
Definition prefix_for (x : R) (i : nat) : Prop :=
  (forall j l, (j < i)%nat -> nth_error limits j = Some l -> l <= Rabs x) /\ (forall l, nth_error limits i = Some l -> Rabs x < l) /\ (i <= 9)%nat.
(** The text is a decimal number with so many digits, and then the prefix. *)
Definition shows (t : str) (x : R) (prefix : str) (unit : R) (digits : nat) : Prop :=
  exists number q, t = number ++ prefix /\ read_decimal number = Some q /\ snd q = digits /\ Rabs (dval q * unit - x) <= unit / 2 / 10 ^ digits.

(* ---------------- lengths ---------------- *)
Lemma dec_short f : forall n k, (0 <= n < 10 ^ Z.of_nat (S k))%Z -> (length (dec_ f n) <= S k)%nat.
Proof.
  induction f as [|f IH]; intros n k H; cbn [dec_]; [cbn; lia|]. rewrite app_length. cbn [length]. destruct (Z.ltb_spec n 10); [cbn; lia|].
  destruct k as [|k]; [cbn in H; lia|]. assert (length (dec_ f (n / 10)) <= S k)%nat; [|lia]. apply IH. split; [apply Z.div_pos; lia|].
  apply Z.div_lt_upper_bound; [lia|]. rewrite Nat2Z.inj_succ, Z.pow_succ_r in H by lia. lia.
Qed.
Lemma fixed_short p x k : Rabs x <= 10 ^ k -> (length (fixed_real p x) <= k + 3 + p)%nat.
Proof.
  intro H. unfold fixed_real. set (n := ZnearestE (Rabs x * 10 ^ p)). cbv zeta. rewrite !app_length.
  assert (TP : 0 < 10 ^ p) by (apply pow_lt; lra). pose proof (Rabs_pos x) as PX.
  assert (P : (0 <= n <= 10 ^ Z.of_nat k * 10 ^ Z.of_nat p)%Z).
  { unfold n. split.
    - replace 0%Z with (ZnearestE 0) by (apply (@Zrnd_IZR ZnearestE (valid_rnd_N _) 0)).
      apply (@Zrnd_le ZnearestE (valid_rnd_N _)). apply Rmult_le_pos; lra.
    - rewrite <- (@Zrnd_IZR ZnearestE (valid_rnd_N _) (10 ^ Z.of_nat k * 10 ^ Z.of_nat p)). apply (@Zrnd_le ZnearestE (valid_rnd_N _)).
      rewrite mult_IZR, <- !pow_IZR. apply Rmult_le_compat_r; lra. }
  assert (D : (length (dec (n / 10 ^ Z.of_nat p)) <= S k)%nat).
  { apply dec_short. assert (0 < 10 ^ Z.of_nat p)%Z by (apply Z.pow_pos_nonneg; lia). split; [apply Z.div_pos; lia|].
    apply Z.le_lt_trans with (10 ^ Z.of_nat k)%Z; [apply Z.div_le_upper_bound; lia|]. apply Z.pow_lt_mono_r; lia. }
  destruct (Rlt_dec x 0); (destruct p as [|p]; [cbn [length s_ list_ascii_of_string]; lia|]); rewrite app_length, digits_len; cbn [length s_ list_ascii_of_string]; lia.
Qed.
Lemma value_bound s : Forall is_digit s -> (0 <= value s < 10 ^ Z.of_nat (length s))%Z.
Proof.
  induction s as [|a s IH] using rev_ind; intro F; [cbn; lia|]. apply Forall_app in F. destruct F as (F & A). inversion A as [|? ? D _]; subst. specialize (IH F).
  unfold value in *. rewrite fold_left_app. cbn [fold_left]. rewrite app_length. cbn [length]. replace (length s + 1)%nat with (S (length s)) by lia. rewrite Nat2Z.inj_succ, Z.pow_succ_r by lia.
  unfold is_digit in D. lia.
Qed.
Lemma fixed_long p x k : 10 ^ k <= Rabs x -> (k < length (fixed_real p x))%nat.
Proof.
  intro H. unfold fixed_real. set (n := ZnearestE (Rabs x * 10 ^ p)). cbv zeta. rewrite !app_length.
  assert (TP : 0 < 10 ^ p) by (apply pow_lt; lra).
  assert (P : (10 ^ Z.of_nat k * 10 ^ Z.of_nat p <= n)%Z).
  { unfold n. rewrite <- (@Zrnd_IZR ZnearestE (valid_rnd_N _) (10 ^ Z.of_nat k * 10 ^ Z.of_nat p)). apply (@Zrnd_le ZnearestE (valid_rnd_N _)).
    rewrite mult_IZR, <- !pow_IZR. apply Rmult_le_compat_r; lra. }
  assert (0 < 10 ^ Z.of_nat p)%Z by (apply Z.pow_pos_nonneg; lia). assert (0 < 10 ^ Z.of_nat k)%Z by (apply Z.pow_pos_nonneg; lia).
  assert (Q : (10 ^ Z.of_nat k <= n / 10 ^ Z.of_nat p)%Z) by (apply Z.div_le_lower_bound; lia).
  destruct (dec_ok (n / 10 ^ Z.of_nat p) ltac:(lia)) as (V & F & _). apply value_bound in F. rewrite V in F.
  assert (Z.of_nat k < Z.of_nat (length (dec (n / 10 ^ Z.of_nat p))))%Z; [|lia]. apply (Z.pow_lt_mono_r_iff 10); lia.
Qed.

Lemma shows_fixed p x y unit prefix : 0 < unit -> y * unit = x -> shows (fixed p (Fin y) ++ prefix) x prefix unit p.
Proof.
  intros U E. destruct (fixed_ok p y) as (q & R & S & B). exists (fixed_real p y), q. split; [reflexivity|]. split; [exact R|]. split; [exact S|].
  replace (dval q * unit - x) with ((dval q - y) * unit) by (rewrite <- E; ring). rewrite Rabs_mult, (Rabs_pos_eq unit) by lra.
  replace (unit / 2 / 10 ^ p) with (1 / 2 / 10 ^ p * unit) by (field; apply pow_nonzero; lra). apply Rmult_le_compat_r; [lra|exact B].
Qed.

(** C109. Zero is shown as "0". Every other number is shown with the prefix for its size and one
    digit after the point (two between 0.1 and 10), rounded to the nearest such number. Arithmetic
    without rounding; numbers up to 10^130. *)
Theorem C109_metric_partial : forall x : R, Rabs x <= 10 ^ 130 ->
  (x = 0 -> format_number_metric exact (Fin x) = Ret (s_ "0")) /\
  (x <> 0 -> exists i prefix unit digits t, prefix_for x i /\ nth_error prefixes i = Some (prefix, unit, digits) /\
     format_number_metric exact (Fin x) = Ret t /\ shows t x prefix unit digits).
Proof.
  intros x B. unfold format_number_metric, metric_text, c, xabs. repeat match goal with |- context [Fin (exact ?v)] => change (exact v) with v end.
  split.
  { intros ->. rewrite Rabs_R0. unfold xeq. destruct (Req_EM_T 0 0); [reflexivity|lra]. }
  intro NZ. pose proof (Rabs_pos_lt x NZ) as AP.
  assert (N0 : xeq (Fin (Rabs x)) (Fin 0) = false) by (unfold xeq; destruct (Req_EM_T (Rabs x) 0); [lra|reflexivity]). rewrite N0.
  assert (G : forall p y unit prefix, 0 < unit -> y * unit = x -> (p <= 2)%nat -> (length prefix <= 2)%nat -> Rabs y <= 10 ^ 120 ->
    exists t, from_buffer (fixed p (Fin y) ++ prefix) = Ret t /\ shows t x prefix unit p).
  { intros p y unit prefix U E P Lp By. exists (fixed p (Fin y) ++ prefix). split; [|now apply shows_fixed]. unfold from_buffer.
    destruct (Nat.leb_spec (length (fixed p (Fin y) ++ prefix)) 127); [reflexivity|]. exfalso. rewrite app_length in H. pose proof (fixed_short p y 120 By). cbn [fixed] in H. lia. }
  assert (T1 : 10 ^ 3 <= 10 ^ 120) by (apply Rle_pow; [lra|lia]).
  assert (K : forall i, (forall j l, (j < i)%nat -> nth_error limits j = Some l -> l <= Rabs x) -> (forall l, nth_error limits i = Some l -> Rabs x < l) -> (i <= 9)%nat -> prefix_for x i) by (intros; now split).
  assert (C : forall i, (i <= 9)%nat -> (forall j l, (j < i)%nat -> nth_error limits j = Some l -> l <= Rabs x) ->
     forall l, nth_error limits i = Some l -> l <= Rabs x -> forall j l, (j < S i)%nat -> nth_error limits j = Some l -> l <= Rabs x).
  { intros i _ A l E Ll j l' J E'. destruct (Nat.eq_dec j i) as [->|]; [congruence|]. apply (A j); [lia|exact E']. }
  assert (A0 : forall j l, (j < 0)%nat -> nth_error limits j = Some l -> l <= Rabs x) by (intros; lia).
  Ltac small i A := let H := fresh in intros ? H; cbn [nth_error limits] in H; injection H as <-; assumption.
  destruct (xlt (Fin (Rabs x)) (Fin (/ 10 ^ 9))) eqn:L0; [apply xlt_fin in L0|apply xlt_fin_f in L0; pose proof (C 0%nat ltac:(lia) A0 _ eq_refl L0) as A1].
  { destruct (G 1%nat (x * 10 ^ 12) (/ 10 ^ 12) (s_ "p")) as (t & T & S); [lra|field|lia|cbn; lia|rewrite Rabs_mult, (Rabs_pos_eq (10 ^ 12)) by lra; lra|].
    exists 0%nat, (s_ "p"), (/ 10 ^ 12), 1%nat, t. split; [apply K; [exact A0|small 0%nat A0|lia]|]. split; [reflexivity|]. split; [exact T|exact S]. }
  destruct (xlt (Fin (Rabs x)) (Fin (/ 10 ^ 6))) eqn:L1; [apply xlt_fin in L1|apply xlt_fin_f in L1; pose proof (C 1%nat ltac:(lia) A1 _ eq_refl L1) as A2].
  { destruct (G 1%nat (x * 10 ^ 9) (/ 10 ^ 9) (s_ "n")) as (t & T & S); [lra|field|lia|cbn; lia|rewrite Rabs_mult, (Rabs_pos_eq (10 ^ 9)) by lra; lra|].
    exists 1%nat, (s_ "n"), (/ 10 ^ 9), 1%nat, t. split; [apply K; [exact A1|small 1%nat A1|lia]|]. split; [reflexivity|]. split; [exact T|exact S]. }
  destruct (xlt (Fin (Rabs x)) (Fin (/ 10 ^ 3))) eqn:L2; [apply xlt_fin in L2|apply xlt_fin_f in L2; pose proof (C 2%nat ltac:(lia) A2 _ eq_refl L2) as A3].
  { destruct (G 1%nat (x * 10 ^ 6) (/ 10 ^ 6) (s_ "μ")) as (t & T & S); [lra|field|lia|cbn; lia|rewrite Rabs_mult, (Rabs_pos_eq (10 ^ 6)) by lra; lra|].
    exists 2%nat, (s_ "μ"), (/ 10 ^ 6), 1%nat, t. split; [apply K; [exact A2|small 2%nat A2|lia]|]. split; [reflexivity|]. split; [exact T|exact S]. }
  destruct (xlt (Fin (Rabs x)) (Fin (/ 10))) eqn:L3; [apply xlt_fin in L3|apply xlt_fin_f in L3; pose proof (C 3%nat ltac:(lia) A3 _ eq_refl L3) as A4].
  { destruct (G 1%nat (x * 10 ^ 3) (/ 10 ^ 3) (s_ "m")) as (t & T & S); [lra|field|lia|cbn; lia|rewrite Rabs_mult, (Rabs_pos_eq (10 ^ 3)) by lra; lra|].
    exists 3%nat, (s_ "m"), (/ 10 ^ 3), 1%nat, t. split; [apply K; [exact A3|small 3%nat A3|lia]|]. split; [reflexivity|]. split; [exact T|exact S]. }
  destruct (xlt (Fin (Rabs x)) (Fin 10)) eqn:L4; [apply xlt_fin in L4|apply xlt_fin_f in L4; pose proof (C 4%nat ltac:(lia) A4 _ eq_refl L4) as A5].
  { destruct (G 2%nat x 1 ([] : str)) as (t & T & S); [lra|ring|lia|cbn; lia|lra|]. rewrite app_nil_r in T.
    exists 4%nat, [], 1, 2%nat, t. split; [apply K; [exact A4|small 4%nat A4|lia]|]. split; [reflexivity|]. split; [exact T|exact S]. }
  destruct (xlt (Fin (Rabs x)) (Fin (10 ^ 3))) eqn:L5; [apply xlt_fin in L5|apply xlt_fin_f in L5; pose proof (C 5%nat ltac:(lia) A5 _ eq_refl L5) as A6].
  { destruct (G 1%nat x 1 ([] : str)) as (t & T & S); [lra|ring|lia|cbn; lia|lra|]. rewrite app_nil_r in T.
    exists 5%nat, [], 1, 1%nat, t. split; [apply K; [exact A5|small 5%nat A5|lia]|]. split; [reflexivity|]. split; [exact T|exact S]. }
  rewrite !xdiv_fin by (unfold exact; lra).
  destruct (xlt (Fin (Rabs x)) (Fin (10 ^ 6))) eqn:L6; [apply xlt_fin in L6|apply xlt_fin_f in L6; pose proof (C 6%nat ltac:(lia) A6 _ eq_refl L6) as A7].
  { destruct (G 1%nat (x / 10 ^ 3) (10 ^ 3) (s_ "K")) as (t & T & S); [lra|field|lia|cbn; lia|unfold Rdiv; rewrite Rabs_mult, (Rabs_pos_eq (/ 10 ^ 3)) by lra; lra|].
    exists 6%nat, (s_ "K"), (10 ^ 3), 1%nat, t. split; [apply K; [exact A6|small 6%nat A6|lia]|]. split; [reflexivity|]. split; [exact T|exact S]. }
  destruct (xlt (Fin (Rabs x)) (Fin (10 ^ 9))) eqn:L7; [apply xlt_fin in L7|apply xlt_fin_f in L7; pose proof (C 7%nat ltac:(lia) A7 _ eq_refl L7) as A8].
  { destruct (G 1%nat (x / 10 ^ 6) (10 ^ 6) (s_ "M")) as (t & T & S); [lra|field|lia|cbn; lia|unfold Rdiv; rewrite Rabs_mult, (Rabs_pos_eq (/ 10 ^ 6)) by lra; lra|].
    exists 7%nat, (s_ "M"), (10 ^ 6), 1%nat, t. split; [apply K; [exact A7|small 7%nat A7|lia]|]. split; [reflexivity|]. split; [exact T|exact S]. }
  destruct (xlt (Fin (Rabs x)) (Fin (10 ^ 12))) eqn:L8; [apply xlt_fin in L8|apply xlt_fin_f in L8; pose proof (C 8%nat ltac:(lia) A8 _ eq_refl L8) as A9].
  { destruct (G 1%nat (x / 10 ^ 9) (10 ^ 9) (s_ "G")) as (t & T & S); [lra|field|lia|cbn; lia|unfold Rdiv; rewrite Rabs_mult, (Rabs_pos_eq (/ 10 ^ 9)) by lra; lra|].
    exists 8%nat, (s_ "G"), (10 ^ 9), 1%nat, t. split; [apply K; [exact A8|small 8%nat A8|lia]|]. split; [reflexivity|]. split; [exact T|exact S]. }
  assert (By : Rabs (x / 10 ^ 12) <= 10 ^ 120).
  { unfold Rdiv. rewrite Rabs_mult, (Rabs_pos_eq (/ 10 ^ 12)) by lra. apply (Rmult_le_reg_r (10 ^ 12)); [lra|]. rewrite Rmult_assoc, Rinv_l, Rmult_1_r by lra.
    eapply Rle_trans; [exact B|]. rewrite <- pow_add. apply Rle_pow; [lra|lia]. }
  destruct (G 1%nat (x / 10 ^ 12) (10 ^ 12) (s_ "T")) as (t & T & S); [lra|field|lia|cbn; lia|exact By|].
  exists 9%nat, (s_ "T"), (10 ^ 12), 1%nat, t. split; [apply K; [exact A9|intros l E; discriminate E|lia]|]. split; [reflexivity|]. split; [exact T|exact S].
Qed.
Print Assumptions C109_metric_partial.

(** C109, refuted: every number can be shown. From 10^140 on the text does not fit into the buffer,
    and what lies behind the buffer is read. *)
Theorem C109_overflow_refuted : forall x : R, 10 ^ 140 <= Rabs x -> format_number_metric exact (Fin x) = UB.
Proof.
  intros x B. unfold format_number_metric, metric_text, c, xabs. repeat match goal with |- context [Fin (exact ?v)] => change (exact v) with v end.
  assert (G : forall l, l <= 10 ^ 12 -> xlt (Fin (Rabs x)) (Fin l) = false).
  { intros l H. apply xlt_fin_f. eapply Rle_trans; [exact H|]. eapply Rle_trans; [|exact B]. apply Rle_pow; [lra|lia]. }
  assert (P : 0 < 10 ^ 140) by (apply pow_lt; lra).
  assert (N0 : xeq (Fin (Rabs x)) (Fin 0) = false) by (unfold xeq; destruct (Req_EM_T (Rabs x) 0); [lra|reflexivity]). rewrite N0. rewrite !G by lra.
  rewrite !xdiv_fin by (unfold exact; lra). unfold from_buffer. rewrite app_length.
  assert (K : (128 < length (fixed 1 (Fin (exact (x / 10 ^ 12)))))%nat).
  { unfold exact. apply fixed_long. unfold Rdiv. rewrite Rabs_mult, (Rabs_pos_eq (/ 10 ^ 12)) by lra. apply (Rmult_le_reg_r (10 ^ 12)); [lra|]. rewrite Rmult_assoc, Rinv_l, Rmult_1_r by lra.
    eapply Rle_trans; [|exact B]. rewrite <- pow_add. right. reflexivity. }
  destruct (Nat.leb_spec (length (fixed 1 (Fin (exact (x / 10 ^ 12)))) + length (s_ "T")) 127); [lia|].
  destruct (Nat.eqb_spec (length (fixed 1 (Fin (exact (x / 10 ^ 12)))) + length (s_ "T")) 128); [lia|reflexivity].
Qed.
Print Assumptions C109_overflow_refuted.
(** C109, refuted: the number before the prefix is less than 1000. 999.96 is shown as 1000.0, not as 1.0K. *)
Theorem C109_thousand_refuted : format_number_metric exact (Fin (99996 / 100)) = Ret (s_ "1000.0").
Proof.
  unfold format_number_metric, metric_text, c, xabs. repeat match goal with |- context [Fin (exact ?v)] => change (exact v) with v end. rewrite (Rabs_pos_eq (99996 / 100)) by lra.
  assert (N0 : xeq (Fin (99996 / 100)) (Fin 0) = false) by (unfold xeq; destruct (Req_EM_T (99996 / 100) 0); [lra|reflexivity]). rewrite N0.
  assert (G : forall l, l <= 99996 / 100 -> xlt (Fin (99996 / 100)) (Fin l) = false) by (intros; now apply xlt_fin_f). rewrite !G by lra.
  assert (Q : xlt (Fin (99996 / 100)) (Fin (10 ^ 3)) = true) by (apply xlt_fin; lra). rewrite Q. cbn [fixed]. unfold fixed_real. rewrite (Rabs_pos_eq (99996 / 100)) by lra.
  assert (E : ZnearestE (99996 / 100 * 10 ^ 1) = 10000%Z) by (apply Znearest_imp; apply Rabs_def1; lra). rewrite E.
  destruct (Rlt_dec (99996 / 100) 0); [lra|]. reflexivity.
Qed.
Print Assumptions C109_thousand_refuted.
(** C109, refuted: a number other than zero is not shown as zero. *)
Theorem C109_tiny_refuted : format_number_metric exact (Fin (/ 10 ^ 14)) = Ret (s_ "0.0p").
Proof.
  unfold format_number_metric, metric_text, c, xabs. repeat match goal with |- context [Fin (exact ?v)] => change (exact v) with v end. rewrite (Rabs_pos_eq (/ 10 ^ 14)) by lra.
  assert (N0 : xeq (Fin (/ 10 ^ 14)) (Fin 0) = false) by (unfold xeq; destruct (Req_EM_T (/ 10 ^ 14) 0); [lra|reflexivity]). rewrite N0.
  assert (Q : xlt (Fin (/ 10 ^ 14)) (Fin (/ 10 ^ 9)) = true) by (apply xlt_fin; lra). rewrite Q. cbn [xmul fixed]. unfold exact. unfold fixed_real. rewrite (Rabs_pos_eq (/ 10 ^ 14 * 10 ^ 12)) by lra.
  assert (E : ZnearestE (/ 10 ^ 14 * 10 ^ 12 * 10 ^ 1) = 0%Z) by (apply Znearest_imp; apply Rabs_def1; lra). rewrite E.
  destruct (Rlt_dec (/ 10 ^ 14 * 10 ^ 12) 0); [lra|]. reflexivity.
Qed.
Print Assumptions C109_tiny_refuted.
(** C109, refuted: what is not a number is not given a prefix. *)
Theorem C109_not_a_number_refuted : format_number_metric exact NaN = Ret (s_ "nanT") /\ format_number_metric exact PInf = Ret (s_ "infT").
Proof.
  split; [reflexivity|]. unfold format_number_metric, metric_text, c, xabs. cbn [xeq xlt]. cbn [xdiv]. unfold exact. destruct (Rle_dec 0 (10 ^ 12)); [reflexivity|lra].
Qed.
Print Assumptions C109_not_a_number_refuted.
Example C109_case : Rabs (- (12345 / 10)) <= 10 ^ 130 /\ - (12345 / 10) <> 0 /\ prefix_for (- (12345 / 10)) 6.
Proof.
  rewrite Rabs_Ropp, Rabs_pos_eq by lra. assert (10 ^ 4 <= 10 ^ 130) by (apply Rle_pow; [lra|lia]). split; [lra|]. split; [lra|].
  unfold prefix_for. rewrite Rabs_Ropp, Rabs_pos_eq by lra. split; [|split; [intros l E; injection E as <-; lra|lia]].
  intros j l J E. do 6 (destruct j as [|j]; [injection E as <-; lra|]). lia.
Qed.
