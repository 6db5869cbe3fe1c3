(** Decimal text of integers, as std::to_string and the streams print it. *)
From Verif Require Import Base.
From Coq Require Import ZArith.
Local Open Scope Z_scope.

Definition dig (n : Z) : ascii := ascii_of_nat (48 + Z.to_nat n).
(** The last [fuel] decimal digits of n, without leading zeros. *)
Fixpoint dec_ (fuel : nat) (n : Z) : str :=
  match fuel with
  | O => []
  | S k => (if n <? 10 then [] else dec_ k (n / 10)) ++ [dig (n mod 10)]
  end.
(** std::to_string for a non-negative integer, and for an int. *)
Definition dec (n : Z) : str := dec_ (S (Z.to_nat (Z.log2 n))) n.
Definition dec_int (n : Z) : str := if n <? 0 then s_ "-" ++ dec (- n) else dec n.

(** The value of a digit string, most significant digit first. *)
Definition value (s : str) : Z := fold_left (fun a c => a * 10 + (Z.of_nat (nat_of_ascii c) - 48)) s 0.
Definition is_digit (c : ascii) : Prop := (48 <= nat_of_ascii c <= 57)%nat.

Lemma dig_code n : 0 <= n < 10 -> nat_of_ascii (dig n) = (48 + Z.to_nat n)%nat.
Proof. intro H. unfold dig. apply nat_ascii_embedding. lia. Qed.
Lemma dig_digit n : 0 <= n < 10 -> is_digit (dig n).
Proof. intro H. unfold is_digit. rewrite dig_code by exact H. lia. Qed.

Lemma dec_fuel f n : 0 <= n < 10 ^ Z.of_nat f -> (0 < f)%nat ->
  value (dec_ f n) = n /\ Forall is_digit (dec_ f n) /\ dec_ f n <> [] /\
  (hd_error (dec_ f n) = Some (dig 0) -> n = 0).
Proof.
  revert n. induction f as [|f IH]; intros n H F; [lia|]. cbn [dec_].
  assert (M : 0 <= n mod 10 < 10) by (apply Z.mod_pos_bound; lia).
  destruct (Z.ltb_spec n 10) as [L|L].
  - rewrite Z.mod_small in * by lia. cbn [app]. unfold value. cbn [fold_left]. rewrite dig_code by lia.
    split; [lia|]. split; [constructor; [now apply dig_digit|constructor]|]. split; [discriminate|].
    cbn [hd_error]. intro E. injection E as E. apply (f_equal nat_of_ascii) in E. rewrite !dig_code in E by lia. lia.
  - destruct f as [|f]; [cbn in H; lia|].
    assert (Q : 0 <= n / 10 < 10 ^ Z.of_nat (S f)).
    { split; [apply Z.div_pos; lia|]. apply Z.div_lt_upper_bound; [lia|].
      replace (Z.of_nat (S (S f))) with (Z.succ (Z.of_nat (S f))) in H by lia. rewrite Z.pow_succ_r in H by lia. lia. }
    destruct (IH (n / 10) Q ltac:(lia)) as (V & D & N & L0).
    split; [|split; [|split]].
    + unfold value in *. rewrite fold_left_app, V. cbn [fold_left]. rewrite dig_code by lia.
      pose proof (Z.div_mod n 10 ltac:(lia)). lia.
    + apply Forall_app. split; [assumption|]. constructor; [now apply dig_digit|constructor].
    + intro E. now destruct (dec_ (S f) (n / 10)).
    + intro E. destruct (dec_ (S f) (n / 10)) as [|c r] eqn:R; [congruence|]. cbn [hd_error app] in E, L0.
      specialize (L0 E). assert (1 <= n / 10) by (apply Z.div_le_lower_bound; lia). lia.
Qed.
Lemma dec_ok n : 0 <= n ->
  value (dec n) = n /\ Forall is_digit (dec n) /\ dec n <> [] /\ (hd_error (dec n) = Some (dig 0) -> n = 0).
Proof.
  intro H. apply dec_fuel; [|lia]. split; [lia|].
  pose proof (Z.log2_nonneg n) as G. replace (Z.of_nat (S (Z.to_nat (Z.log2 n)))) with (Z.succ (Z.log2 n)) by lia.
  destruct (Z.eq_dec n 0) as [->|N]; [apply Z.pow_pos_nonneg; cbn; lia|].
  pose proof (Z.log2_spec n ltac:(lia)) as [_ K]. eapply Z.lt_le_trans; [exact K|].
  apply Z.pow_le_mono_l. lia.
Qed.
(** Digit strings of the same value without leading zeros are equal: printing is injective. *)
Lemma dec_inj a b : 0 <= a -> 0 <= b -> dec a = dec b -> a = b.
Proof. intros A B E. destruct (dec_ok a A) as [Va _]. destruct (dec_ok b B) as [Vb _]. congruence. Qed.
