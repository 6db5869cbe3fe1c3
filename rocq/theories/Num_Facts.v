(** Computing roundings of concrete numbers, and relative error bounds. *)
From Verif Require Import Base Num.
From Flocq Require Import Relative.
Local Open Scope R_scope.

(** Round to nearest, ties to even, on the integers. *)
Lemma ZnearestE_imp (x : R) (m : Z) :
  Rabs (x - IZR m) < / 2 \/ (Z.even m = true /\ Rabs (x - IZR m) = / 2) -> ZnearestE x = m.
Proof.
  intros [H|[E H]]; [now apply Znearest_imp|].
  destruct (Rle_or_lt (IZR m) x) as [L|L].
  - rewrite Rabs_pos_eq in H by lra. assert (F : Zfloor x = m) by (apply Zfloor_imp; rewrite plus_IZR; lra).
    unfold Znearest. rewrite F, H, Rcompare_Eq by auto. now rewrite E.
  - rewrite Rabs_left in H by lra.
    assert (F : Zfloor x = (m - 1)%Z) by (apply Zfloor_imp; rewrite plus_IZR, minus_IZR; lra).
    assert (C : Zceil x = m) by (apply Zceil_imp; rewrite minus_IZR; lra).
    unfold Znearest. rewrite F, C, minus_IZR, Rcompare_Eq by lra.
    replace (Z.even (m - 1)) with false; [reflexivity|]. rewrite Z.even_sub, E. reflexivity.
Qed.

(** The binary64 (binary32) number nearest to [x] is m * 2^e when x lies in the binade of
    numbers with 53 (24) digit mantissas and exponent e, less than half a unit from it, or
    exactly half a unit from it and m is even. *)
Definition nearest (x : R) (m e : Z) : Prop :=
  Rabs (x - IZR m * bpow radix2 e) < / 2 * bpow radix2 e \/
  (Z.even m = true /\ Rabs (x - IZR m * bpow radix2 e) = / 2 * bpow radix2 e).
Lemma nearest_scaled x m e : nearest x m e -> ZnearestE (x * bpow radix2 (- e)) = m.
Proof.
  intro N. apply ZnearestE_imp. assert (P := bpow_gt_0 radix2 e). rewrite bpow_opp.
  replace (x * / bpow radix2 e - IZR m) with ((x - IZR m * bpow radix2 e) * / bpow radix2 e) by (field; lra).
  rewrite Rabs_mult, (Rabs_pos_eq (/ _)) by (left; now apply Rinv_0_lt_compat).
  destruct N as [N|[E N]]; [left|right; split; [exact E|]].
  - apply (Rmult_lt_reg_r (bpow radix2 e)); [exact P|]. rewrite Rmult_assoc, Rinv_l by lra. lra.
  - rewrite N. field. lra.
Qed.
Lemma rnd64_calc (x : R) (m e : Z) : (-1074 <= e)%Z ->
  bpow radix2 (e + 52) <= x < bpow radix2 (e + 53) -> nearest x m e ->
  rnd64 x = IZR m * bpow radix2 e.
Proof.
  intros He B N. unfold rnd64, round, scaled_mantissa, cexp.
  assert (M : mag radix2 x = (e + 53)%Z :> Z).
  { apply mag_unique_pos. replace (e + 53 - 1)%Z with (e + 52)%Z by lia. exact B. }
  rewrite M. replace (FLT_exp (-1074) 53 (e + 53)) with e by (unfold FLT_exp; lia).
  now rewrite (nearest_scaled x m e N).
Qed.

Lemma rnd32_calc (x : R) (m e : Z) : (-149 <= e)%Z ->
  bpow radix2 (e + 23) <= x < bpow radix2 (e + 24) -> nearest x m e ->
  rnd32 x = IZR m * bpow radix2 e.
Proof.
  intros He B N. unfold rnd32, round, scaled_mantissa, cexp.
  assert (M : mag radix2 x = (e + 24)%Z :> Z).
  { apply mag_unique_pos. replace (e + 24 - 1)%Z with (e + 23)%Z by lia. exact B. }
  rewrite M. replace (FLT_exp (-149) 24 (e + 24)) with e by (unfold FLT_exp; lia).
  now rewrite (nearest_scaled x m e N).
Qed.

(** One rounding changes a number of normal size by a factor 1 + e with |e| <= 2^-53. *)
Lemma rnd64_rel (x : R) : bpow radix2 (-1022) <= Rabs x ->
  exists e, Rabs e <= bpow radix2 (-53) /\ rnd64 x = x * (1 + e).
Proof.
  intro H.
  destruct (relative_error_N_FLT_ex radix2 (-1074) 53 ltac:(reflexivity) (fun n => negb (Z.even n)) x) as (e & E & R).
  - exact H.
  - exists e. split; [|exact R]. eapply Rle_trans; [exact E|]. replace (/ 2 * bpow radix2 (- (53) + 1)) with (bpow radix2 (-53)) by (cbn; lra). lra.
Qed.
Lemma rnd64_zero : rnd64 0 = 0.
Proof. apply round_0. auto with typeclass_instances. Qed.
(** For the side conditions of [rnd64_calc] and [rnd32_calc] on closed numbers. *)
Ltac rnd_side := first
  [ lia | split; cbn; lra | left; cbn; apply Rabs_def1; lra
  | right; split; [reflexivity|]; cbn; first [rewrite Rabs_pos_eq; lra | rewrite Rabs_left; lra] ].
