(** Theorems about label formats: C50. *)
From Coq Require Import Lra Reals.
From Verif Require Import Base Num Num_Facts Dec Sexpr_Model Dispatch_Model Data_Model Color_Model Utf8_Spec Svg_Spec Svg_Proofs Format_Model Format_Spec Format_Proofs.
Local Open Scope R_scope.

(* ------------------------------------------------------------------ C50 *)
(** C50. A custom list of labels is used cyclically, whatever the values. *)
Theorem C50_custom : forall (values : list str) (i : nat) (v : str), values <> [] ->
  exists label, format_custom values i v = Ret label /\ nth_error values (i mod length values) = Some label /\
    format_custom values (i + length values)%nat v = Ret label.
Proof.
  intros values i v NE. unfold format_custom. destruct values as [|a l] eqn:E; [congruence|]. rewrite <- E in *.
  assert (L : length values <> 0%nat) by (rewrite E; discriminate). pose proof (Nat.mod_upper_bound i _ L) as B.
  replace (i + length values)%nat with (i + 1 * length values)%nat by lia. rewrite Nat.mod_add by exact L.
  destruct (nth_error values (i mod length values)) as [x|] eqn:X; [now exists x|]. apply nth_error_None in X. lia.
Qed.
Print Assumptions C50_custom.
Theorem C50_custom_empty : forall i v, format_custom [] i v = Ret [].
Proof. reflexivity. Qed.
Print Assumptions C50_custom_empty.
Example C50_custom_example : map (fun i => format_custom [s_ "a"; s_ "b"; s_ "c"] i []) [0; 1; 2; 3; 7]%nat =
  map (fun s => Ret (s_ s)) ["a"; "b"; "c"; "a"; "b"]%string.
Proof. reflexivity. Qed.

(** C50. Superscript numbers consist of the Unicode superscript characters for the decimal
    digits, and different numbers look different. *)
Theorem C50_superscript : forall n : Z, format_superscript n = superscript (dec_int n).
Proof.
  intro n. unfold format_superscript, superscript. pose proof (dec_int_chars n) as F. induction F as [|c l C F IH]; [reflexivity|].
  cbn [flat_map]. now rewrite IH, superscript_char_ok.
Qed.
Print Assumptions C50_superscript.
Theorem C50_superscript_injective : forall a b : Z, format_superscript a = format_superscript b -> a = b.
Proof. intros a b E. apply dec_int_inj. apply super_inj; auto using dec_int_chars. Qed.
Print Assumptions C50_superscript_injective.
Example C50_superscript_example : format_superscript (-12) = utf8 0x207B ++ utf8 0xB9 ++ utf8 0xB2.
Proof. reflexivity. Qed.

(** C50. The "integer" format prints the number without its fraction; a text that is not a
    number counts as 0. *)
Theorem C50_integer_partial : forall (stod : str -> option xr) (i : nat) (t : str) (x : R),
  stod t = Some (Fin x) -> -2147483649 < x < 2147483648 ->
  format_integer stod i t = Ret (dec_int (Ztrunc x)).
Proof.
  intros stod i t x E B. unfold format_integer, value_to_float. rewrite E. unfold to_int. cbv zeta.
  replace ((- 2 ^ 31 <=? Ztrunc x) && (Ztrunc x <? 2 ^ 31))%Z with true; [reflexivity|]. symmetry.
  change (- 2 ^ 31)%Z with (-2147483648)%Z. change (2 ^ 31)%Z with 2147483648%Z. apply andb_true_intro. split; [apply Z.leb_le|apply Z.ltb_lt].
  - destruct (Rle_dec 0 x) as [P|P].
    + rewrite Ztrunc_floor by exact P. assert (0 <= Zfloor x)%Z by (now apply Zfloor_lub). lia.
    + rewrite Ztrunc_ceil by lra. assert (-2147483649 < Zceil x)%Z; [|lia]. apply lt_IZR. pose proof (Zceil_ub x). lra.
  - destruct (Rle_dec 0 x) as [P|P].
    + rewrite Ztrunc_floor by exact P. apply lt_IZR. pose proof (Zfloor_lb x). lra.
    + rewrite Ztrunc_ceil by lra. assert (Zceil x <= 0)%Z by (apply Zceil_glb; lra). lia.
Qed.
Print Assumptions C50_integer_partial.
(** What is missing: beyond the range of int the result is undefined. *)
Theorem C50_integer_refuted : forall (stod : str -> option xr) (i : nat) (t : str) (x : R),
  stod t = Some (Fin x) -> 2147483648 <= x -> format_integer stod i t = UB.
Proof.
  intros stod i t x E B. unfold format_integer, value_to_float. rewrite E. unfold to_int. cbv zeta.
  replace ((- 2 ^ 31 <=? Ztrunc x) && (Ztrunc x <? 2 ^ 31))%Z with false; [reflexivity|]. symmetry. apply andb_false_intro2. apply Z.ltb_ge.
  change (2 ^ 31)%Z with 2147483648%Z. rewrite Ztrunc_floor by lra. apply Zfloor_lub. lra.
Qed.
Print Assumptions C50_integer_refuted.
Theorem C50_not_a_number : forall (stod : str -> option xr) (i : nat) (t : str), stod t = None ->
  format_integer stod i t = Ret (s_ "0") /\ format_scientific exact stod 1 i t = Ret (s_ "0") /\ format_base exact stod 10 1 i t = Ret (s_ "0").
Proof.
  intros stod i t E. unfold format_integer, format_scientific, format_base, value_to_float. rewrite E.
  assert (Z : xeq (Fin 0) (Fin 0) = true) by (unfold xeq; destruct (Req_EM_T 0 0); [reflexivity|congruence]). rewrite Z. split; [|split; reflexivity].
  unfold to_int. cbv zeta. rewrite (Ztrunc_IZR 0). reflexivity.
Qed.
Print Assumptions C50_not_a_number.

(** C50. The "fixed" format prints every real number with the given number of decimals, at
    most half a unit of the last place off. *)
Theorem C50_fixed : forall (stod : str -> option xr) (p i : nat) (t : str) (x : R), stod t = Some (Fin x) ->
  exists s q, format_fixed stod p i t = Ret s /\ read_decimal s = Some q /\ snd q = p /\ Rabs (dval q - x) <= 1 / 2 / 10 ^ p.
Proof.
  intros stod p i t x E. unfold format_fixed, value_to_float. rewrite E. destruct (fixed_ok p x) as (q & A & B & C). do 2 eexists. split; [reflexivity|]. eauto.
Qed.
Print Assumptions C50_fixed.
Example C50_fixed_example : digits_ 3 1207%Z = s_ "207" /\ dec (1207 / 1000)%Z = s_ "1".
Proof. split; reflexivity. Qed.

(** C50. The "scientific" format, in exact arithmetic and for all magnitudes of doubles: a
    mantissa, a multiplication sign, and a power of ten, that multiply to the value; for values
    from 1 on, the mantissa is at least 1 and less than 10 before it is rounded to the given
    number of decimals. *)
Theorem C50_scientific_partial : forall (stod : str -> option xr) (p i : nat) (t : str) (v : R),
  stod t = Some (Fin v) -> powerRZ 10 (-400) <= Rabs v <= powerRZ 10 400 ->
  exists (m : R) (e : Z),
    format_scientific exact stod p i t = Ret (fixed p (Fin m) ++ s_ " " ++ times ++ s_ " 10" ++ superscript (dec_int e)) /\
    v = m * powerRZ 10 e /\
    (1 <= Rabs v -> (0 <= e)%Z /\ 1 <= Rabs m < 10) /\ (Rabs v < 1 -> (e <= 0)%Z /\ 1 / 10 < Rabs m <= 1).
Proof.
  intros stod p i t v E B. pose proof ln10 as L10. assert (P0 : 0 < powerRZ 10 (-400)) by (apply powerRZ_lt; lra).
  assert (AV : 0 < Rabs v) by lra. assert (NZ : v <> 0) by (intros ->; rewrite Rabs_R0 in AV; lra).
  unfold format_scientific, value_to_float. rewrite E.
  assert (Z : xeq (Fin v) (Fin 0) = false) by (unfold xeq; destruct (Req_EM_T v 0); [contradiction|reflexivity]). rewrite Z. cbv zeta.
  set (L := ln (Rabs v) / ln 10).
  assert (LG : xlog10 exact (xdiv exact (Fin v) (if xle (Fin 0) (Fin v) then Fin 1 else Fin (-1))) = Fin L).
  { unfold xle. destruct (Rle_dec 0 v) as [S|S]; unfold xdiv.
    - destruct (Req_EM_T 1 0); [lra|]. unfold xlog10, exact. replace (v / 1) with (Rabs v) by (rewrite Rabs_pos_eq by exact S; field). destruct (Rlt_dec 0 (Rabs v)); [reflexivity|contradiction].
    - destruct (Req_EM_T (-1) 0); [lra|]. unfold xlog10, exact. replace (v / -1) with (Rabs v) by (rewrite Rabs_left by lra; field). destruct (Rlt_dec 0 (Rabs v)); [reflexivity|contradiction]. }
  rewrite LG.
  assert (LB : -400 <= L <= 400).
  { unfold L. assert (Q : forall k, ln (powerRZ 10 k) = IZR k * ln 10) by (intro k; rewrite <- Rpower10_int; unfold Rpower; now rewrite ln_exp).
    split.
    - apply Rmult_le_reg_r with (ln 10); [exact L10|]. unfold Rdiv. rewrite Rmult_assoc, Rinv_l, Rmult_1_r by lra. rewrite <- (Q (-400)%Z).
      destruct (Req_dec (powerRZ 10 (-400)) (Rabs v)) as [->|D]; [lra|]. left. apply ln_increasing; [exact P0|]. lra.
    - apply Rmult_le_reg_r with (ln 10); [exact L10|]. unfold Rdiv. rewrite Rmult_assoc, Rinv_l, Rmult_1_r by lra. rewrite <- (Q 400%Z).
      destruct (Req_dec (powerRZ 10 400) (Rabs v)) as [->|D]; [lra|]. left. apply ln_increasing; lra. }
  assert (TB : (-400 <= Ztrunc L <= 400)%Z).
  { split; [replace (-400)%Z with (Ztrunc (IZR (-400)%Z)) by apply Ztrunc_IZR|replace 400%Z with (Ztrunc (IZR 400%Z)) by apply Ztrunc_IZR]; apply Ztrunc_le; lra. }
  unfold to_int. cbv zeta. replace ((- 2 ^ 31 <=? Ztrunc L) && (Ztrunc L <? 2 ^ 31))%Z with true
    by (symmetry; apply andb_true_intro; split; [apply Z.leb_le|apply Z.ltb_lt]; lia). cbn [bind].
  set (e := Ztrunc L) in *. rewrite xpow10. assert (PE : 0 < powerRZ 10 e) by (apply powerRZ_lt; lra).
  exists (v / powerRZ 10 e), e. split.
  { unfold xdiv. destruct (Req_EM_T (powerRZ 10 e) 0); [lra|]. rewrite C50_superscript. reflexivity. }
  split; [field; lra|].
  assert (AM : Rabs (v / powerRZ 10 e) = Rpower 10 (L - IZR e)).
  { unfold Rdiv. rewrite Rabs_mult, Rabs_inv, (Rabs_pos_eq (powerRZ 10 e)) by lra. unfold Rminus. rewrite Rpower_plus, Rpower_Ropp, Rpower10_int. f_equal.
    unfold Rpower, L. replace (ln (Rabs v) / ln 10 * ln 10) with (ln (Rabs v)) by (field; lra). symmetry. now apply exp_ln. }
  rewrite AM. assert (R1 : Rpower 10 0 = 1) by (apply Rpower_O; lra). assert (R10 : Rpower 10 1 = 10) by (apply Rpower_1; lra).
  split; intro V.
  - assert (0 <= L). { unfold L. apply Rmult_le_pos; [|left; now apply Rinv_0_lt_compat]. rewrite <- ln_1. destruct (Req_dec 1 (Rabs v)) as [->|D]; [lra|]. left. apply ln_increasing; lra. }
    assert (F : e = Zfloor L) by (unfold e; now rewrite Ztrunc_floor). pose proof (Zfloor_lb L). pose proof (Zfloor_ub L). rewrite F.
    split; [now apply Zfloor_lub|]. split; [rewrite <- R1 at 1; apply Rle_Rpower; lra|]. rewrite <- R10 at 2. apply Rpower_lt; lra.
  - assert (L < 0). { unfold L. apply Ropp_lt_cancel. rewrite Ropp_0. unfold Rdiv. rewrite Ropp_mult_distr_l. apply Rmult_lt_0_compat; [|now apply Rinv_0_lt_compat].
      assert (ln (Rabs v) < 0) by (rewrite <- ln_1; now apply ln_increasing). lra. }
    assert (F : e = Zceil L) by (unfold e; rewrite Ztrunc_ceil by lra; reflexivity). pose proof (Zceil_ub L). pose proof (Zceil_lb L). rewrite F.
    split; [apply Zceil_glb; lra|]. split; [|apply Rle_trans with (Rpower 10 0); [apply Rle_Rpower; lra|lra]].
    replace (1 / 10) with (Rpower 10 (- (1))) by (rewrite Rpower_Ropp, R10; field). apply Rpower_lt; lra.
Qed.
Print Assumptions C50_scientific_partial.
Example C50_scientific_example : powerRZ 10 (-400) <= Rabs (-1234) <= powerRZ 10 400.
Proof.
  rewrite Rabs_left by lra. rewrite <- !Rpower10_int. split.
  - apply Rle_trans with (Rpower 10 0); [apply Rle_Rpower; lra|]. rewrite Rpower_O; lra.
  - apply Rle_trans with (Rpower 10 4); [|apply Rle_Rpower; lra]. change 4 with (IZR 4). rewrite Rpower10_int. unfold powerRZ. change (Pos.to_nat 4) with 4%nat. cbn [pow]. lra.
Qed.
(** What is missing: values below 1 are not normalised. 0.5 is printed as 0.5 times ten to the
    power 0, and so are all values between 0.1 and 1. *)
Theorem C50_scientific_small_refuted : forall (stod : str -> option xr) (p i : nat) (t : str) (v : R),
  stod t = Some (Fin v) -> 1 / 10 < v < 1 ->
  format_scientific exact stod p i t = Ret (fixed p (Fin v) ++ s_ " " ++ times ++ s_ " 10" ++ superscript (s_ "0")).
Proof.
  intros stod p i t v E B. destruct (C50_scientific_partial stod p i t v E) as (m & e & F & V & _ & Q).
  { rewrite Rabs_pos_eq by lra. split.
    - apply Rle_trans with (1 / 10); [|lra]. rewrite p10m1. rewrite <- !Rpower10_int. apply Rle_Rpower; lra.
    - apply Rle_trans with (powerRZ 10 0); [cbn; lra|]. rewrite <- !Rpower10_int. apply Rle_Rpower; lra. }
  rewrite Rabs_pos_eq in Q by lra. destruct (Q ltac:(lra)) as [E0 M]. assert (e = 0)%Z.
  { destruct (Z.eq_dec e 0) as [|N]; [assumption|]. exfalso. assert (e <= -1)%Z by lia.
    assert (powerRZ 10 e <= 1 / 10). { rewrite p10m1. rewrite <- !Rpower10_int. apply Rle_Rpower; [lra|]. apply IZR_le. assumption. }
    assert (0 < powerRZ 10 e) by (apply powerRZ_lt; lra). assert (Rabs v <= 1 / 10); [|rewrite Rabs_pos_eq in *; lra].
    rewrite V, Rabs_mult, (Rabs_pos_eq (powerRZ 10 e)) by lra. pose proof (Rabs_pos m). nra. }
  subst e. rewrite F. cbn [powerRZ] in V. rewrite Rmult_1_r in V. now rewrite V.
Qed.
Print Assumptions C50_scientific_small_refuted.

(** C50. The "base" format prints powers of the base as such, in exact arithmetic; *)
Theorem C50_base_partial : forall (stod : str -> option xr) (base p i : nat) (t : str) (k : Z),
  (2 <= base)%nat -> (- 2 ^ 31 <= k < 2 ^ 31)%Z -> stod t = Some (Fin (powerRZ (INR base) k)) ->
  format_base exact stod base p i t = Ret (dec (Z.of_nat base) ++ superscript (dec_int k)).
Proof.
  intros stod base p i t k B K E. assert (IB : 2 <= INR base) by (apply (le_INR 2) in B; exact B).
  assert (PK : 0 < powerRZ (INR base) k) by (apply powerRZ_lt; lra). assert (LB : 0 < ln (INR base)) by (rewrite <- ln_1; apply ln_increasing; lra).
  unfold format_base, value_to_float. rewrite E.
  assert (Z : xeq (Fin (powerRZ (INR base) k)) (Fin 0) = false) by (unfold xeq; destruct (Req_EM_T _ 0); [lra|reflexivity]). rewrite Z.
  assert (Q : xdiv exact (xlog exact (Fin (powerRZ (INR base) k))) (xlog exact (Fin (INR base))) = Fin (IZR k)).
  { unfold xlog. destruct (Rlt_dec 0 (powerRZ (INR base) k)); [|lra]. destruct (Rlt_dec 0 (INR base)); [|lra]. unfold xdiv, exact.
    destruct (Req_EM_T (ln (INR base)) 0); [lra|]. f_equal. rewrite powerRZ_Rpower by lra. unfold Rpower. rewrite ln_exp. field. lra. }
  rewrite Q. unfold to_int. cbv zeta. rewrite Ztrunc_IZR.
  replace ((- 2 ^ 31 <=? k) && (k <? 2 ^ 31))%Z with true by (symmetry; apply andb_true_intro; split; [apply Z.leb_le|apply Z.ltb_lt]; lia).
  cbn [bind]. now rewrite C50_superscript.
Qed.
Print Assumptions C50_base_partial.
(** ... but any number from one power to the next gets the same label, and the label of a
    negative number is undefined. *)
Theorem C50_base_between_refuted : forall (stod : str -> option xr) (p i : nat) (t : str) (v : R),
  stod t = Some (Fin v) -> 100 <= v < 1000 -> format_base exact stod 10 p i t = Ret (s_ "10" ++ utf8 0xB2).
Proof.
  intros stod p i t v E B. unfold format_base, value_to_float. rewrite E. pose proof ln10 as L10.
  assert (Z : xeq (Fin v) (Fin 0) = false) by (unfold xeq; destruct (Req_EM_T _ 0); [lra|reflexivity]). rewrite Z.
  replace (INR 10) with 10 by (cbn; lra).
  assert (Q : xdiv exact (xlog exact (Fin v)) (xlog exact (Fin 10)) = Fin (ln v / ln 10)).
  { unfold xlog. destruct (Rlt_dec 0 v); [|lra]. destruct (Rlt_dec 0 10); [|lra]. unfold xdiv, exact. destruct (Req_EM_T (ln 10) 0); [lra|reflexivity]. }
  rewrite Q. assert (T : Ztrunc (ln v / ln 10) = 2%Z).
  { assert (A2 : ln 100 = 2 * ln 10) by (replace 100 with (10 * 10) by lra; rewrite ln_mult by lra; ring).
    assert (A3 : ln 1000 = 3 * ln 10) by (replace 1000 with (10 * (10 * 10)) by lra; rewrite !ln_mult by lra; ring).
    assert (2 <= ln v / ln 10). { apply Rmult_le_reg_r with (ln 10); [exact L10|]. unfold Rdiv. rewrite Rmult_assoc, Rinv_l, Rmult_1_r, <- A2 by lra. destruct (Req_dec 100 v) as [->|]; [lra|]. left. apply ln_increasing; lra. }
    assert (ln v / ln 10 < 3). { apply Rmult_lt_reg_r with (ln 10); [exact L10|]. unfold Rdiv. rewrite Rmult_assoc, Rinv_l, Rmult_1_r, <- A3 by lra. apply ln_increasing; lra. }
    rewrite Ztrunc_floor by lra. apply Zfloor_imp. cbn. lra. }
  unfold to_int. cbv zeta. rewrite T. reflexivity.
Qed.
Print Assumptions C50_base_between_refuted.
Theorem C50_base_negative_refuted : forall (stod : str -> option xr) (base p i : nat) (t : str) (v : R),
  stod t = Some (Fin v) -> v < 0 -> format_base exact stod base p i t = UB.
Proof.
  intros stod base p i t v E B. unfold format_base, value_to_float. rewrite E.
  assert (Z : xeq (Fin v) (Fin 0) = false) by (unfold xeq; destruct (Req_EM_T _ 0); [lra|reflexivity]). rewrite Z.
  unfold xlog at 1. destruct (Rlt_dec 0 v); [lra|]. destruct (Rlt_dec v 0); [|lra]. reflexivity.
Qed.
Print Assumptions C50_base_negative_refuted.

(** C50. The "datetime" format shows the second a time in seconds since 1970 falls in (exact
    arithmetic); times before 1970 are undefined. *)
Theorem C50_datetime_partial : forall (stod : str -> option xr) (strftime : str -> Z -> str) (fmt : str) (i : nat) (t : str) (v : R),
  stod t = Some (Fin v) -> 0 <= v < 18446744073709 -> format_datetime exact stod strftime fmt i t = Ret (strftime fmt (Zfloor v)).
Proof.
  intros stod strftime fmt i t v E B. unfold format_datetime, value_to_float. rewrite E. unfold xmul, exact, to_unsigned. cbv zeta.
  rewrite Ztrunc_floor by lra. set (n := Zfloor (v * 1000000)).
  assert (N0 : (0 <= n)%Z) by (apply Zfloor_lub; lra).
  assert (N1 : (n < 2 ^ 64)%Z). { apply lt_IZR. change (2 ^ 64)%Z with 18446744073709551616%Z. pose proof (Zfloor_lb (v * 1000000)). fold n in H. lra. }
  replace ((0 <=? n) && (n <? 2 ^ 64))%Z with true by (symmetry; apply andb_true_intro; split; [apply Z.leb_le|apply Z.ltb_lt]; lia).
  cbn [bind]. rewrite Z2Nat.id by exact N0. do 2 f_equal. symmetry. apply Zfloor_imp.
  pose proof (Z.div_mod n 1000000 ltac:(lia)) as DM. pose proof (Z.mod_pos_bound n 1000000 ltac:(lia)) as MB.
  pose proof (Zfloor_lb (v * 1000000)) as F1. pose proof (Zfloor_ub (v * 1000000)) as F2. fold n in F1, F2.
  assert (IZR (n / 1000000) * 1000000 <= IZR n) by (rewrite <- mult_IZR; apply IZR_le; lia).
  assert (IZR n + 1 <= (IZR (n / 1000000) + 1) * 1000000). { rewrite <- !plus_IZR, <- mult_IZR. apply IZR_le. lia. }
  rewrite plus_IZR. lra.
Qed.
Print Assumptions C50_datetime_partial.
Theorem C50_datetime_refuted : forall (stod : str -> option xr) (strftime : str -> Z -> str) (fmt : str) (i : nat) (t : str) (v : R),
  stod t = Some (Fin v) -> v <= -1 -> format_datetime exact stod strftime fmt i t = UB.
Proof.
  intros stod strftime fmt i t v E B. unfold format_datetime, value_to_float. rewrite E. unfold xmul, exact, to_unsigned. cbv zeta.
  replace (0 <=? Ztrunc (v * 1000000))%Z with false; [reflexivity|]. symmetry. apply Z.leb_gt. rewrite Ztrunc_ceil by lra.
  assert (Zceil (v * 1000000) <= -1000000)%Z; [|lia]. apply Zceil_glb. lra.
Qed.
Print Assumptions C50_datetime_refuted.

(** C50. The format expressions: a keyword, or a list of a keyword and its arguments. *)
Theorem C50_configure : forall (stod : str -> option xr) strftime read_file (rest : list expr) (a : expr),
  let conf l := format_configure exact stod strftime read_file l in
  conf (EVal (s_ "fixed") :: rest) = Ret (format_fixed stod 1) /\
  conf (EList [EVal (s_ "fixed"); a] :: rest) = (let* p := number_arg stod 32 a in Ret (format_fixed stod p)) /\
  conf (EVal (s_ "scientific") :: rest) = Ret (format_scientific exact stod 1) /\
  conf (EList [EVal (s_ "scientific"); a] :: rest) = (let* p := number_arg stod 32 a in Ret (format_scientific exact stod p)) /\
  conf (EVal (s_ "datetime") :: rest) = Ret (format_datetime exact stod strftime (s_ "%Y-%m-%d %H:%M:%S")) /\
  conf (EList [EVal (s_ "datetime"); a] :: rest) = Ret (format_datetime exact stod strftime (raw_value a)) /\
  conf (EVal (s_ "base") :: rest) = Err /\
  conf (EVal (s_ "integer") :: rest) = Ret (format_integer stod) /\
  conf (EList [EVal (s_ "integer")] :: rest) = Ret (format_integer stod) /\
  conf (EList [EVal (s_ "integer"); a] :: rest) = Err /\
  conf (EVal (s_ "custom") :: rest) = Err /\
  conf (EList (EVal (s_ "custom") :: map EVal [s_ "x"; s_ "y"]) :: rest) = Ret (format_custom [s_ "x"; s_ "y"]).
Proof. intros. repeat split. Qed.
Print Assumptions C50_configure.
(** Words behind a keyword are ignored: "fixed 2" has one decimal. *)
Theorem C50_argument_ignored_refuted : forall (stod : str -> option xr) strftime read_file (rest : list expr),
  format_configure exact stod strftime read_file (EVal (s_ "fixed") :: EVal (s_ "2") :: rest) = Ret (format_fixed stod 1).
Proof. reflexivity. Qed.
Print Assumptions C50_argument_ignored_refuted.
(** A custom list consists of the given words, in order. *)
Theorem C50_custom_words : forall (stod : str -> option xr) strftime read_file (words : list str) (rest : list expr),
  format_configure exact stod strftime read_file (EList (EVal (s_ "custom") :: map EVal words) :: rest) = Ret (format_custom words) /\
  format_configure exact stod strftime read_file (EList (EVal (s_ "custom") :: map ELit words) :: rest) = Ret (format_custom words).
Proof.
  intros. unfold format_configure, is_word, list_headed. cbn. unfold configure_custom. split.
  - replace (map raw_value (map EVal words)) with words by (rewrite map_map; cbn; now rewrite map_id). now destruct words.
  - replace (map raw_value (map ELit words)) with words by (rewrite map_map; cbn; now rewrite map_id). now destruct words.
Qed.
Print Assumptions C50_custom_words.
(** Anything else is rejected. *)
Theorem C50_unknown : forall (stod : str -> option xr) strftime read_file (w : str) (args rest : list expr),
  ~ In w (map s_ ["fixed"; "scientific"; "datetime"; "base"; "integer"; "custom"]%string) ->
  format_configure exact stod strftime read_file (EVal w :: rest) = Err /\
  format_configure exact stod strftime read_file (EList (EVal w :: args) :: rest) = Err /\
  format_configure exact stod strftime read_file (EList [] :: rest) = Err /\ format_configure exact stod strftime read_file [] = Err.
Proof.
  intros stod strftime read_file w args rest NI.
  assert (N : forall k, In k (map s_ ["fixed"; "scientific"; "datetime"; "base"; "integer"; "custom"]%string) -> str_eqb w k = false).
  { intros k K. destruct (str_eqb w k) eqn:E; [|reflexivity]. destruct (str_eqb_spec w k); [subst; contradiction|discriminate]. }
  unfold format_configure, is_word, list_headed, value_of.
  rewrite (N (s_ "fixed")), (N (s_ "scientific")), (N (s_ "datetime")), (N (s_ "base")), (N (s_ "integer")), (N (s_ "custom")) by (cbn; tauto).
  auto.
Qed.
Print Assumptions C50_unknown.
