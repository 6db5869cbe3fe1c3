(** Proofs about colours. *)
From Verif Require Import Base Sexpr_Model Dispatch_Model Num Num_Facts Units_Model Str_Model Color_Model Color_Spec.
Local Open Scope R_scope.

(* ---------------- hexadecimal ---------------- *)
Lemma hexd_inv c n : hexd c n -> (n < 16)%nat /\ digit_val 16 c = Some (Z.of_nat n) /\ space_char c = false /\
  Ascii.eqb c "-" = false /\ Ascii.eqb c "+" = false /\ Ascii.eqb c "x" = false /\ Ascii.eqb c "X" = false /\
  lower_char c = low n.
Proof.
  intro H. assert (L : (n < 16)%nat).
  { destruct H as [H|H]; assert (nth_error (s_ "0123456789abcdef") n <> None \/ nth_error (s_ "0123456789ABCDEF") n <> None) as [Q|Q]
      by (rewrite H; (left + right); congruence); apply nth_error_Some in Q; exact Q. }
  split; [exact L|].
  do 16 (destruct n as [|n]; [cbn in H; destruct H as [H|H]; injection H as <-; vm_compute; repeat split|]). lia.
Qed.
Lemma stoi_two a n b m : hexd a n -> hexd b m -> stoi 16 [a; b] = Ret (Z.of_nat (16 * n + m)).
Proof.
  intros A B. apply hexd_inv in A as (La & Da & Sa & Ma & Pa & Xa & Ya & _).
  apply hexd_inv in B as (Lb & Db & Sb & Mb & Pb & Xb & Yb & _).
  unfold stoi, sto, strtol. cbn [skip_space]. rewrite Sa, Ma, Pa. unfold skip_0x. rewrite Xb, Yb. cbn [orb].
  rewrite !andb_false_r. cbn [andb]. cbn [starts_digit]. rewrite Da. cbn [read_digits]. rewrite Da, Db.
  replace ((0 * Z.of_nat 16 + Z.of_nat n) * Z.of_nat 16 + Z.of_nat m)%Z with (Z.of_nat (16 * n + m)) by lia.
  assert (((- 2 ^ 31 <=? Z.of_nat (16 * n + m)) && (Z.of_nat (16 * n + m) <=? 2 ^ 31 - 1))%Z = true) as ->; [|reflexivity].
  apply andb_true_iff. split; apply Z.leb_le; lia.
Qed.
Lemma stoi_one a n : hexd a n -> stoi 16 [a] = Ret (Z.of_nat n).
Proof.
  intros A. apply hexd_inv in A as (La & Da & Sa & Ma & Pa & Xa & Ya & _).
  unfold stoi, sto, strtol. cbn [skip_space]. rewrite Sa, Ma, Pa. unfold skip_0x.
  cbn [starts_digit]. rewrite Da. cbn [read_digits]. rewrite Da.
  replace (0 * Z.of_nat 16 + Z.of_nat n)%Z with (Z.of_nat n) by lia.
  assert (((- 2 ^ 31 <=? Z.of_nat n) && (Z.of_nat n <=? 2 ^ 31 - 1))%Z = true) as ->; [|reflexivity].
  apply andb_true_iff. split; apply Z.leb_le; lia.
Qed.
Lemma component_two a n b m f : hexd a n -> hexd b m ->
  hex_component f [a; b] 255 = Ret (Fin (f (INR (16 * n + m) / 255))).
Proof.
  intros A B. unfold hex_component. rewrite (stoi_two a n b m) by auto. cbn [bind]. rewrite xdiv_fin by lra.
  now rewrite <- INR_IZR_INZ.
Qed.
Lemma component_one a n f : hexd a n -> hex_component f [a] 15 = Ret (Fin (f (INR n / 15))).
Proof.
  intros A. unfold hex_component. rewrite (stoi_one a n) by auto. cbn [bind]. rewrite xdiv_fin by lra.
  now rewrite <- INR_IZR_INZ.
Qed.
Lemma begins_hash s : begins_with ("#"%char :: s) (s_ "#") = true.
Proof. reflexivity. Qed.

(** The nearest float to n / D, multiplied by 255 in double, is in [k, k + 1). *)
Definition level_check (n D k : Z) : bool :=
  let e := (Z.log2 (n * 2 ^ 40 / D) - 40 - 23)%Z in
  let p := (2 ^ (- e))%Z in
  let m := ((2 * n * p + D) / (2 * D))%Z in
  ((e <? 0) && (-149 <=? e) && (2 ^ 23 * D <=? n * p) && (n * p <? 2 ^ 24 * D) && (0 <? D) &&
   (2 * Z.abs (n * p - m * D) <? D) && (Z.abs (255 * m) <? 2 ^ 53) && (k * p <=? 255 * m) && (255 * m <? (k + 1) * p) && (0 <=? k))%Z%bool.
Lemma level_sound n D k : level_check n D k = true ->
  to_int (xmul rnd64 (Fin (rnd32 (IZR n / IZR D))) (Fin 255)) = Ret k \/ (2 ^ 31 <= k)%Z.
Proof.
  unfold level_check. set (e := (Z.log2 (n * 2 ^ 40 / D) - 40 - 23)%Z). set (p := (2 ^ (- e))%Z).
  set (m := ((2 * n * p + D) / (2 * D))%Z). clearbody m. intro H.
  repeat (apply andb_true_iff in H as [H ?]).
  repeat match goal with
         | H : (_ <? _)%Z = true |- _ => apply Z.ltb_lt in H
         | H : (_ <=? _)%Z = true |- _ => apply Z.leb_le in H end.
  assert (E : (e < 0)%Z) by auto. clearbody e.
  assert (P : IZR p = bpow radix2 (- e)).
  { unfold p. apply (IZR_Zpower radix2). lia. }
  assert (PP : bpow radix2 e * IZR p = 1) by (rewrite P, <- bpow_plus; replace (e + - e)%Z with 0%Z by lia; reflexivity).
  assert (BP : 0 < bpow radix2 e) by apply bpow_gt_0. assert (PG : 0 < IZR p) by (rewrite P; apply bpow_gt_0).
  assert (DG : 0 < IZR D) by (apply IZR_lt; lia).
  assert (X : IZR n / IZR D = (IZR n * IZR p / IZR D) * bpow radix2 e).
  { replace (IZR n * IZR p / IZR D * bpow radix2 e) with (IZR n / IZR D * (bpow radix2 e * IZR p)) by (field; lra). rewrite PP. lra. }
  assert (R32 : rnd32 (IZR n / IZR D) = IZR m * bpow radix2 e).
  { apply rnd32_calc; auto.
    - replace (e + 23)%Z with (23 + e)%Z by lia. replace (e + 24)%Z with (24 + e)%Z by lia. rewrite !bpow_plus, X. split.
      + apply Rmult_le_compat_r; [lra|]. apply (Rmult_le_reg_r (IZR D)); auto.
        replace (IZR n * IZR p / IZR D * IZR D) with (IZR (n * p)) by (rewrite mult_IZR; field; lra).
        replace (bpow radix2 23) with (IZR (2 ^ 23)) by reflexivity. rewrite <- mult_IZR. apply IZR_le. lia.
      + apply Rmult_lt_compat_r; [lra|]. apply (Rmult_lt_reg_r (IZR D)); auto.
        replace (IZR n * IZR p / IZR D * IZR D) with (IZR (n * p)) by (rewrite mult_IZR; field; lra).
        replace (bpow radix2 24) with (IZR (2 ^ 24)) by reflexivity. rewrite <- mult_IZR. apply IZR_lt. lia.
    - left. rewrite X. replace (IZR n * IZR p / IZR D * bpow radix2 e - IZR m * bpow radix2 e) with
        (IZR (n * p - m * D) / IZR D * bpow radix2 e) by (rewrite minus_IZR, !mult_IZR; field; lra).
      rewrite Rabs_mult, (Rabs_pos_eq (bpow radix2 e)) by lra. apply Rmult_lt_compat_r; [lra|].
      unfold Rdiv. rewrite Rabs_mult, (Rabs_pos_eq (/ IZR D)) by (left; now apply Rinv_0_lt_compat).
      apply (Rmult_lt_reg_r (IZR D)); auto. rewrite Rmult_assoc, Rinv_l by lra. rewrite <- abs_IZR.
      apply (Rmult_lt_reg_l 2); [lra|]. replace (2 * (/ 2 * IZR D)) with (IZR D) by lra.
      rewrite Rmult_1_r, <- mult_IZR. apply IZR_lt. lia. }
  destruct (Z_lt_le_dec k (2 ^ 31)) as [K|K]; [left|right; lia].
  cbn [xmul to_int]. rewrite R32.
  replace (IZR m * bpow radix2 e * 255) with (IZR (255 * m) * bpow radix2 e) by (rewrite mult_IZR; lra).
  rewrite rnd64_id by (apply is64_int; lia).
  assert (T : Ztrunc (IZR (255 * m) * bpow radix2 e) = k).
  { rewrite Ztrunc_floor.
    - apply Zfloor_imp. split.
      + apply (Rmult_le_reg_r (IZR p)); auto. rewrite Rmult_assoc, PP, Rmult_1_r, <- mult_IZR. apply IZR_le. lia.
      + apply (Rmult_lt_reg_r (IZR p)); auto. rewrite Rmult_assoc, PP, Rmult_1_r, <- mult_IZR. apply IZR_lt. lia.
    - apply Rmult_le_pos; [|lra]. apply IZR_le. nia. }
  rewrite T. assert (((- 2 ^ 31 <=? k) && (k <? 2 ^ 31))%Z = true) as ->; [|reflexivity].
  apply andb_true_iff. split; [apply Z.leb_le|apply Z.ltb_lt]; lia.
Qed.
Lemma to_int_zero D : to_int (xmul rnd64 (Fin (rnd32 (IZR 0 / IZR D))) (Fin 255)) = Ret 0%Z.
Proof.
  cbn [xmul to_int]. unfold Rdiv. rewrite Rmult_0_l. assert (rnd32 0 = 0) as -> by (apply round_0; auto with typeclass_instances).
  rewrite Rmult_0_l, rnd64_zero, Ztrunc_IZR. reflexivity.
Qed.
Lemma level_255 n : (n <= 255)%nat -> to_int (xmul rnd64 (Fin (rnd32 (INR n / 255))) (Fin 255)) = Ret (Z.of_nat n).
Proof.
  intro L. rewrite INR_IZR_INZ. destruct n as [|n]; [apply (to_int_zero 255)|].
  assert (A : forallb (fun n => level_check (Z.of_nat (S n)) 255 (Z.of_nat (S n))) (seq 0 255) = true) by (vm_compute; reflexivity).
  rewrite forallb_forall in A. specialize (A n ltac:(apply in_seq; lia)). apply level_sound in A as [A|A]; [exact A|]. lia.
Qed.
Lemma level_15 n : (n <= 15)%nat -> to_int (xmul rnd64 (Fin (rnd32 (INR n / 15))) (Fin 255)) = Ret (Z.of_nat (17 * n)).
Proof.
  intro L. rewrite INR_IZR_INZ. destruct n as [|n]; [apply (to_int_zero 15)|].
  assert (A : forallb (fun n => level_check (Z.of_nat (S n)) 15 (Z.of_nat (17 * S n))) (seq 0 15) = true) by (vm_compute; reflexivity).
  rewrite forallb_forall in A. specialize (A n ltac:(apply in_seq; lia)). apply level_sound in A as [A|A]; [exact A|]. lia.
Qed.
Lemma hex_int_byte n m : (n < 16)%nat -> (m < 16)%nat -> hex_int (Z.of_nat (16 * n + m)) = [low n; low m].
Proof.
  intros N M.
  assert (A : forallb (fun n => forallb (fun m => str_eqb (hex_int (Z.of_nat (16 * n + m))) [low n; low m]) (seq 0 16)) (seq 0 16) = true)
    by (vm_compute; reflexivity).
  rewrite forallb_forall in A. specialize (A n ltac:(apply in_seq; lia)). rewrite forallb_forall in A.
  specialize (A m ltac:(apply in_seq; lia)). destruct (str_eqb_spec (hex_int (Z.of_nat (16 * n + m))) [low n; low m]); congruence.
Qed.

(* ---------------- colour maps ---------------- *)
From Flocq Require Import Plus_error Sterbenz.

Lemma clamp_fin x : clamp01 (Fin x) = Fin (limited x).
Proof.
  unfold clamp01, limited. cbn. destruct (Rlt_dec x 0).
  - f_equal. rewrite Rmin_right, Rmax_left by lra. reflexivity.
  - destruct (Rlt_dec 1 x); f_equal.
    + rewrite Rmin_left, Rmax_right by lra. reflexivity.
    + rewrite Rmin_right, Rmax_right by lra. reflexivity.
Qed.
Lemma limited_01 x : 0 <= limited x <= 1.
Proof. unfold limited. split; [apply Rmax_l|]. apply Rmax_lub; [lra|apply Rmin_l]. Qed.
Lemma limited_64 x : is64 x -> is64 (limited x).
Proof.
  intro H. unfold limited. assert (is64 1) by (apply (is64_IZR 1); reflexivity). assert (is64 0) by (apply (is64_IZR 0); reflexivity).
  apply Rmax_case; auto. apply Rmin_case; auto.
Qed.

Lemma sorted_of_iff l L : sorted_of (to_stops l) L <-> exists l', L = to_stops l' /\ in_order l l'.
Proof.
  assert (S : forall l', StronglySorted key_le (to_stops l') <-> StronglySorted (fun a b => fst a <= fst b) l').
  { induction l' as [|a l' IH]; [split; constructor|]. cbn [to_stops map]. fold (to_stops l'). split; intro H; inversion H; subst; constructor.
    - now apply IH.
    - apply Forall_forall. intros b B. rewrite Forall_forall in H3. specialize (H3 (Fin (fst b), col (snd b)) (in_map _ _ b B)).
      unfold key_le in H3. cbn [fst] in H3. now apply xlt_fin_f in H3.
    - now apply IH.
    - apply Forall_forall. intros q Q. apply in_map_iff in Q as (b & <- & B). unfold key_le. cbn [fst]. apply xlt_fin_f.
      rewrite Forall_forall in H3. now apply H3. }
  split.
  - intros [P O]. unfold to_stops in P. apply Permutation_sym, Permutation_map_inv in P as (l' & -> & P).
    exists l'. split; auto. split; auto. now apply S.
  - intros (l' & -> & P & O). split; [now apply Permutation_map|now apply S].
Qed.

Lemma lower_app l1 l2 v : Forall (fun p => fst p < v) l1 ->
  lower_bound (to_stops (l1 ++ l2)) (Fin v) = (length l1 + lower_bound (to_stops l2) (Fin v))%nat.
Proof.
  induction l1 as [|a l1 IH]; intro F; [reflexivity|]. inversion F; subst. cbn [app to_stops map lower_bound fst length].
  assert (xlt (Fin (fst a)) (Fin v) = true) as -> by now apply xlt_fin. cbn [plus]. f_equal. now apply IH.
Qed.
Lemma upper_app l1 l2 v : Forall (fun p => fst p <= v) l1 ->
  upper_bound (to_stops (l1 ++ l2)) (Fin v) = (length l1 + upper_bound (to_stops l2) (Fin v))%nat.
Proof.
  induction l1 as [|a l1 IH]; intro F; [reflexivity|]. inversion F; subst. cbn [app to_stops map upper_bound fst length].
  assert (xlt (Fin v) (Fin (fst a)) = false) as -> by now apply xlt_fin_f. cbn [plus]. f_equal. now apply IH.
Qed.
Lemma sorted_prefix (l1 l2 : rstops) a : StronglySorted (fun a b => fst a <= fst b) (l1 ++ a :: l2) -> Forall (fun p => fst p <= fst a) l1.
Proof.
  induction l1 as [|b l1 IH]; intro H; constructor; cbn in H; inversion H; subst.
  - rewrite Forall_forall in H3. apply H3. apply in_or_app. right. now left.
  - now apply IH.
Qed.
Lemma nth_stops l i : nth_error (to_stops l) i = option_map (fun p => (Fin (fst p), col (snd p))) (nth_error l i).
Proof. apply nth_error_map. Qed.

(** What a gradient computes at [v]: nothing above the last stop, else a mixture. *)
Lemma gradient_at d stod l1 k c l2 value v n : stod value = Some (Fin v, n) ->
  Forall (fun p => fst p < limited v) l1 -> limited v <= k ->
  let '(k0, c0) := match rev l1 with [] => (0, mk_rgba 0 0 0 1) | p :: _ => p end in
  gradient d stod (to_stops (l1 ++ (k, c) :: l2)) value =
  Ret (if Rle_dec k (limited v) then mix d (col c0) (col c) (Fin 0) (Fin 1)
       else let w1 := xdiv d (xsub d (Fin (limited v)) (Fin k0)) (xsub d (Fin k) (Fin k0)) in
            mix d (col c0) (col c) (xsub d (Fin 1) w1) w1).
Proof.
  intros SV F L.
  assert (LB : lower_bound (to_stops (l1 ++ (k, c) :: l2)) (Fin (limited v)) = length l1).
  { rewrite lower_app by auto. cbn [to_stops map lower_bound fst]. assert (xlt (Fin k) (Fin (limited v)) = false) as -> by now apply xlt_fin_f. lia. }
  unfold gradient. destruct (to_stops (l1 ++ (k, c) :: l2)) as [|s0 ss] eqn:E; [destruct l1; discriminate|]. rewrite <- E in *. clear E s0 ss.
  rewrite SV, clamp_fin, LB, nth_stops, nth_error_app2, Nat.sub_diag by lia. cbn [nth_error option_map fst snd].
  assert (PR : match length l1 with O => (Fin 0, black) | S j => nth j (to_stops (l1 ++ (k, c) :: l2)) (Fin 0, black) end =
               (let '(k0, c0) := match rev l1 with [] => (0, mk_rgba 0 0 0 1) | p :: _ => p end in (Fin k0, col c0))).
  { destruct l1 as [|b l1] using rev_ind; [reflexivity|]. clear IHl1. rewrite rev_app_distr. cbn [rev app]. destruct b as [k0 c0].
    rewrite app_length. cbn [length]. rewrite Nat.add_1_r. apply nth_error_nth. rewrite nth_stops, nth_error_app1 by (rewrite app_length; cbn; lia).
    rewrite nth_error_app2, Nat.sub_diag by lia. reflexivity. }
  rewrite PR. destruct (rev l1) as [|[k0 c0] r]; cbn [xle]; destruct (Rle_dec k (limited v)); reflexivity.
Qed.

Lemma exact_mix a b w : Fin w = Fin w -> xadd exact (xmul exact (Fin a) (xsub exact (Fin 1) (Fin w))) (xmul exact (Fin b) (Fin w)) = Fin (a + (b - a) * w).
Proof. intros _. cbn. unfold exact. f_equal. lra. Qed.

(** Binary64: the weights. *)
Lemma rnd64_one : rnd64 1 = 1.
Proof. apply rnd64_id, (is64_IZR 1). reflexivity. Qed.
Lemma weights_64 v k0 k : is64 v -> is64 k0 -> is64 k -> k0 <= v -> v < k ->
  exists w1, xdiv rnd64 (xsub rnd64 (Fin v) (Fin k0)) (xsub rnd64 (Fin k) (Fin k0)) = Fin w1 /\ 0 <= w1 <= 1 /\ is64 w1.
Proof.
  intros V K0 K L1 L2. rewrite !xsub_fin.
  assert (B : 0 < rnd64 (k - k0)).
  { assert (0 <= rnd64 (k - k0)) by (rewrite <- rnd64_zero; apply rnd64_mono; lra).
    assert (rnd64 (k - k0) <> 0); [|lra].
    unfold rnd64. replace (k - k0) with (k + - k0) by lra. apply round_plus_neq_0; auto with typeclass_instances.
    - apply generic_format_opp. exact K0.
    - lra. }
  rewrite xdiv_fin by lra. eexists. split; [reflexivity|]. split; [|apply rnd64_is].
  assert (A0 : 0 <= rnd64 (v - k0)) by (rewrite <- rnd64_zero; apply rnd64_mono; lra).
  assert (A1 : rnd64 (v - k0) <= rnd64 (k - k0)) by (apply rnd64_mono; lra).
  split.
  - rewrite <- rnd64_zero. apply rnd64_mono. apply Rmult_le_pos; auto. left. now apply Rinv_0_lt_compat.
  - rewrite <- rnd64_one. apply rnd64_mono. apply (Rmult_le_reg_r (rnd64 (k - k0))); auto. unfold Rdiv. rewrite Rmult_assoc, Rinv_l by lra. lra.
Qed.
Lemma weight_sum w1 : is64 w1 -> 0 <= w1 <= 1 -> rnd64 (rnd64 (1 - w1) + w1) <= 1.
Proof.
  intros F W. destruct (Rle_or_lt (1 / 2) w1) as [H|H].
  - rewrite (rnd64_id (1 - w1)).
    + replace (1 - w1 + w1) with 1 by lra. rewrite rnd64_one. lra.
    + unfold is64. apply sterbenz; auto with typeclass_instances.
      * apply (is64_IZR 1). reflexivity.
      * lra.
  - destruct (rnd64_rel (1 - w1)) as (e & E & R).
    { rewrite Rabs_pos_eq by lra. apply Rle_trans with (bpow radix2 (-1)); [apply bpow_le; lia|cbn; lra]. }
    rewrite R. assert (U : (1 - w1) * (1 + e) + w1 <= 1 + bpow radix2 (-53)).
    { assert (Rabs e <= bpow radix2 (-53)) by exact E. apply Rabs_le_inv in H0. assert (0 < bpow radix2 (-53)) by apply bpow_gt_0. nra. }
    apply rnd64_mono in U. eapply Rle_trans; [exact U|].
    rewrite (rnd64_calc (1 + bpow radix2 (-53)) (2 ^ 52) (-52)); [cbn; lra|lia| |].
    + split; cbn; lra.
    + right. split; [reflexivity|]. cbn. rewrite Rabs_pos_eq; lra.
Qed.
Lemma mix_64 a b w1 : 0 <= a <= 1 -> 0 <= b <= 1 -> is64 w1 -> 0 <= w1 <= 1 ->
  exists x, xadd rnd64 (xmul rnd64 (Fin a) (xsub rnd64 (Fin 1) (Fin w1))) (xmul rnd64 (Fin b) (Fin w1)) = Fin x /\ 0 <= x <= 1.
Proof.
  intros A B F W. rewrite xsub_fin. cbn [xmul xadd]. eexists. split; [reflexivity|].
  assert (W0 : 0 <= rnd64 (1 - w1)) by (rewrite <- rnd64_zero; apply rnd64_mono; lra).
  assert (P : forall a w, 0 <= a <= 1 -> 0 <= w -> is64 w -> 0 <= rnd64 (a * w) <= w).
  { intros x w X Wp Fw. split; [rewrite <- rnd64_zero; apply rnd64_mono; nra|]. rewrite <- (rnd64_id w) at 2 by auto. apply rnd64_mono. nra. }
  pose proof (P a (rnd64 (1 - w1)) A W0 (rnd64_is _)). pose proof (P b w1 B (proj1 W) F). split.
  - rewrite <- rnd64_zero. apply rnd64_mono. lra.
  - eapply Rle_trans; [|apply (weight_sum w1 F W)]. apply rnd64_mono. lra.
Qed.
Lemma mix_end a b : xadd rnd64 (xmul rnd64 (Fin a) (Fin 0)) (xmul rnd64 (Fin b) (Fin 1)) = Fin (rnd64 b).
Proof.
  cbn. rewrite Rmult_0_r, Rmult_1_r, rnd64_zero, Rplus_0_l. f_equal. apply rnd64_id, rnd64_is.
Qed.
