(** Layouts that never end, and single-precision effects. *)
From Verif Require Import Base Sexpr_Model Dispatch_Model Dispatch_Spec Dispatch_Proofs Csv_Model Data_Model Data_Spec Data_Proofs Num Scale_Model Scale_Spec Scale_Proofs Scale_Proofs2 Scale_Proofs3 Scale_Proofs4 Scale_Proofs5.
From Flocq Require Import Relative.
Local Open Scope R_scope.

Section Div.
  Variable show : xr -> str.
  Variable fmt : nat -> str -> str.

  Lemma translate_total d f s v : s_kind s <> Categorical -> exists p, scale_translate d f s v = Ret p.
  Proof. intro K. unfold scale_translate. destruct (s_kind s); eauto; easy. Qed.

  Lemma linear_negative s a b step l fuel : s_kind s <> Categorical ->
    scale_min exact exact s = Fin a -> scale_max exact exact s = Fin b -> a <= b -> step < 0 ->
    layout_linear exact exact show fmt fuel s (Fin step) l = Diverge.
  Proof.
    intros K A B L S. unfold layout_linear. rewrite A, B. unfold checked_ticks, max_ticks.
    rewrite xsub_exact, xdiv_fin by lra. unfold exact at 1.
    assert ((b - a) / step <= 0).
    { unfold Rdiv. assert (/ step < 0) by (now apply Rinv_lt_0_compat). nra. }
    destruct (xlt _ _) eqn:E; [apply xlt_fin in E; lra|].
    rewrite (tick_diverge show fmt exact exact s (Fin b) (Fin step) false (Fin a)
               (fun v => translate_total exact exact s v K) fuel (fun v => exists x, v = Fin x /\ x <= b)); auto.
    - exists a. split; auto.
    - intros v (x & -> & X). split; [now apply xle_fin|]. exists (x + step). split; auto. lra.
  Qed.

  Lemma interval_zero s a b x l fuel : s_kind s <> Categorical ->
    scale_min exact exact s = Fin a -> scale_max exact exact s = Fin b -> a <= x <= b ->
    layout_interval exact exact show fmt fuel s (Fin 0) (Fin x) (Fin x) l = Diverge.
  Proof.
    intros K A B L. unfold layout_interval. rewrite A, B, xmax_fin, xmin_fin, Rmax_left, Rmin_left by lra.
    unfold checked_ticks. rewrite xsub_exact. replace (x - x) with 0 by lra.
    assert (E : xdiv exact (Fin 0) (Fin 0) = NaN).
    { cbn. destruct (Req_EM_T 0 0); [|lra]. unfold xsign_inf. destruct (Rlt_dec 0 0); [lra|]. reflexivity. }
    rewrite E. cbn [max_ticks xlt].
    rewrite (tick_diverge show fmt exact exact s (Fin x) (Fin 0) false (Fin x)
               (fun v => translate_total exact exact s v K) fuel (fun v => v = Fin x)); auto.
    intros v ->. split; [apply xle_fin; lra|]. cbn. unfold exact. f_equal. lra.
  Qed.

  (* binary64: a step below half an ulp *)
  Definition big_scale : scale :=
    mk_scale Linear (Some (Fin (IZR (2^54)))) (Some (Fin (IZR (2^54 + 4)))) (Fin 10) false (Fin 0) None None [] [].

  Lemma big_round : rnd64 (IZR (2^54) + 1) = IZR (2^54).
  Proof.
    unfold rnd64, round, scaled_mantissa, cexp.
    assert (M : mag radix2 (IZR (2^54) + 1) = 55%Z :> Z).
    { apply mag_unique_pos. cbn. lra. }
    rewrite M. replace (FLT_exp (-1074) 53 55) with 2%Z by reflexivity.
    rewrite (Znearest_imp _ _ (2 ^ 52)).
    - unfold F2R. cbn. lra.
    - cbn. rewrite Rabs_pos_eq by lra. lra.
  Qed.

  Lemma linear64_stuck f l fuel : layout_linear rnd64 f show fmt fuel big_scale (Fin 1) l = Diverge.
  Proof.
    unfold layout_linear, checked_ticks. cbn [scale_min scale_max big_scale s_min s_max h_min h_max].
    rewrite xsub_fin. assert (E4 : rnd64 (IZR (2^54 + 4) - IZR (2^54)) = 4).
    { rewrite <- minus_IZR. replace (2^54 + 4 - 2^54)%Z with 4%Z by lia. apply rnd64_id. apply (is64_IZR 4). reflexivity. }
    rewrite E4, xdiv_fin by lra. replace (4 / 1) with 4 by lra. rewrite (rnd64_id 4) by (apply (is64_IZR 4); reflexivity).
    unfold max_ticks. destruct (xlt _ _) eqn:E; [apply xlt_fin in E; lra|].
    rewrite (tick_diverge show fmt rnd64 f big_scale _ (Fin 1) false _
               (fun v => translate_total rnd64 f big_scale v ltac:(discriminate)) fuel (fun v => v = Fin (IZR (2^54)))); auto.
    intros v ->. split; [apply xle_fin; apply IZR_le; lia|]. cbn [xadd]. now rewrite big_round.
  Qed.

  (* exponential *)
  Lemma exp_diverge s base (I : xr -> Prop) : s_kind s <> Categorical ->
    (forall ex, I ex -> I (xadd exact ex (Fin 1)) /\
       (xlt (xpow exact base ex) (scale_min exact exact s) = true \/
        xlt (xadd exact (scale_max exact exact s) (epsilon exact)) (xpow exact base ex) = false)) ->
    forall fuel ex idx l, I ex -> exp_loop exact exact show fmt fuel s base ex idx l = Diverge.
  Proof.
    intros K H. induction fuel as [|fuel IH]; intros ex idx l E; cbn [exp_loop]; auto.
    destruct (H ex E) as [E' D]. destruct (translate_total exact exact s (xpow exact base ex) K) as [p ->]. cbn [bind].
    destruct (xlt (xpow exact base ex) (scale_min exact exact s)); [now apply IH|].
    destruct D as [D|D]; [discriminate|]. rewrite D. now apply IH.
  Qed.

  Lemma exp_negative s base a l fuel : s_kind s <> Categorical -> s_log_base s = Fin base -> base <> 1 ->
    scale_min exact exact s = Fin a -> a < 0 ->
    layout_exponential exact exact show fmt fuel s (Fin base) l = Diverge.
  Proof.
    intros K B B1 A L. unfold layout_exponential.
    assert (E : start_exp exact exact s = NaN).
    { unfold start_exp. rewrite A. destruct (xeq (Fin a) (Fin 0)) eqn:X; [apply xeq_fin in X; lra|].
      cbn [xlog]. destruct (Rlt_dec 0 a); [lra|]. destruct (Rlt_dec a 0); [|lra]. reflexivity. }
    rewrite E, (exp_diverge s (Fin base) (fun ex => ex = NaN)); auto.
    intros ex ->. split; auto. right. cbn. destruct (Req_EM_T base 1); [tauto|].
    destruct (scale_max exact exact s); reflexivity.
  Qed.

  Lemma exp_small_base s base mn mx l fuel : s_kind s <> Categorical -> 0 < base <= 1 ->
    scale_min exact exact s = Fin mn -> scale_max exact exact s = Fin mx -> 0 < mn -> mn <= mx ->
    s_log_base s = Fin base -> base <> 1 ->
    layout_exponential exact exact show fmt fuel s (Fin base) l = Diverge.
  Proof.
    intros K B A C P L LB B1. unfold layout_exponential.
    assert (NB : ln base <> 0) by (intro Z; apply B1; apply ln_inv; auto; try lra; now rewrite ln_1).
    assert (E : start_exp exact exact s = Fin (ln mn / ln base)).
    { unfold start_exp. rewrite A, LB. destruct (xeq (Fin mn) (Fin 0)) eqn:X; [apply xeq_fin in X; lra|].
      cbn [xlog]. destruct (Rlt_dec 0 mn); [|lra]. destruct (Rlt_dec 0 base); [|lra]. unfold exact.
      rewrite xdiv_fin by auto. reflexivity. }
    rewrite E, (exp_diverge s (Fin base) (fun ex => exists x, ex = Fin x /\ Rpower base x <= mx)); auto.
    - intros ex (x & -> & X). split.
      + exists (x + 1). split; auto. rewrite Rpower_plus, Rpower_1 by lra.
        assert (0 < Rpower base x) by apply exp_pos. nra.
      + right. rewrite xpow_exact, C by lra. cbn [epsilon xadd]. apply xlt_fin_f. unfold exact. lra.
    - eexists. split; [reflexivity|]. unfold Rpower. replace (ln mn / ln base * ln base) with (ln mn) by (field; auto).
      rewrite exp_ln by auto. lra.
  Qed.

  (** Exponential layout on a logarithmic scale, base > 1. *)
  Lemma exp_layout s base a b l : s_kind s = Logarithmic -> s_log_base s = Fin base -> 1 < base ->
    scale_min exact exact s = Fin a -> scale_max exact exact s = Fin b -> 0 < a -> a < b ->
    exists n, (forall k, (k < n)%nat -> a * base ^ k <= b + 1/1000) /\ b + 1/1000 < a * base ^ n /\
    forall fuel, (n < fuel)%nat ->
      layout_exponential exact exact show fmt fuel s (Fin base) l =
      Ret (with_ticks show fmt l (log_pos (s_inverted s) a b) (powers a base n), true).
  Proof.
    intros K LB B1 A C P L. destruct (powers_bound a base (b + 1/1000) B1 P) as (n & Le & Hi).
    exists n. split; auto. split; auto. intros fuel F. unfold layout_exponential.
    assert (NB : ln base <> 0) by (pose proof (ln_lt 1 base); rewrite ln_1 in *; lra).
    assert (E : start_exp exact exact s = Fin (ln a / ln base)).
    { unfold start_exp. rewrite A, LB. destruct (xeq (Fin a) (Fin 0)) eqn:X; [apply xeq_fin in X; lra|].
      cbn [xlog]. destruct (Rlt_dec 0 a); [|lra]. destruct (Rlt_dec 0 base); [|lra]. unfold exact.
      rewrite xdiv_fin by auto. reflexivity. }
    rewrite E, (exp_loop_ok show fmt s (log_pos (s_inverted s) a b) base a b) with (n := n) (v := a); auto; try lra.
    - intros v V. unfold scale_translate. rewrite K. f_equal. apply (translate_log_ok exact s base); auto; lra.
    - unfold Rpower. replace (ln a / ln base * ln base) with (ln a) by (field; auto). now rewrite exp_ln.
    - intros k _. pose proof (pow_R1_Rle base k ltac:(lra)). nra.
  Qed.
End Div.

(* ---- single precision subdivision ---- *)
Lemma rnd32_0 : rnd32 0 = 0.
Proof. apply round_0. auto with typeclass_instances. Qed.
Lemma rnd32_1 : rnd32 1 = 1.
Proof. apply rnd32_id. apply (is32_IZR 1). reflexivity. Qed.

Lemma rnd32_rel x : 1 / IZR (2 ^ 100) <= x -> exists e, Rabs e <= / IZR (2 ^ 24) /\ rnd32 x = x * (1 + e).
Proof.
  intro H. unfold rnd32.
  destruct (relative_error_N_FLT_ex radix2 (-149) 24 ltac:(reflexivity) (fun z => negb (Z.even z)) x) as (e & E & R).
  - rewrite Rabs_pos_eq by (cbn in H; lra). apply Rle_trans with (2 := H).
    replace (1 / IZR (2 ^ 100)) with (bpow radix2 (-100)) by (cbn; lra). apply bpow_le. lia.
  - exists e. split; [|exact R]. eapply Rle_trans; [exact E|]. cbn. lra.
Qed.

Lemma is32_INR n : (Z.of_nat n < 2 ^ 24)%Z -> is32 (INR n).
Proof. intro H. rewrite INR_IZR_INZ. apply is32_IZR. lia. Qed.

Lemma subdivide32 n i : (0 < n)%nat -> (Z.of_nat n < 2 ^ 24)%Z -> (i <= n)%nat ->
  exists p, subdivide_pos rnd32 n i = Fin p /\ 0 <= p /\ Rabs (p - cell_border n i) <= / IZR (2 ^ 22).
Proof.
  intros N N24 I. assert (PN : 0 < INR n) by (now apply lt_0_INR).
  unfold subdivide_pos. rewrite (rnd32_id (INR n)) by (now apply is32_INR).
  rewrite (rnd32_id (INR i)) by (apply is32_INR; lia). rewrite xdiv_fin by lra. cbn [xmul].
  eexists. split; [reflexivity|].
  assert (B1 : 1 / IZR (2^24) <= 1 / INR n).
  { unfold Rdiv. rewrite !Rmult_1_l. apply Rinv_le; auto. rewrite INR_IZR_INZ. apply IZR_le. lia. }
  assert (N1 : 1 / INR n <= 1).
  { unfold Rdiv. rewrite Rmult_1_l. rewrite <- Rinv_1. apply Rinv_le; [lra|]. change 1 with (INR 1). apply le_INR. lia. }
  assert (P0 : 0 <= rnd32 (1 / INR n)).
  { rewrite <- rnd32_0. apply rnd32_mono. apply Rle_trans with (2 := B1). cbn. lra. }
  split.
  { rewrite <- rnd32_0. apply rnd32_mono. apply Rmult_le_pos; auto. apply pos_INR. }
  destruct (rnd32_rel (1 / INR n)) as (e1 & E1 & R1).
  { apply Rle_trans with (2 := B1). cbn. lra. }
  destruct (Nat.eq_dec i 0) as [->|NI].
  { cbn [INR]. rewrite Rmult_0_r, rnd32_0. unfold cell_border. cbn [INR]. unfold Rdiv. rewrite Rmult_0_l, Rminus_0_r, Rabs_R0. cbn. lra. }
  assert (I1 : 1 <= INR i) by (change 1 with (INR 1); apply le_INR; lia).
  assert (B : cell_border n i <= 1).
  { unfold cell_border. apply Rmult_le_reg_r with (INR n); auto. unfold Rdiv. rewrite Rmult_assoc, Rinv_l by lra.
    rewrite Rmult_1_r, Rmult_1_l. now apply le_INR. }
  assert (BP : 0 < cell_border n i) by (unfold cell_border; apply Rmult_lt_0_compat; [lra|now apply Rinv_0_lt_compat]).
  destruct (rnd32_rel (rnd32 (1 / INR n) * INR i)) as (e2 & E2 & R2).
  { rewrite R1. apply Rabs_le_inv in E1.
    assert (/ IZR (2^24) <= 1/2) by (cbn; lra).
    assert (1/2 <= 1 + e1) by lra.
    apply Rle_trans with (1 / IZR (2^24) * (1/2) * 1); [cbn; lra|].
    assert (Z24 : 0 < 1 / IZR (2^24)) by (cbn; lra).
    apply Rmult_le_compat; try lra. apply Rmult_le_compat; lra. }
  rewrite R2, R1. replace (1 / INR n * (1 + e1) * INR i * (1 + e2)) with (cell_border n i * ((1 + e1) * (1 + e2)))
    by (unfold cell_border; field; lra).
  replace (cell_border n i * ((1 + e1) * (1 + e2)) - cell_border n i) with (cell_border n i * (e1 + e2 + e1 * e2)) by ring.
  rewrite Rabs_mult. rewrite (Rabs_pos_eq (cell_border n i)) by lra.
  assert (Rabs (e1 + e2 + e1 * e2) <= / IZR (2^24) + / IZR (2^24) + / IZR (2^24) * / IZR (2^24)).
  { eapply Rle_trans; [apply Rabs_triang|]. apply Rplus_le_compat.
    - eapply Rle_trans; [apply Rabs_triang|]. lra.
    - rewrite Rabs_mult. apply Rmult_le_compat; auto; apply Rabs_pos. }
  apply Rle_trans with (1 * (/ IZR (2 ^ 24) + / IZR (2 ^ 24) + / IZR (2 ^ 24) * / IZR (2 ^ 24))).
  - apply Rmult_le_compat; auto; [lra|apply Rabs_pos].
  - cbn. lra.
Qed.

Lemma subdivide32_41 : subdivide_pos rnd32 41 41 = Fin (16777215 / 16777216).
Proof.
  unfold subdivide_pos. rewrite (rnd32_id (INR 41)) by (apply is32_INR; cbn; lia).
  rewrite xdiv_fin by (cbn; lra). cbn [xmul]. f_equal.
  assert (E : rnd32 (1 / INR 41) = 3273603 / 134217728).
  { unfold rnd32, round, scaled_mantissa, cexp.
    assert (M : mag radix2 (1 / INR 41) = (-5)%Z :> Z) by (apply mag_unique_pos; cbn; lra).
    rewrite M. replace (FLT_exp (-149) 24 (-5)) with (-29)%Z by reflexivity.
    rewrite (Znearest_imp _ _ 13094412).
    - unfold F2R. cbn. lra.
    - cbn. apply Rabs_def1; lra. }
  rewrite E. unfold rnd32, round, scaled_mantissa, cexp.
  assert (M : mag radix2 (3273603 / 134217728 * INR 41) = 0%Z :> Z) by (apply mag_unique_pos; cbn; lra).
  rewrite M. replace (FLT_exp (-149) 24 0) with (-24)%Z by reflexivity.
  rewrite (Znearest_imp _ _ 16777215).
  - unfold F2R. cbn. lra.
  - cbn. apply Rabs_def1; lra.
Qed.
