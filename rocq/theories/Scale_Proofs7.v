(** Exponential layout with sub-steps; categories in binary64; termination. *)
From Verif Require Import Base Sexpr_Model Dispatch_Model Dispatch_Spec Dispatch_Proofs Csv_Model Data_Model Data_Spec Data_Proofs Num Scale_Model Scale_Spec Scale_Proofs Scale_Proofs2 Scale_Proofs3 Scale_Proofs4 Scale_Proofs5 Scale_Proofs6.
Local Open Scope R_scope.

(* ---- categories in binary64 ---- *)
Lemma is64_INR n : (Z.of_nat n < 2 ^ 53)%Z -> is64 (INR n).
Proof. intro H. rewrite INR_IZR_INZ. apply is64_IZR. lia. Qed.

Lemma categorical64 s n i : length (s_categories s) = n -> (i < n)%nat -> (Z.of_nat n <= 2 ^ 50)%Z ->
  s_padding s = Fin (1/2) -> translate_categorical rnd64 s i = Ret (Fin (rnd64 (cell_centre n i))).
Proof.
  intros L I N P. unfold translate_categorical. rewrite L, P.
  assert (INR i <= INR n - 1).
  { replace (INR n - 1) with (INR (n - 1)) by (rewrite minus_INR by lia; cbn; lra). apply le_INR. lia. }
  pose proof (pos_INR i). pose proof (pos_INR n).
  rewrite (rnd64_id (INR n)) by (apply is64_INR; lia). rewrite (rnd64_id (INR i)) by (apply is64_INR; lia).
  rewrite xsub_fin. replace (INR n - 1) with (INR (n - 1)) in * by (rewrite minus_INR by lia; cbn; lra).
  rewrite (rnd64_id (INR (n - 1))) by (apply is64_INR; lia).
  destruct (xlt (Fin (INR (n - 1))) (Fin 0)) eqn:E1; [apply xlt_fin in E1; pose proof (pos_INR (n - 1)); lra|].
  destruct (xlt (Fin (INR i)) (Fin 0)) eqn:E2; [apply xlt_fin in E2; lra|].
  destruct (xlt _ (Fin (INR i))) eqn:E3; [apply xlt_fin in E3; lra|].
  cbn [xadd xmul]. replace (1 / 2 * 2) with 1 by lra. rewrite rnd64_1.
  replace (INR (n - 1) + 1) with (INR n) by (rewrite minus_INR by lia; cbn; lra).
  rewrite (rnd64_id (INR n)) by (apply is64_INR; lia).
  assert (H2 : rnd64 (INR i + 1 / 2) = INR i + 1 / 2).
  { apply rnd64_id. replace (INR i + 1/2) with (IZR (2 * Z.of_nat i + 1) * bpow radix2 (-1)).
    - apply is64_int; lia.
    - rewrite plus_IZR, mult_IZR, <- INR_IZR_INZ. cbn. lra. }
  rewrite H2, xdiv_fin; [reflexivity|]. apply Rgt_not_eq. apply lt_0_INR. lia.
Qed.

Lemma rnd64_err x : 0 < x < 1 -> Rabs (rnd64 x - x) <= bpow radix2 (-54).
Proof.
  intros H. unfold rnd64. eapply Rle_trans; [apply error_le_half_ulp; auto with typeclass_instances|].
  assert (ulp radix2 (FLT_exp (-1074) 53) x <= bpow radix2 (-53)).
  { rewrite ulp_neq_0 by lra. apply bpow_le. unfold cexp, FLT_exp.
    assert (mag radix2 x <= 0)%Z by (apply mag_le_bpow; [lra|rewrite Rabs_pos_eq by lra; cbn; lra]). lia. }
  replace (bpow radix2 (-54)) with (/ 2 * bpow radix2 (-53)) by (cbn; lra). lra.
Qed.

Lemma categorical64_distinct n i j : (i < j)%nat -> (j < n)%nat -> (Z.of_nat n <= 2 ^ 50)%Z ->
  rnd64 (cell_centre n i) < rnd64 (cell_centre n j).
Proof.
  intros I J N. pose proof (cell_centre_inside n i ltac:(lia)) as A. pose proof (cell_centre_inside n j J) as B.
  pose proof (rnd64_err _ A) as EA. pose proof (rnd64_err _ B) as EB. apply Rabs_le_inv in EA, EB.
  assert (bpow radix2 (-50) <= cell_centre n j - cell_centre n i).
  { assert (PN : 0 < INR n) by (apply lt_0_INR; lia). unfold cell_centre.
    replace ((INR j + 1/2) / INR n - (INR i + 1/2) / INR n) with ((INR j - INR i) * / INR n) by (field; lra).
    assert (1 <= INR j - INR i) by (assert (INR i + 1 <= INR j) by (rewrite <- S_INR; apply le_INR; lia); lra).
    assert (bpow radix2 (-50) <= / INR n).
    { replace (bpow radix2 (-50)) with (/ IZR (2 ^ 50)) by (cbn; lra). apply Rinv_le; auto.
      rewrite INR_IZR_INZ. now apply IZR_le. }
    assert (0 < / INR n) by (now apply Rinv_0_lt_compat). nra. }
  cbn in *. lra.
Qed.

(* ---- exponential steps ---- *)
Section Steps.
  Variable show : xr -> str.
  Variable fmt : nat -> str -> str.

  (** The elements up to the first one above the limit. *)
  Fixpoint upto (lim : R) (vs : list R) : list R :=
    match vs with [] => [] | v :: r => if Rlt_dec lim v then [] else v :: upto lim r end.
  (** The m equal sub-steps of the step from v to w. *)
  Definition substeps (v w : R) (m : nat) : list R := map (fun k => v + INR k / INR m * (w - v)) (seq 0 m).

  Lemma inner_ok s t mx m : (0 < m)%nat ->
    (forall v, 0 < v -> scale_translate exact exact s (Fin v) = Ret (Fin (t v))) ->
    scale_max exact exact s = Fin mx ->
    forall v w, 0 < v -> v <= w -> forall r k idx l fuel, (k + r = m)%nat -> (r < fuel)%nat ->
    exists labs idx', inner_steps exact exact show fmt fuel s (Fin v) (Fin w) (N.of_nat k) (N.of_nat m) idx l =
      Ret (mk_layout (positions l ++ map (fun x => Fin (t x))
             (upto (mx + 1/1000) (map (fun k => v + INR k / INR m * (w - v)) (seq k r)))) labs, idx').
  Proof.
    intros M T Mx v w V W. induction r as [|r IH]; intros k idx l fuel E F; (destruct fuel as [|fuel]; [lia|]); cbn [inner_steps].
    - replace (N.of_nat k <? N.of_nat m)%N with false by (symmetry; apply N.ltb_ge; lia).
      cbn. exists (labels l), idx. rewrite app_nil_r. now destruct l.
    - replace (N.of_nat k <? N.of_nat m)%N with true by (symmetry; apply N.ltb_lt; lia).
      rewrite !Nat2N.id. assert (PM : 0 < INR m) by (now apply lt_0_INR).
      set (x := v + INR k / INR m * (w - v)).
      assert (X0 : xadd exact (Fin v) (xmul exact (xdiv exact (Fin (exact (INR k))) (Fin (exact (INR m))))
                     (xsub exact (Fin w) (Fin v))) = Fin x).
      { rewrite xdiv_fin by (unfold exact; lra). reflexivity. }
      assert (Q : 0 <= INR k / INR m) by (apply Rmult_le_pos; [apply pos_INR|left; now apply Rinv_0_lt_compat]).
      assert (PX : 0 < x) by (unfold x; assert (0 <= INR k / INR m * (w - v)) by (apply Rmult_le_pos; lra); lra).
      rewrite X0, (T x PX). cbn [bind]. rewrite Mx.
      change (xadd exact (Fin mx) (epsilon exact)) with (Fin (mx + 1/1000)).
      cbn [seq map upto]. fold x.
      destruct (xlt (Fin (mx + 1/1000)) (Fin x)) eqn:X.
      + apply xlt_fin in X. destruct (Rlt_dec (mx + 1/1000) x); [|lra].
        exists (labels l), idx. cbn. rewrite app_nil_r. now destruct l.
      + apply xlt_fin_f in X. destruct (Rlt_dec (mx + 1/1000) x); [lra|].
        replace (N.of_nat k + 1)%N with (N.of_nat (S k)) by lia.
        destruct (IH (S k) (S idx) (add_tick l (Fin (t x)) (fmt idx (show (Fin v)))) fuel ltac:(lia) ltac:(lia)) as (labs & idx' & ->).
        exists labs, idx'. cbn. now rewrite <- app_assoc.
  Qed.

  Lemma steps_loop_ok s t base mn mx steps : 1 < base -> (2 <= steps)%nat ->
    (forall v, 0 < v -> scale_translate exact exact s (Fin v) = Ret (Fin (t v))) ->
    scale_min exact exact s = Fin mn -> scale_max exact exact s = Fin mx ->
    forall n ex v idx l fuel, v = Rpower base ex -> mn <= v ->
    (forall k, (k < n)%nat -> v * base ^ k <= mx + 1/1000) -> mx + 1/1000 < v * base ^ n -> (n + steps < fuel)%nat ->
    exists labs, exp_steps_loop exact exact show fmt fuel s (Fin base) (Fin ex) steps idx l =
      Ret (mk_layout (positions l ++ map (fun x => Fin (t x))
             (flat_map (fun p => upto (mx + 1/1000) (substeps p (p * base) (steps - 1))) (powers v base n))) labs).
  Proof.
    intros B S2 T Mn Mx. induction n as [|n IH]; intros ex v idx l fuel V Lo Le Hi F;
      (destruct fuel as [|fuel]; [lia|]); cbn [exp_steps_loop]; rewrite Mn, Mx, (xpow_exact base ex ltac:(lra)), <- V;
      (assert (PV : 0 < v) by (rewrite V; apply exp_pos));
      (destruct (xlt (Fin v) (Fin mn)) eqn:E1; [apply xlt_fin in E1; lra|]);
      change (xadd exact (Fin mx) (epsilon exact)) with (Fin (mx + 1/1000));
      change (xadd exact (Fin ex) (Fin 1)) with (Fin (ex + 1)).
    - cbn in Hi. destruct (xlt _ (Fin v)) eqn:E2; [|apply xlt_fin_f in E2; lra].
      exists (labels l). cbn. rewrite app_nil_r. now destruct l.
    - pose proof (Le 0%nat ltac:(lia)) as Le0. cbn in Le0.
      destruct (xlt _ (Fin v)) eqn:E2; [apply xlt_fin in E2; lra|].
      assert (V' : v * base = Rpower base (ex + 1)) by (rewrite Rpower_plus, Rpower_1, V by lra; reflexivity).
      rewrite (xpow_exact base (ex + 1)) by lra. rewrite <- V'.
      destruct steps as [|[|m]]; [lia|lia|]. cbn [pred64]. change 0%N with (N.of_nat 0).
      destruct (inner_ok s t mx (S m) ltac:(lia) T Mx v (v * base) PV ltac:(nra) (S m) 0 idx l fuel ltac:(lia) ltac:(lia)) as (labs & idx' & ->).
      cbn [bind].
      destruct (IH (ex + 1) (v * base) (S idx') (mk_layout (positions l ++ map (fun x => Fin (t x))
             (upto (mx + 1/1000) (map (fun k => v + INR k / INR (S m) * (v * base - v)) (seq 0 (S m))))) labs) fuel) as (labs' & E); auto.
      + nra.
      + intros k K. specialize (Le (S k) ltac:(lia)). cbn in Le. lra.
      + cbn in Hi. lra.
      + lia.
      + exists labs'. rewrite E. cbn [positions]. rewrite powers_S. cbn [flat_map]. rewrite map_app, app_assoc.
        replace (S (S m) - 1)%nat with (S m) by lia. reflexivity.
  Qed.
End Steps.

(** A linear or logarithmic scale over [a,b] in exact arithmetic. *)
Definition numeric_over (s : scale) (a b : R) : Prop :=
  scale_min exact exact s = Fin a /\ scale_max exact exact s = Fin b /\ a < b /\
  (s_kind s = Linear \/
   s_kind s = Logarithmic /\ 0 < a /\ exists base, s_log_base s = Fin base /\ 0 < base /\ base <> 1).

Lemma numeric_translate s a b : numeric_over s a b ->
  exists t, forall v, scale_translate exact exact s (Fin v) = Ret (Fin (t v)).
Proof.
  intros (A & B & L & [K|(K & P & base & LB & B0 & B1)]).
  - exists (unit_pos (s_inverted s) a b). apply linear_translate. repeat split; auto.
  - exists (fun v => if Rle_dec v 0 then 0 else log_pos (s_inverted s) a b v). intro v.
    unfold scale_translate. rewrite K. destruct (Rle_dec v 0) as [N|N].
    + unfold translate_log. replace (xle (Fin v) (Fin 0)) with true by (symmetry; now apply xle_fin). reflexivity.
    + rewrite (translate_log_ok exact s base a b); auto; lra.
Qed.

(** The tick spacing a user wrote is positive (for placements with a spacing). *)
Definition positive_step (p : placement) : Prop :=
  match p with
  | PLinear (Fin step) | PAlign (Fin step) | PAlignAt (Fin step) (Fin _)
  | PInterval (Fin step) (Fin _) (Fin _) => 0 < step
  | PNone => True
  | _ => False
  end.

Section Term.
  Variable show : xr -> str.
  Variable fmt : nat -> str -> str.

  Lemma checked_terminates s a b x y step skip l0 : numeric_over s a b -> 0 < step ->
    exists N l' ok, (forall fuel, (N < fuel)%nat ->
      checked_ticks exact exact show fmt fuel skip s (Fin x) (Fin y) (Fin step) l0 = Ret (l', ok)) /\
      (Z.of_nat (length (positions l')) <= Z.of_nat (length (positions l0)) + 8193)%Z.
  Proof.
    intros H P. destruct (numeric_translate s a b H) as (t & T).
    destruct (checked_ticks_ok show fmt exact s t x y step skip l0 T P) as [[_ E]|(_ & vs & _ & LV & E)].
    - exists 0%nat, l0, false. split; auto. lia.
    - eexists (length vs), _, true. split; [exact E|]. cbn [positions]. rewrite app_length, map_length.
      pose proof (kept_length skip t vs). lia.
  Qed.

  Lemma placement_terminates s a b p l : numeric_over s a b -> positive_step p ->
    exists N l', (forall fuel, (N < fuel)%nat -> run_placement exact exact show fmt fuel p s l = Ret l') /\
      (Z.of_nat (length (positions l')) <= Z.of_nat (length (positions l)) + 8193)%Z.
  Proof.
    intros H P. pose proof H as (A & B & _). destruct p; cbn [positive_step] in P; try contradiction.
    - destruct step as [step| | |]; try contradiction.
      destruct (checked_terminates s a b a b step false l H P) as (N & l' & ok & E & C).
      exists N, l'. split; auto. intros fuel F. unfold run_placement, layout_linear. rewrite A, B, E by auto. reflexivity.
    - destruct step as [step| | |]; try contradiction.
      destruct (checked_terminates s a b (a - (a - IZR (Ztrunc (a / step)) * step)) b step true l H P) as (N & l' & ok & E & C).
      exists N, l'. split; auto. intros fuel F. unfold run_placement, layout_align.
      rewrite A, B, xfmod_fin, xsub_exact, E by (auto; lra). reflexivity.
    - destruct step as [step| | |], align as [al| | |]; try contradiction.
      destruct (checked_terminates s a b (a - (a - IZR (Ztrunc (a / step)) * step) - (al - IZR (Ztrunc (al / step)) * step)) b step true l H P) as (N & l' & ok & E & C).
      exists N, l'. split; auto. intros fuel F. unfold run_placement, layout_alignat.
      rewrite A, B, !xfmod_fin, !xsub_exact, E by (auto; lra). reflexivity.
    - destruct step as [step| | |], b0 as [o| | |], e as [e| | |]; try contradiction.
      destruct (checked_terminates s a b (Rmax o a) (Rmin e b) step false empty_layout H P) as (N & l' & ok & E & C).
      exists N, l'. split; [|cbn in C; lia]. intros fuel F. unfold run_placement, layout_interval.
      rewrite A, B, xmax_fin, xmin_fin, E by auto. reflexivity.
    - exists 0%nat, l. split; [reflexivity|lia].
  Qed.

  Lemma exp_steps_layout s base a b steps l : s_kind s = Logarithmic -> s_log_base s = Fin base -> 1 < base ->
    (2 <= steps)%nat ->
    scale_min exact exact s = Fin a -> scale_max exact exact s = Fin b -> 0 < a -> a < b ->
    exists n, (forall k, (k < n)%nat -> a * base ^ k <= b + 1/1000) /\ b + 1/1000 < a * base ^ n /\
    forall fuel, (n + steps < fuel)%nat -> exists labs,
      layout_exponential_steps exact exact show fmt fuel s (Fin base) steps l =
      Ret (mk_layout (positions l ++ map (fun v => Fin (log_pos (s_inverted s) a b v))
             (flat_map (fun p => upto (b + 1/1000) (substeps p (p * base) (steps - 1))) (powers a base n))) labs, true).
  Proof.
    intros K LB B1 S2 A C P L. destruct (powers_bound a base (b + 1/1000) B1 P) as (n & Le & Hi).
    exists n. split; auto. split; auto. intros fuel F. unfold layout_exponential_steps.
    assert (NB : ln base <> 0) by (pose proof (ln_lt 1 base); rewrite ln_1 in *; lra).
    assert (E : start_exp exact exact s = Fin (ln a / ln base)).
    { unfold start_exp. rewrite A, LB. destruct (xeq (Fin a) (Fin 0)) eqn:X; [apply xeq_fin in X; lra|].
      cbn [xlog]. destruct (Rlt_dec 0 a); [|lra]. destruct (Rlt_dec 0 base); [|lra]. unfold exact.
      rewrite xdiv_fin by auto. reflexivity. }
    rewrite E. destruct (steps_loop_ok show fmt s (log_pos (s_inverted s) a b) base a b steps B1 S2) with
      (n := n) (v := a) (ex := ln a / ln base) (idx := 0%nat) (l := l) (fuel := fuel) as (labs & X); auto; try lra.
    - intros v V. unfold scale_translate. rewrite K. f_equal. apply (translate_log_ok exact s base); auto; lra.
    - unfold Rpower. replace (ln a / ln base * ln base) with (ln a) by (field; auto). now rewrite exp_ln.
    - exists labs. rewrite X. reflexivity.
  Qed.
End Term.
