(** The individual tick layouts. *)
From Verif Require Import Base Sexpr_Model Dispatch_Model Dispatch_Spec Dispatch_Proofs Csv_Model Data_Model Data_Spec Data_Proofs Num Scale_Model Scale_Spec Scale_Proofs Scale_Proofs2 Scale_Proofs3.
Local Open Scope R_scope.

(** A linear scale over [a,b] in exact arithmetic. *)
Definition linear_over (s : scale) (a b : R) : Prop :=
  s_kind s = Linear /\ scale_min exact exact s = Fin a /\ scale_max exact exact s = Fin b /\ a < b.

Lemma linear_translate s a b : linear_over s a b ->
  forall v, scale_translate exact exact s (Fin v) = Ret (Fin (unit_pos (s_inverted s) a b v)).
Proof.
  intros (K & A & B & L) v. unfold scale_translate. rewrite K. f_equal. now apply translate_linear_ok.
Qed.

Lemma xsub_exact x y : xsub exact (Fin x) (Fin y) = Fin (x - y).
Proof. reflexivity. Qed.

Section Layouts.
  Variable show : xr -> str.
  Variable fmt : nat -> str -> str.
  Notation run := (run_placement exact exact show fmt).

  Definition with_ticks (l : layout) (t : R -> R) (vs : list R) : layout :=
    mk_layout (positions l ++ map (fun v => Fin (t v)) vs) (labels l ++ tick_labels fmt show vs).

  Lemma linear_layout s a b step l : linear_over s a b -> 0 < step ->
    (8192 < (b - a) / step /\ forall fuel, layout_linear exact exact show fmt fuel s (Fin step) l = Ret (l, false)) \/
    ((b - a) / step <= 8192 /\ exists vs, arithmetic_ticks a step b vs /\ (Z.of_nat (length vs) <= 8193)%Z /\
     forall fuel, (length vs < fuel)%nat ->
       layout_linear exact exact show fmt fuel s (Fin step) l = Ret (with_ticks l (unit_pos (s_inverted s) a b) vs, true)).
  Proof.
    intros H P. pose proof (linear_translate s a b H) as T. destruct H as (_ & A & B & _).
    unfold layout_linear. rewrite A, B.
    exact (checked_ticks_ok show fmt exact s (unit_pos (s_inverted s) a b) a b step false l T P).
  Qed.

  Lemma xmax_fin x y : xmax (Fin x) (Fin y) = Fin (Rmax x y).
  Proof. unfold xmax. cbn. unfold Rmax. destruct (Rlt_dec x y), (Rle_dec x y); auto; f_equal; lra. Qed.
  Lemma xmin_fin x y : xmin (Fin x) (Fin y) = Fin (Rmin x y).
  Proof. unfold xmin. cbn. unfold Rmin. destruct (Rlt_dec y x), (Rle_dec x y); auto; f_equal; lra. Qed.

  Lemma interval_layout s a b step o e l : linear_over s a b -> 0 < step ->
    (8192 < (Rmin e b - Rmax o a) / step /\
     forall fuel, layout_interval exact exact show fmt fuel s (Fin step) (Fin o) (Fin e) l = Ret (mk_layout [] [], false)) \/
    ((Rmin e b - Rmax o a) / step <= 8192 /\
     exists vs, arithmetic_ticks (Rmax o a) step (Rmin e b) vs /\ (Z.of_nat (length vs) <= 8193)%Z /\
     forall fuel, (length vs < fuel)%nat ->
       layout_interval exact exact show fmt fuel s (Fin step) (Fin o) (Fin e) l =
       Ret (with_ticks (mk_layout [] []) (unit_pos (s_inverted s) a b) vs, true)).
  Proof.
    intros H P. pose proof (linear_translate s a b H) as T. destruct H as (_ & A & B & _).
    unfold layout_interval. rewrite A, B, xmax_fin, xmin_fin.
    exact (checked_ticks_ok show fmt exact s (unit_pos (s_inverted s) a b) (Rmax o a) (Rmin e b) step false _ T P).
  Qed.

  Lemma sorted_filter (P : R -> bool) vs : StronglySorted Rlt vs -> StronglySorted Rlt (filter P vs).
  Proof.
    induction 1 as [|v vs S IH F]; cbn; [constructor|]. destruct (P v); auto. constructor; auto.
    apply Forall_forall. intros x Hx. apply filter_In in Hx. rewrite Forall_forall in F. now apply F.
  Qed.
  Lemma sorted_progression v step n : 0 < step -> StronglySorted Rlt (progression v step n).
  Proof.
    intro P. revert v. induction n as [|n IH]; intro v; [constructor|]. rewrite progression_S. constructor; auto.
    apply Forall_forall. intros x Hx. apply In_nth_error in Hx as (i & Hi). apply progression_nth in Hi as [_ ->].
    pose proof (pos_INR i). nra.
  Qed.

  Lemma nth_error_ext {A} (l m : list A) : (forall i, nth_error l i = nth_error m i) -> l = m.
  Proof.
    revert m. induction l as [|x l IH]; intros [|y m] H; auto; try (specialize (H 0%nat); discriminate).
    f_equal; [specialize (H 0%nat); cbn in H; congruence|]. apply IH. intro i. exact (H (S i)).
  Qed.

  Lemma arithmetic_progression a step b vs : arithmetic_ticks a step b vs -> vs = progression a step (length vs).
  Proof.
    intros [H _]. apply nth_error_ext. intro i. destruct (nth_error vs i) as [v|] eqn:E.
    - destruct (H i v E) as [-> _]. symmetry. apply progression_nth. split; auto. apply nth_error_Some. congruence.
    - symmetry. apply nth_error_None. rewrite progression_length. now apply nth_error_None.
  Qed.

  (** Filtering the progression from [b0] gives the lattice points, when [b0] is at most one
      step above the lower limit. *)
  Lemma lattice_ticks a b b0 off step vs t : 0 < step -> (exists z : Z, b0 = IZR z * step + off) -> b0 - step < a ->
    (forall v, t v < 0 <-> v < a) ->
    arithmetic_ticks b0 step b vs -> lattice_in off a b step (kept true t vs).
  Proof.
    intros P (z & Z0) NB T AT. pose proof (arithmetic_progression _ _ _ _ AT) as E. destruct AT as [HA HB].
    split.
    - intro v. cbn [kept]. rewrite filter_In. split.
      + intros [I K]. apply In_nth_error in I as (i & Hi). destruct (HA i v Hi) as [-> Hb].
        split.
        * exists (z + Z.of_nat i)%Z. rewrite plus_IZR, <- INR_IZR_INZ, Z0. lra.
        * split; auto. destruct (Rlt_dec (t (b0 + INR i * step)) 0) as [|N]; [discriminate|].
          rewrite T in N. lra.
      + intros ((k & ->) & L & U). split.
        * assert (z <= k)%Z as ZK.
          { apply Z.lt_succ_r. apply lt_IZR. unfold Z.succ. rewrite plus_IZR. apply Rmult_lt_reg_r with step; lra. }
          apply nth_error_In with (n := Z.to_nat (k - z)). rewrite E. apply progression_nth.
          assert (IK : INR (Z.to_nat (k - z)) = IZR k - IZR z).
          { rewrite INR_IZR_INZ, Z2Nat.id by lia. apply minus_IZR. }
          rewrite IK. split; [|rewrite Z0; lra]. apply INR_lt. rewrite IK.
          apply Rmult_lt_reg_r with step; auto. rewrite Z0 in HB. lra.
        * destruct (Rlt_dec (t (IZR k * step + off)) 0) as [N|]; auto. rewrite T in N. lra.
    - cbn [kept]. apply sorted_filter. rewrite E. now apply sorted_progression.
  Qed.

  Lemma unit_pos_neg a b v : a < b -> unit_pos false a b v < 0 <-> v < a.
  Proof.
    intro L. unfold unit_pos. assert (0 < / (b - a)) by (apply Rinv_0_lt_compat; lra).
    split; intro H1; unfold Rdiv in *; nra.
  Qed.

  Lemma trunc_bounds a step : 0 < step ->
    a - step < IZR (Ztrunc (a / step)) * step /\ IZR (Ztrunc (a / step)) * step - step < a /\
    IZR (Ztrunc (a / step)) * step < a + step.
  Proof.
    intro P. set (q := a / step). assert (Q : a = q * step) by (unfold q; field; lra).
    destruct (Rle_lt_dec 0 q) as [N|N].
    - rewrite Ztrunc_floor by auto. pose proof (Zfloor_lb q). pose proof (Zfloor_ub q). rewrite Q. repeat split; nra.
    - rewrite Ztrunc_ceil by lra. pose proof (Zceil_ub q). pose proof (Zceil_lb q).
      rewrite Q. repeat split; nra.
  Qed.

  Lemma xfmod_fin a step : step <> 0 -> xfmod (Fin a) (Fin step) = Fin (a - IZR (Ztrunc (a / step)) * step).
  Proof. intro H. cbn. destruct (Req_EM_T step 0); tauto. Qed.

  Lemma labels_from_0 vs : labels_from show fmt 0 vs = tick_labels fmt show vs.
  Proof. reflexivity. Qed.

  Lemma align_layout s a b step l : linear_over s a b -> s_inverted s = false -> 0 < step -> (b - a) / step <= 8191 ->
    exists vs N, lattice_in 0 a b step vs /\ forall fuel, (N < fuel)%nat ->
      layout_align exact exact show fmt fuel s (Fin step) l = Ret (with_ticks l (unit_pos false a b) vs, true).
  Proof.
    intros H I P C. pose proof (linear_translate s a b H) as T. rewrite I in T. destruct H as (_ & A & B & L).
    unfold layout_align. rewrite A, B, xfmod_fin by lra. rewrite xsub_exact.
    destruct (trunc_bounds a step P) as (T1 & T2 & T3). set (z := Ztrunc (a / step)) in *.
    replace (a - (a - IZR z * step)) with (IZR z * step) by lra.
    destruct (checked_ticks_ok show fmt exact s (unit_pos false a b) (IZR z * step) b step true l T P)
      as [[X _]|(_ & vs & AT & _ & E)].
    - exfalso. assert ((b - IZR z * step) / step <= (b - a) / step + 1).
      { apply Rmult_le_reg_r with step; auto. field_simplify; lra. } lra.
    - exists (kept true (unit_pos false a b) vs), (length vs). split; auto.
      apply (lattice_ticks a b (IZR z * step) 0 step vs); auto.
      + exists z. lra.
      + intro v. now apply unit_pos_neg.
  Qed.

  Lemma alignat_layout s a b step al l : linear_over s a b -> s_inverted s = false -> 0 < step -> 0 <= al ->
    (b - a) / step <= 8190 ->
    exists vs N, lattice_in (- al) a b step vs /\ forall fuel, (N < fuel)%nat ->
      layout_alignat exact exact show fmt fuel s (Fin step) (Fin al) l = Ret (with_ticks l (unit_pos false a b) vs, true).
  Proof.
    intros H I P NA C. pose proof (linear_translate s a b H) as T. rewrite I in T. destruct H as (_ & A & B & L).
    unfold layout_alignat. rewrite A, B, !xfmod_fin by lra. rewrite !xsub_exact.
    destruct (trunc_bounds a step P) as (T1 & T2 & T3). set (z := Ztrunc (a / step)) in *.
    assert (FM : exists m : Z, 0 <= al - IZR m * step < step /\ m = Ztrunc (al / step)).
    { exists (Ztrunc (al / step)). split; auto.
      assert (Q : al = al / step * step) by (field; lra).
      assert (0 <= al / step) by (apply Rmult_le_pos; auto; left; now apply Rinv_0_lt_compat).
      rewrite Ztrunc_floor by auto. pose proof (Zfloor_lb (al / step)). pose proof (Zfloor_ub (al / step)).
      rewrite Q at 1 3. split; nra. }
    destruct FM as (m & FM & ->). set (m := Ztrunc (al / step)) in *.
    replace (a - (a - IZR z * step) - (al - IZR m * step)) with (IZR (z + m) * step + - al) by (rewrite plus_IZR; lra).
    destruct (checked_ticks_ok show fmt exact s (unit_pos false a b) (IZR (z + m) * step + - al) b step true l T P)
      as [[X _]|(_ & vs & AT & _ & E)].
    - exfalso. assert ((b - (IZR (z + m) * step + - al)) / step <= (b - a) / step + 2).
      { rewrite plus_IZR. apply Rmult_le_reg_r with step; auto. field_simplify; lra. } lra.
    - exists (kept true (unit_pos false a b) vs), (length vs). split; auto.
      apply (lattice_ticks a b (IZR (z + m) * step + - al) (- al) step vs); auto.
      + exists (z + m)%Z. lra.
      + rewrite plus_IZR. lra.
      + intro v. now apply unit_pos_neg.
  Qed.
End Layouts.
