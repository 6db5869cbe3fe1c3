(** Translation between values and positions. *)
From Verif Require Import Base Sexpr_Model Dispatch_Model Dispatch_Proofs Csv_Model Data_Model Data_Spec Data_Proofs Num Scale_Model Scale_Spec Scale_Proofs.
From Flocq Require Import Plus_error.
Local Open Scope R_scope.

Lemma translate_linear_ok f s a b v : scale_min exact f s = Fin a -> scale_max exact f s = Fin b -> a < b ->
  translate_linear exact f s (Fin v) = Fin (unit_pos (s_inverted s) a b v).
Proof.
  intros A B L. unfold translate_linear. rewrite A, B, !xsub_fin, xdiv_fin by (unfold exact; lra).
  unfold exact, unit_pos. destruct (s_inverted s); auto. rewrite xsub_fin. unfold exact. f_equal. field. lra.
Qed.

Lemma unit_pos_ends inv a b : a < b ->
  unit_pos inv a b a = (if inv then 1 else 0) /\ unit_pos inv a b b = (if inv then 0 else 1).
Proof. intro H. unfold unit_pos. destruct inv; split; field; lra. Qed.

Lemma unit_pos_mono inv a b : a < b -> strictly_monotone_on (fun _ => True) inv (unit_pos inv a b).
Proof.
  intros H x y _ _ L. unfold unit_pos. destruct inv; apply Rmult_lt_compat_r; try lra; apply Rinv_0_lt_compat; lra.
Qed.

Lemma unit_pos_range inv a b v : a <= v <= b -> a < b -> 0 <= unit_pos inv a b v <= 1.
Proof.
  intros V H. unfold unit_pos.
  assert (P : 0 < / (b - a)) by (apply Rinv_0_lt_compat; lra).
  destruct inv; (split; [apply Rmult_le_pos; lra|]); apply Rmult_le_reg_r with (b - a); try lra;
    unfold Rdiv; rewrite Rmult_assoc, Rinv_l by lra; lra.
Qed.

Lemma untranslate_linear_ok f s a b v : scale_min exact f s = Fin a -> scale_max exact f s = Fin b -> a < b ->
  untranslate_linear exact f s (Fin (unit_pos (s_inverted s) a b v)) = Fin v.
Proof.
  intros A B L. unfold untranslate_linear. rewrite A, B. unfold unit_pos.
  destruct (s_inverted s); rewrite ?xsub_fin; cbn [xmul xadd]; unfold exact; f_equal; field; lra.
Qed.

(* ---- binary64 ---- *)
Lemma rnd64_0 : rnd64 0 = 0.
Proof. apply round_0. auto with typeclass_instances. Qed.
Lemma rnd64_1 : rnd64 1 = 1.
Proof. apply rnd64_id. apply (is64_IZR 1). reflexivity. Qed.

Lemma rnd64_sub_pos a b : is64 a -> is64 b -> a < b -> 0 < rnd64 (b - a).
Proof.
  intros A B L. assert (rnd64 (b - a) <> 0).
  { unfold Rminus. apply round_plus_neq_0; auto with typeclass_instances.
    - now apply generic_format_opp.
    - lra. }
  assert (0 <= rnd64 (b - a)) by (rewrite <- rnd64_0; apply rnd64_mono; lra). lra.
Qed.

(* the unrounded shape of a binary64 translation *)
Lemma translate_linear64 f s a b v : scale_min rnd64 f s = Fin a -> scale_max rnd64 f s = Fin b ->
  is64 a -> is64 b -> a < b ->
  translate_linear rnd64 f s (Fin v) =
    Fin (let q := rnd64 (rnd64 (v - a) / rnd64 (b - a)) in if s_inverted s then rnd64 (1 - q) else q).
Proof.
  intros A B Fa Fb L. unfold translate_linear. pose proof (rnd64_sub_pos a b Fa Fb L).
  rewrite A, B, !xsub_fin, xdiv_fin by lra. now destruct (s_inverted s).
Qed.

Lemma q64_mono a b v w : is64 a -> is64 b -> a < b -> v <= w ->
  rnd64 (rnd64 (v - a) / rnd64 (b - a)) <= rnd64 (rnd64 (w - a) / rnd64 (b - a)).
Proof.
  intros Fa Fb L V. pose proof (rnd64_sub_pos a b Fa Fb L). apply rnd64_mono.
  apply Rmult_le_compat_r; [left; now apply Rinv_0_lt_compat|]. apply rnd64_mono. lra.
Qed.
Lemma q64_lo a b : is64 a -> is64 b -> a < b -> rnd64 (rnd64 (a - a) / rnd64 (b - a)) = 0.
Proof. intros. rewrite Rminus_diag_eq, rnd64_0 by auto. unfold Rdiv. rewrite Rmult_0_l. apply rnd64_0. Qed.
Lemma q64_hi a b : is64 a -> is64 b -> a < b -> rnd64 (rnd64 (b - a) / rnd64 (b - a)) = 1.
Proof.
  intros Fa Fb L. pose proof (rnd64_sub_pos a b Fa Fb L). unfold Rdiv. rewrite Rinv_r by lra. apply rnd64_1.
Qed.

Lemma linear64 f s a b : scale_min rnd64 f s = Fin a -> scale_max rnd64 f s = Fin b ->
  is64 a -> is64 b -> a < b ->
  exists g, (forall v, translate_linear rnd64 f s (Fin v) = Fin (g v)) /\
    g a = (if s_inverted s then 1 else 0) /\ g b = (if s_inverted s then 0 else 1) /\
    (forall v w, v <= w -> if s_inverted s then g w <= g v else g v <= g w) /\
    (forall v, a <= v <= b -> 0 <= g v <= 1).
Proof.
  intros A B Fa Fb L.
  eexists. split; [intro v; apply (translate_linear64 f s a b v); auto|]. cbn zeta.
  pose proof (q64_lo a b Fa Fb L) as Q0. pose proof (q64_hi a b Fa Fb L) as Q1.
  destruct (s_inverted s).
  - rewrite Q0, Q1. repeat split.
    + rewrite Rminus_0_r. apply rnd64_1.
    + rewrite Rminus_diag_eq by auto. apply rnd64_0.
    + intros v w V. apply rnd64_mono. pose proof (q64_mono a b v w Fa Fb L V). lra.
    + rewrite <- rnd64_0. apply rnd64_mono. pose proof (q64_mono a b v b Fa Fb L ltac:(lra)). lra.
    + rewrite <- rnd64_1 at 2. apply rnd64_mono. pose proof (q64_mono a b a v Fa Fb L ltac:(lra)). lra.
  - rewrite Q0, Q1. repeat split; auto.
    + intros v w V. now apply q64_mono.
    + rewrite <- Q0. apply q64_mono; auto; lra.
    + rewrite <- Q1. apply q64_mono; auto; lra.
Qed.

Lemma near_one (e : R) : 0 <= e -> e < bpow radix2 (-54) -> rnd64 (1 + e) = 1.
Proof.
  intros H0 H1. unfold rnd64, round, scaled_mantissa, cexp.
  assert (M : mag radix2 (1 + e) = 1%Z :> Z).
  { apply mag_unique_pos. cbn in *. lra. }
  rewrite M. replace (FLT_exp (-1074) 53 1) with (-52)%Z by reflexivity.
  rewrite (Znearest_imp _ _ (2 ^ 52)).
  - unfold F2R. cbn. lra.
  - cbn in *. rewrite Rabs_pos_eq by lra. lra.
Qed.

Definition tiny : R := bpow radix2 (-60).
Definition unit_scale : scale := mk_scale Linear (Some (Fin (-1))) (Some (Fin 1)) (Fin 10) false (Fin 0) None None [] [].

Lemma linear64_collision :
  translate_linear rnd64 rnd32 unit_scale (Fin tiny) = Fin (1/2) /\
  translate_linear rnd64 rnd32 unit_scale (Fin 0) = Fin (1/2) /\
  untranslate_linear rnd64 rnd32 unit_scale (Fin (1/2)) = Fin 0.
Proof.
  assert (H2 : rnd64 (1 - -1) = 2).
  { replace (1 - -1) with 2 by lra. apply rnd64_id. apply (is64_IZR 2). reflexivity. }
  assert (Hh : rnd64 (1/2) = 1/2).
  { apply rnd64_id. replace (1/2) with (IZR 1 * bpow radix2 (-1)) by (cbn; lra). apply is64_int; cbn; lia. }
  unfold translate_linear, untranslate_linear, scale_min, scale_max, unit_scale. cbn [s_min s_max s_inverted h_min h_max].
  rewrite !xsub_fin. rewrite H2. rewrite !xdiv_fin by lra.
  replace (tiny - -1) with (1 + tiny) by lra. rewrite near_one by (unfold tiny; cbn; lra).
  replace (0 - -1) with 1 by lra. rewrite rnd64_1, Hh. split; auto. split; auto.
  cbn [xmul xadd]. replace (2 * (1/2)) with 1 by lra. rewrite rnd64_1. replace (-1 + 1) with 0 by lra.
  now rewrite rnd64_0.
Qed.

(* ---- logarithmic ---- *)
Lemma log_of_ok base x : 0 < base -> base <> 1 -> 0 < x ->
  log_of exact (Fin base) (Fin x) = Fin (ln x / ln base).
Proof.
  intros B B1 X. unfold log_of. cbn [xeq]. destruct (Req_EM_T x 0); [lra|]. cbn [xlog].
  destruct (Rlt_dec 0 x); [|lra]. destruct (Rlt_dec 0 base); [|lra]. unfold exact.
  rewrite xdiv_fin; auto. intro E. apply B1. apply ln_inv; auto; try lra. now rewrite ln_1.
Qed.

Lemma ln_lt a b : 0 < a -> a < b -> ln a < ln b.
Proof. intros. now apply ln_increasing. Qed.

Lemma translate_log_ok f s base a b v : s_log_base s = Fin base -> 0 < base -> base <> 1 ->
  scale_min exact f s = Fin a -> scale_max exact f s = Fin b -> 0 < a -> a < b -> 0 < v ->
  translate_log exact f s (Fin v) = Fin (log_pos (s_inverted s) a b v).
Proof.
  intros E Hb B1 A B Pa L V. unfold translate_log.
  destruct (xle (Fin v) (Fin 0)) eqn:X; [apply xle_fin in X; lra|].
  rewrite E, A, B, !log_of_ok by (auto; lra).
  pose proof (ln_lt a b Pa L) as LL.
  assert (NB : ln base <> 0) by (intro Z; apply B1; apply ln_inv; auto; try lra; now rewrite ln_1).
  rewrite !xsub_fin. unfold exact.
  assert (ln b / ln base - ln a / ln base <> 0).
  { replace (ln b / ln base - ln a / ln base) with ((ln b - ln a) * / ln base) by (field; auto).
    apply Rmult_integral_contrapositive_currified; [lra|now apply Rinv_neq_0_compat]. }
  rewrite xdiv_fin by auto. unfold log_pos, unit_pos.
  destruct (s_inverted s).
  - rewrite xsub_fin. f_equal. field. repeat split; auto; lra.
  - f_equal. field. repeat split; auto; lra.
Qed.

Lemma log_pos_ends inv a b : 0 < a -> a < b ->
  log_pos inv a b a = (if inv then 1 else 0) /\ log_pos inv a b b = (if inv then 0 else 1).
Proof. intros P H. apply unit_pos_ends. now apply ln_lt. Qed.

Lemma log_pos_mono inv a b : 0 < a -> a < b -> strictly_monotone_on (fun v => 0 < v) inv (log_pos inv a b).
Proof.
  intros P H x y Hx Hy L. apply unit_pos_mono; auto using ln_lt.
Qed.

Lemma untranslate_log_0 f s base a b : s_log_base s = Fin base -> 0 < base -> base <> 1 ->
  s_inverted s = false ->
  scale_min exact f s = Fin a -> scale_max exact f s = Fin b -> a < b ->
  untranslate_log exact f s (Fin 0) = Fin (a + 1) /\ untranslate_log exact f s (Fin 1) = Fin b.
Proof.
  intros E Hb B1 I A B L. unfold untranslate_log. rewrite E, A, B, I, xsub_fin. unfold exact. cbn [xlog].
  assert (NB : ln base <> 0) by (intro Z; apply B1; apply ln_inv; auto; try lra; now rewrite ln_1).
  destruct (Rlt_dec 0 (b - a)); [|lra]. destruct (Rlt_dec 0 base); [|lra].
  rewrite xdiv_fin by auto. cbn [xmul xpow]. unfold exact. rewrite Rmult_0_l, Rmult_1_l.
  destruct (Req_EM_T 0 0); [|lra]. split; [cbn; f_equal; unfold exact; lra|].
  destruct (Req_EM_T (ln (b - a) / ln base) 0) as [Z|Z].
  - cbn. f_equal. unfold exact. assert (ln (b - a) = 0) as Z1.
    { apply Rmult_integral in Z. destruct Z as [Z|Z]; auto. apply Rinv_neq_0_compat in NB. lra. }
    assert (b - a = 1) by (apply ln_inv; try lra; now rewrite ln_1). lra.
  - destruct (Rlt_dec 0 base); [|lra]. cbn. f_equal. unfold exact, Rpower.
    replace (ln (b - a) / ln base * ln base) with (ln (b - a)) by (field; auto).
    rewrite exp_ln by auto. lra.
Qed.

(* ---- categorical ---- *)
Lemma translate_categorical_ok s n i : length (s_categories s) = n -> (i < n)%nat ->
  s_padding s = Fin (1/2) -> translate_categorical exact s i = Ret (Fin (cell_centre n i)).
Proof.
  intros L I P. unfold translate_categorical. rewrite L, P. unfold exact.
  assert (INR i <= INR n - 1).
  { replace (INR n - 1) with (INR (n - 1)) by (rewrite minus_INR by lia; cbn; lra). apply le_INR. lia. }
  pose proof (pos_INR i). pose proof (pos_INR n).
  rewrite xsub_fin. destruct (xlt _ (Fin 0)) eqn:E1; [apply xlt_fin in E1; lra|].
  destruct (xlt (Fin (INR i)) (Fin 0)) eqn:E2; [apply xlt_fin in E2; lra|].
  destruct (xlt _ (Fin (INR i))) eqn:E3; [apply xlt_fin in E3; lra|].
  cbn [xadd xmul]. rewrite xdiv_fin by lra. f_equal. f_equal. unfold cell_centre. f_equal. lra.
Qed.

Lemma translate_categorical_clamped s n : length (s_categories s) = n -> (0 < n)%nat ->
  s_padding s = Fin (1/2) -> translate_categorical exact s n = Ret (Fin (cell_centre n (n - 1))).
Proof.
  intros L I P. rewrite <- (translate_categorical_ok s n (n - 1) L) by (auto; lia).
  unfold translate_categorical. rewrite L, P. unfold exact.
  assert (E : INR (n - 1) = INR n - 1) by (rewrite minus_INR by lia; cbn; lra).
  assert (0 <= INR n - 1) by (rewrite <- E; apply pos_INR).
  rewrite xsub_fin. destruct (xlt _ (Fin 0)) eqn:E1; [apply xlt_fin in E1; lra|].
  destruct (xlt (Fin (INR n)) (Fin 0)) eqn:E2; [apply xlt_fin in E2; lra|].
  destruct (xlt _ (Fin (INR n))) eqn:E3; [|apply xlt_fin_f in E3; lra].
  rewrite E. destruct (xlt (Fin (INR n - 1)) (Fin 0)) eqn:E4; [apply xlt_fin in E4; lra|].
  destruct (xlt (Fin (INR n - 1)) (Fin (INR n - 1))) eqn:E5; [apply xlt_fin in E5; lra|]. reflexivity.
Qed.

Lemma translate_categorical_empty d s i : d 0 = 0 -> d (-1) < 0 -> s_categories s = [] ->
  translate_categorical d s i = UB.
Proof.
  intros D0 D1 E. unfold translate_categorical. rewrite E. cbn [length INR]. rewrite D0, xsub_fin.
  destruct (xlt _ (Fin 0)) eqn:E1; auto. apply xlt_fin_f in E1. replace (0 - 1) with (-1) in E1 by lra. lra.
Qed.

Lemma cell_centre_inside n i : (i < n)%nat -> 0 < cell_centre n i < 1.
Proof.
  intro H. unfold cell_centre. assert (0 < INR n) by (apply lt_0_INR; lia).
  assert (INR i + 1 <= INR n) by (rewrite <- S_INR; apply le_INR; lia). pose proof (pos_INR i).
  assert (0 < / INR n) by (now apply Rinv_0_lt_compat).
  split; [apply Rmult_lt_0_compat; lra|]. apply Rmult_lt_reg_r with (INR n); auto. unfold Rdiv.
  rewrite Rmult_assoc, Rinv_l by lra. lra.
Qed.
Lemma cell_centre_mono n i j : (0 < n)%nat -> (i < j)%nat -> cell_centre n i < cell_centre n j.
Proof.
  intros N L. unfold cell_centre. assert (0 < INR n) by (apply lt_0_INR; lia).
  apply Rmult_lt_compat_r; [now apply Rinv_0_lt_compat|]. apply lt_INR in L. lra.
Qed.

(* index of a category: the last occurrence *)
Lemma assoc_number_none c : forall i m x, ~ In x c -> assoc x (number_categories c i m) = assoc x m.
Proof.
  induction c as [|y c IH]; intros i m x H; cbn [number_categories]; auto.
  rewrite IH by (intro; apply H; now right). cbn [assoc]. destruct (str_eqb_spec x y); auto.
  subst; exfalso; apply H; now left.
Qed.
Lemma assoc_number_last c : forall i m x p, nth_error c p = Some x ->
  (forall q, (p < q)%nat -> nth_error c q <> Some x) -> assoc x (number_categories c i m) = Some (i + p)%nat.
Proof.
  induction c as [|y c IH]; intros i m x p E L; [destruct p; discriminate|]. cbn [number_categories].
  destruct p as [|p]; cbn in E.
  - injection E as ->. rewrite assoc_number_none.
    + cbn [assoc]. rewrite str_eqb_refl. f_equal. lia.
    + intro H. apply In_nth_error in H. destruct H as (q & Hq). apply (L (S q)); auto with arith.
  - rewrite (IH _ _ _ p); auto; [f_equal; lia|]. intros q Hq. apply (L (S q)). lia.
Qed.
Lemma nodup_last (c : list str) x p : NoDup c -> nth_error c p = Some x ->
  forall q, (p < q)%nat -> nth_error c q <> Some x.
Proof.
  intros N E q L E'. rewrite NoDup_nth_error in N. assert (p = q); [|lia]. apply N; [|congruence].
  apply nth_error_Some. congruence.
Qed.
