(** Property theorems: scales and ticks (C20 - C25).

    [exact] is exact real arithmetic, [rnd64] / [rnd32] IEEE double / single precision
    (Num.v). "fit_all s vs" is a scale after fitting the values vs one after the other. *)
From Verif Require Import Base Sexpr_Model Dispatch_Model Dispatch_Spec Dispatch_Proofs Csv_Model Data_Model Data_Spec Data_Proofs Num Scale_Model Scale_Spec Scale_Proofs Scale_Proofs2 Scale_Proofs3 Scale_Proofs4 Scale_Proofs5 Scale_Proofs6 Scale_Proofs7.
From Coq Require Import Permutation.
Local Open Scope R_scope.

(* ------------------------------------------------------------------ C20 *)
(** C20. The limits do not depend on the order of the fitted values (no NaN among them). *)
Theorem C20_order_independent_partial : forall (d f : R -> R) (s : scale) (vs vs' : list xr),
  Permutation vs vs' -> Forall (fun v => v <> NaN) vs ->
  match h_min s with Some m => m <> NaN | None => True end ->
  match h_max s with Some m => m <> NaN | None => True end ->
  scale_min d f (fit_all s vs) = scale_min d f (fit_all s vs') /\
  scale_max d f (fit_all s vs) = scale_max d f (fit_all s vs').
Proof. exact fit_perm. Qed.
Print Assumptions C20_order_independent_partial.

(** C20 fails with a NaN (an empty or non-numeric cell is read as NaN): the order matters,
    and a NaN in first place hides all other data. *)
Theorem C20_order_nan_refuted : forall d f : R -> R,
  scale_min d f (fit_all scale0 [NaN; Fin 1]) <> scale_min d f (fit_all scale0 [Fin 1; NaN]).
Proof. intros d f H. cbn in H. discriminate. Qed.
Print Assumptions C20_order_nan_refuted.

Theorem C20_nan_hides_data_refuted : forall (d f : R -> R) (s : scale) (vs : list xr),
  h_min s = None -> h_max s = None -> s_min s = None -> s_max s = None ->
  scale_min d f (fit_all s (NaN :: vs)) = NaN /\ scale_max d f (fit_all s (NaN :: vs)) = NaN.
Proof. exact fit_nan. Qed.
Print Assumptions C20_nan_hides_data_refuted.

(** C20. In machine arithmetic every fitted single-precision value lies within the limits,
    for any non-negative padding. *)
Theorem C20_covers_partial : forall (s : scale) (padding : R) (vs : list R) (v : R),
  unfitted s padding -> 0 <= padding -> Forall is32 vs -> In v vs ->
  exists lo hi, scale_min rnd64 rnd32 (fit_all s (map Fin vs)) = Fin lo /\
    scale_max rnd64 rnd32 (fit_all s (map Fin vs)) = Fin hi /\ lo <= v <= hi.
Proof. exact fit_covers. Qed.
Print Assumptions C20_covers_partial.

Example C20_covers_example : unfitted scale0 0 /\ Forall is32 [3; -7; 1/2].
Proof.
  split; [repeat split; reflexivity|]. repeat constructor.
  - apply (is32_IZR 3). reflexivity.
  - apply (is32_IZR (-7)). reflexivity.
  - replace (1/2) with (IZR 1 * bpow radix2 (-1)) by (cbn; lra). apply is32_int; [reflexivity|lia].
Qed.

(** C20. Every fitted double lies within the limits after rounding it to single precision. *)
Theorem C20_covers_rounded : forall (s : scale) (padding : R) (vs : list R) (v : R),
  unfitted s padding -> 0 <= padding -> Forall is64 vs -> In v vs ->
  exists lo hi, scale_min rnd64 rnd32 (fit_all s (map Fin vs)) = Fin lo /\
    scale_max rnd64 rnd32 (fit_all s (map Fin vs)) = Fin hi /\ lo <= rnd32 v <= hi.
Proof. exact fit_covers_rounded. Qed.
Print Assumptions C20_covers_rounded.

(** C20 as stated fails: the limits are kept in single precision, so the double 16777217
    lies above the upper limit of the scale fitted to it, and no data attains that limit. *)
Theorem C20_covers_refuted : is64 16777217 /\
  scale_max rnd64 rnd32 (fit_all scale0 [Fin 16777217]) = Fin 16777216.
Proof. exact (conj is64_16777217 fit_refuted). Qed.
Print Assumptions C20_covers_refuted.

(** C20. Without padding the limits are the least and greatest fitted value. *)
Theorem C20_attained_partial : forall (s : scale) (vs : list R),
  unfitted s 0 -> vs <> [] -> Forall is32 vs ->
  exists lo hi, scale_min rnd64 rnd32 (fit_all s (map Fin vs)) = Fin lo /\
    scale_max rnd64 rnd32 (fit_all s (map Fin vs)) = Fin hi /\ least lo vs /\ greatest hi vs.
Proof. exact fit_attained. Qed.
Print Assumptions C20_attained_partial.

(** C20. Limits set by the user are never changed by data. *)
Theorem C20_explicit_limits : forall (d f : R -> R) (s : scale) (vs : list xr),
  (forall m, s_min s = Some m -> scale_min d f (fit_all s vs) = m) /\
  (forall m, s_max s = Some m -> scale_max d f (fit_all s vs) = m).
Proof.
  intros d f s vs. destruct (fit_all_fields s vs) as (_ & _ & _ & A & B & _).
  unfold scale_min, scale_max. rewrite A, B. split; intros m ->; reflexivity.
Qed.
Print Assumptions C20_explicit_limits.

(** C20. Fitting a sequence of columns fits every cell of every column, in order. (A column
    holds the cells added to it: repr, see C18.) *)
Theorem C20_columns : forall (show : xr -> str) (stod : str -> option (xr * nat)) (d : R -> R)
    (cols : list (databuf xr)) (cells : list (list (addition xr))) (s : scale),
  Forall2 (repr xr) cols cells -> s_kind s <> Categorical ->
  fit_bufs show stod d s cols = Ret (fit_all s (map (as_num xr (parse_f64 stod)) (concat cells))).
Proof. intros show stod d cols cells s H. exact (fit_bufs_numeric show stod d cols cells H s). Qed.
Print Assumptions C20_columns.

Example C20_columns_example :
  Forall2 (repr xr) [databuf_add_text xr (databuf_add_num xr (empty_buf xr) (Fin 3)) (s_ "7")]
    [[AddNum (Fin 3); AddText (s_ "7")]].
Proof.
  constructor; [|constructor].
  apply (repr_adds xr [AddNum (Fin 3); AddText (s_ "7")] (empty_buf xr) []). constructor.
Qed.

(* ------------------------------------------------------------------ C21 *)
(** C21. On a linear scale over [a,b], in exact arithmetic: endpoints, strict monotonicity,
    inverse, and values inside the domain land in [0,1]. *)
Theorem C21_linear : forall (s : scale) (a b : R), linear_over s a b ->
  exists g : R -> R,
    (forall v, scale_translate exact exact s (Fin v) = Ret (Fin (g v))) /\
    (g a = if s_inverted s then 1 else 0) /\ (g b = if s_inverted s then 0 else 1) /\
    strictly_monotone_on (fun _ => True) (s_inverted s) g /\
    (forall v, scale_untranslate exact exact s (Fin (g v)) = Fin v) /\
    (forall v, a <= v <= b -> 0 <= g v <= 1).
Proof.
  intros s a b H. exists (unit_pos (s_inverted s) a b). split; [exact (linear_translate s a b H)|].
  destruct H as (K & A & B & L). destruct (unit_pos_ends (s_inverted s) a b L) as [X Y].
  split; [exact X|]. split; [exact Y|]. split; [now apply unit_pos_mono|]. split.
  - intro v. unfold scale_untranslate. rewrite K. now apply untranslate_linear_ok.
  - intros v V. now apply unit_pos_range.
Qed.
Print Assumptions C21_linear.

(** [-2,6], inverted, from fitted data. *)
Example C21_linear_example :
  linear_over (fit_all (set_inverted scale0) [Fin 6; Fin (-2); Fin 1]) (-2) 6.
Proof.
  split; [reflexivity|]. unfold fit_all, scale_min, scale_max. cbn [fold_left fit set_inverted scale0 h_min h_max s_padding s_kind].
  repeat match goal with |- context [xlt (Fin ?x) (Fin ?y)] =>
    first [ replace (xlt (Fin x) (Fin y)) with true by (symmetry; apply xlt_fin; lra)
          | replace (xlt (Fin x) (Fin y)) with false by (symmetry; apply xlt_fin_f; lra) ] end.
  cbn. unfold exact. repeat split; try (f_equal; lra); lra.
Qed.

(** C21. In double precision: exact endpoints, monotone, and inside [0,1] on the domain. *)
Theorem C21_linear_binary64_partial : forall (f : R -> R) (s : scale) (a b : R),
  s_kind s = Linear -> scale_min rnd64 f s = Fin a -> scale_max rnd64 f s = Fin b ->
  is64 a -> is64 b -> a < b ->
  exists g : R -> R,
    (forall v, scale_translate rnd64 f s (Fin v) = Ret (Fin (g v))) /\
    (g a = if s_inverted s then 1 else 0) /\ (g b = if s_inverted s then 0 else 1) /\
    (forall v w, v <= w -> if s_inverted s then g w <= g v else g v <= g w) /\
    (forall v, a <= v <= b -> 0 <= g v <= 1).
Proof.
  intros f s a b K A B Fa Fb L. destruct (linear64 f s a b A B Fa Fb L) as (g & E & H). exists g. split; [|exact H].
  intro v. unfold scale_translate. now rewrite K, E.
Qed.
Print Assumptions C21_linear_binary64_partial.

(** C21. In double precision the map is not strictly monotone, and untranslate does not
    invert translate: on [-1,1] the values 0 and 2^-60 land on the same position, which is
    read back as 0. *)
Theorem C21_binary64_refuted : exists s v, v <> 0 /\ is64 v /\
  scale_min rnd64 rnd32 s = Fin (-1) /\ scale_max rnd64 rnd32 s = Fin 1 /\
  scale_translate rnd64 rnd32 s (Fin 0) = Ret (Fin (1/2)) /\
  scale_translate rnd64 rnd32 s (Fin v) = Ret (Fin (1/2)) /\
  scale_untranslate rnd64 rnd32 s (Fin (1/2)) = Fin 0.
Proof.
  exists unit_scale, tiny. destruct linear64_collision as (A & B & C).
  split; [unfold tiny; apply Rgt_not_eq, bpow_gt_0|]. split.
  { replace tiny with (IZR 1 * bpow radix2 (-60)) by (unfold tiny; lra). apply is64_int; [reflexivity|lia]. }
  split; [reflexivity|]. split; [reflexivity|]. unfold scale_translate, scale_untranslate. cbn [unit_scale s_kind].
  split; [now rewrite B|]. split; [now rewrite A|exact C].
Qed.
Print Assumptions C21_binary64_refuted.

(* ------------------------------------------------------------------ C22 *)
(** C22. On a logarithmic scale over [a,b] with 0 < a: endpoints and strict monotonicity on
    the positive values; the largest value is also read back. *)
Theorem C22_log_partial : forall (s : scale) (base a b : R),
  s_kind s = Logarithmic -> s_log_base s = Fin base -> 0 < base -> base <> 1 ->
  scale_min exact exact s = Fin a -> scale_max exact exact s = Fin b -> 0 < a -> a < b ->
  exists g : R -> R,
    (forall v, 0 < v -> scale_translate exact exact s (Fin v) = Ret (Fin (g v))) /\
    (g a = if s_inverted s then 1 else 0) /\ (g b = if s_inverted s then 0 else 1) /\
    strictly_monotone_on (fun v => 0 < v) (s_inverted s) g /\
    (forall v, 0 < v -> g v = unit_pos (s_inverted s) (ln a) (ln b) (ln v)).
Proof.
  intros s base a b K LB B0 B1 A B P L. exists (log_pos (s_inverted s) a b).
  destruct (log_pos_ends (s_inverted s) a b P L) as [X Y].
  split; [|split; [exact X|split; [exact Y|split; [now apply log_pos_mono|reflexivity]]]].
  intros v V. unfold scale_translate. rewrite K. f_equal. now apply (translate_log_ok exact s base).
Qed.
Print Assumptions C22_log_partial.

Definition log_scale : scale :=
  mk_scale Logarithmic (Some (Fin 1)) (Some (Fin 1000)) (Fin 10) false (Fin 0) None None [] [].
Example C22_example : s_kind log_scale = Logarithmic /\ s_log_base log_scale = Fin 10 /\
  scale_min exact exact log_scale = Fin 1 /\ scale_max exact exact log_scale = Fin 1000 /\ 0 < 1 /\ 1 < 1000.
Proof. repeat split; try reflexivity; lra. Qed.

(** C22. The inverse fails on every logarithmic scale: the minimum is translated to
    position 0, which is read back as minimum + 1. *)
Theorem C22_untranslate_refuted : forall (s : scale) (base a b : R),
  s_kind s = Logarithmic -> s_log_base s = Fin base -> 0 < base -> base <> 1 -> s_inverted s = false ->
  scale_min exact exact s = Fin a -> scale_max exact exact s = Fin b -> 0 < a -> a < b ->
  scale_translate exact exact s (Fin a) = Ret (Fin 0) /\
  scale_untranslate exact exact s (Fin 0) = Fin (a + 1) /\ Fin (a + 1) <> Fin a.
Proof.
  intros s base a b K LB B0 B1 I A B P L. split.
  - unfold scale_translate. rewrite K, (translate_log_ok exact s base a b) by auto.
    destruct (log_pos_ends (s_inverted s) a b P L) as [-> _]. now rewrite I.
  - unfold scale_untranslate. rewrite K. destruct (untranslate_log_0 exact s base a b) as [-> _]; auto.
    split; [reflexivity|]. intro H. injection H. lra.
Qed.
Print Assumptions C22_untranslate_refuted.

(** C22. The maximum is read back correctly. *)
Theorem C22_untranslate_max_partial : forall (s : scale) (base a b : R),
  s_kind s = Logarithmic -> s_log_base s = Fin base -> 0 < base -> base <> 1 -> s_inverted s = false ->
  scale_min exact exact s = Fin a -> scale_max exact exact s = Fin b -> a < b ->
  scale_untranslate exact exact s (Fin 1) = Fin b.
Proof.
  intros s base a b K LB B0 B1 I A B L. unfold scale_untranslate. rewrite K.
  now destruct (untranslate_log_0 exact s base a b) as [_ ->].
Qed.
Print Assumptions C22_untranslate_max_partial.

(* ------------------------------------------------------------------ C23 *)
(** C23. After `scale: categorical(c1 ... cn)` with distinct categories, every cell of every
    column is placed at the centre of its category's cell. *)
Theorem C23_centres_partial : forall (show : xr -> str) (stod : str -> option (xr * nat))
    (is_number : str -> bool) (read_file : str -> option str) (f : R -> R)
    (s0 s : scale) (args : list expr) (cats : list str) (col : databuf xr)
    (cells : list (addition xr)) (which : list nat),
  Forall2 (fun v x => x = ELit v \/ x = EVal v) cats args -> NoDup cats ->
  (Z.of_nat (length cats) < 2 ^ 64)%Z ->
  configure_kind stod read_file [EList (ELit (s_ "categorical") :: args)] s0 = (s, Ret tt) ->
  repr xr col cells ->
  Forall2 (fun t i => nth_error cats i = Some t) (map (as_text xr show) cells) which ->
  translatev_buf exact f show stod is_number s col =
    Ret (map (fun i => Fin (cell_centre (length cats) i)) which).
Proof.
  intros show stod is_number read_file f s0 s args cats col cells which A ND N C R W.
  rewrite (configure_categorical stod read_file args cats s0 A) in C. injection C as <-.
  now apply (categorical_column show stod is_number f s0 cats col cells which).
Qed.
Print Assumptions C23_centres_partial.

(** C23. Centres are inside (0,1) and distinct, in category order. *)
Theorem C23_inside_distinct : forall n i j : nat, (i < j)%nat -> (j < n)%nat ->
  0 < cell_centre n i /\ cell_centre n i < cell_centre n j /\ cell_centre n j < 1.
Proof.
  intros n i j I J. pose proof (cell_centre_inside n i ltac:(lia)). pose proof (cell_centre_inside n j J).
  pose proof (cell_centre_mono n i j ltac:(lia) I). repeat split; lra.
Qed.
Print Assumptions C23_inside_distinct.

(** C23. The same in double precision, up to 2^50 categories: correctly rounded centres, all
    different. *)
Theorem C23_binary64 : forall (s : scale) (n i j : nat),
  length (s_categories s) = n -> (Z.of_nat n <= 2 ^ 50)%Z -> s_padding s = Fin (1/2) ->
  (i < j)%nat -> (j < n)%nat ->
  translate_categorical rnd64 s i = Ret (Fin (rnd64 (cell_centre n i))) /\
  translate_categorical rnd64 s j = Ret (Fin (rnd64 (cell_centre n j))) /\
  rnd64 (cell_centre n i) < rnd64 (cell_centre n j).
Proof.
  intros s n i j L N P I J. split; [apply categorical64; auto; lia|]. split; [apply categorical64; auto|].
  now apply categorical64_distinct.
Qed.
Print Assumptions C23_binary64.

(** C23. A value that is no category is an error, for fitting and for translating. *)
Theorem C23_unknown_value : forall (show : xr -> str) (stod : str -> option (xr * nat))
    (is_number : str -> bool) (read_file : str -> option str) (f : R -> R)
    (s : scale) (args : list expr) (cats : list str) (col : databuf xr)
    (cells : list (addition xr)) (t : str),
  Forall2 (fun v x => x = ELit v \/ x = EVal v) cats args ->
  configure_kind stod read_file [EList (ELit (s_ "categorical") :: args)] scale0 = (s, Ret tt) ->
  repr xr col cells -> In t (map (as_text xr show) cells) -> ~ In t cats ->
  translatev_buf exact f show stod is_number s col = Err /\ fit_buf exact show stod s col = Err.
Proof.
  intros show stod is_number read_file f s args cats col cells t A C R I NI.
  rewrite (configure_categorical stod read_file args cats scale0 A) in C. injection C as <-.
  now apply (categorical_unknown show stod is_number f scale0 cats col cells t).
Qed.
Print Assumptions C23_unknown_value.

Example C23_example :
  Forall2 (fun v x => x = ELit v \/ x = EVal v) [s_ "a"; s_ "b"] [ELit (s_ "a"); EVal (s_ "b")] /\
  NoDup [s_ "a"; s_ "b"] /\
  repr xr (databuf_add_text xr (empty_buf xr) (s_ "b")) [AddText (s_ "b")] /\
  Forall2 (fun t i => nth_error [s_ "a"; s_ "b"] i = Some t) [s_ "b"] [1%nat].
Proof.
  split; [constructor; [now left|constructor; [now right|constructor]]|]. split; [repeat constructor; cbn; intuition discriminate|].
  split; [|repeat constructor]. apply (repr_adds xr [AddText (s_ "b")] (empty_buf xr) []). constructor.
Qed.

(** C23, "first-appearance order" fails for a repeated category: it is placed in its last
    cell, and its first cell stays empty. *)
Theorem C23_repeated_refuted : forall (stod : str -> option (xr * nat)) (read_file : str -> option str),
  exists s, configure_kind stod read_file
      [EList [ELit (s_ "categorical"); ELit (s_ "a"); ELit (s_ "b"); ELit (s_ "a")]] scale0 = (s, Ret tt) /\
    assoc (s_ "a") (s_cmap s) = Some 2%nat.
Proof. intros. eexists. split; reflexivity. Qed.
Print Assumptions C23_repeated_refuted.

(** C23. A categorical scale without categories has undefined behaviour when translating. *)
Theorem C23_empty_refuted : forall (s : scale) (i : nat), s_categories s = [] ->
  translate_categorical exact s i = UB.
Proof. intros s i H. apply translate_categorical_empty; unfold exact; auto; lra. Qed.
Print Assumptions C23_empty_refuted.

(* ------------------------------------------------------------------ C24 *)
(** C24. Subdividing: n+1 ticks at i/n, labelled with the value there. *)
Theorem C24_subdivide : forall (show : xr -> str) (fmt : nat -> str -> str) (s : scale) (a b : R)
    (n : nat) (fuel : nat) (l : layout),
  linear_over s a b -> (0 < n)%nat -> (Z.of_nat n < 2 ^ 32)%Z ->
  run_placement exact exact show fmt fuel (PSubdivide (Fin (INR n))) s l =
    Ret (mk_layout (map (fun i => Fin (cell_border n i)) (seq 0 (S n)))
      (map (fun i => fmt i (show (Fin (if s_inverted s then b - (b - a) * cell_border n i
                                       else a + (b - a) * cell_border n i)))) (seq 0 (S n)))).
Proof.
  intros show fmt s a b n fuel l H N N32. unfold run_placement, to_unsigned.
  rewrite INR_IZR_INZ, Ztrunc_IZR. destruct (Z.leb_spec 0 (Z.of_nat n)); [|lia].
  destruct (Z.ltb_spec (Z.of_nat n) (2^32)); [|lia]. cbn [andb bind]. rewrite Nat2Z.id, subdivide_layout. cbn [bind].
  do 2 f_equal.
  - apply map_ext. intro i. now apply subdivide_pos_exact.
  - apply map_ext. intro i. now rewrite subdivide_pos_exact, (subdivide_value s a b n i H N).
Qed.
Print Assumptions C24_subdivide.

(** C24. In the code's single precision: n+1 ticks, none negative, each within 2^-22 of i/n. *)
Theorem C24_subdivide_binary32 : forall (show : xr -> str) (fmt : nat -> str -> str) (s : scale)
    (n : nat) (l : layout), (0 < n)%nat -> (Z.of_nat n < 2 ^ 24)%Z ->
  exists l', layout_subdivide rnd64 rnd32 show fmt s n l = Ret (l', true) /\
    length (positions l') = S n /\ length (labels l') = S n /\
    forall i, (i <= n)%nat -> exists p, nth_error (positions l') i = Some (Fin p) /\
      0 <= p /\ Rabs (p - cell_border n i) <= / IZR (2 ^ 22).
Proof.
  intros show fmt s n l N N24. eexists. split; [apply subdivide_layout|]. cbn [positions labels].
  rewrite !map_length, !seq_length. split; [reflexivity|]. split; [reflexivity|]. intros i I.
  destruct (subdivide32 n i N N24 I) as (p & E & H). exists p. split; [|exact H].
  rewrite nth_error_map, (nth_error_nth' _ 0%nat) by (rewrite seq_length; lia). rewrite seq_nth by lia. cbn. now rewrite E.
Qed.
Print Assumptions C24_subdivide_binary32.

(** C24. "from 0 to 1" fails in single precision: with 41 divisions the last tick is below 1. *)
Theorem C24_subdivide_last_refuted : forall (show : xr -> str) (fmt : nat -> str -> str) (s : scale) (l : layout),
  exists l', layout_subdivide rnd64 rnd32 show fmt s 41 l = Ret (l', true) /\
    nth_error (positions l') 41 = Some (Fin (16777215 / 16777216)).
Proof.
  intros. eexists. split; [apply subdivide_layout|]. cbn [positions].
  rewrite nth_error_map. replace (nth_error (seq 0 42) 41) with (Some 41%nat) by reflexivity.
  cbn [option_map]. now rewrite subdivide32_41.
Qed.
Print Assumptions C24_subdivide_last_refuted.

(** C24. Dividing into 0 parts gives one tick that is not a number. *)
Theorem C24_subdivide_zero_refuted : forall (show : xr -> str) (fmt : nat -> str -> str) (s : scale) (l : layout),
  exists l', layout_subdivide exact exact show fmt s 0 l = Ret (l', true) /\ positions l' = [NaN].
Proof.
  intros. eexists. split; [apply subdivide_layout|]. cbn. unfold exact, subdivide_pos. cbn. unfold exact.
  destruct (Req_EM_T 0 0); [|lra]. unfold xsign_inf. destruct (Rlt_dec 0 1); [|lra]. cbn. unfold xsign_inf.
  destruct (Rlt_dec 0 0); [lra|]. reflexivity.
Qed.
Print Assumptions C24_subdivide_zero_refuted.

(** C24. The categorical layout: one tick per category, at its centre, labelled with it. *)
Theorem C24_categorical : forall (show : xr -> str) (fmt : nat -> str -> str) (s : scale) (fuel : nat) (l : layout),
  s_padding s = Fin (1/2) ->
  let n := length (s_categories s) in
  run_placement exact exact show fmt fuel PCategorical s l =
    Ret (mk_layout (map (fun i => Fin (cell_centre n i)) (seq 0 n))
      (map (fun p => fmt (fst p) (snd p)) (combine (seq 0 n) (s_categories s)))).
Proof. intros show fmt s fuel l P n. unfold run_placement. now rewrite (categorical_layout fmt s l P). Qed.
Print Assumptions C24_categorical.

(** C24. The categorical-bounds layout: the n+1 cell borders. *)
Theorem C24_categorical_bounds_partial : forall (show : xr -> str) (fmt : nat -> str -> str) (s : scale) (fuel : nat) (l : layout),
  s_padding s = Fin (1/2) ->
  let n := length (s_categories s) in (0 < n)%nat ->
  run_placement exact exact show fmt fuel PCategoricalBounds s l =
    Ret (mk_layout (map (fun i => Fin (cell_border n i)) (seq 0 (S n))) (repeat [] (S n))).
Proof. intros show fmt s fuel l P n N. unfold run_placement. now rewrite (bounds_layout s l P). Qed.
Print Assumptions C24_categorical_bounds_partial.

(** ... which has undefined behaviour without categories. *)
Theorem C24_bounds_empty_refuted : forall (show : xr -> str) (fmt : nat -> str -> str) (s : scale) (fuel : nat) (l : layout),
  s_categories s = [] -> run_placement exact exact show fmt fuel PCategoricalBounds s l = UB.
Proof.
  intros show fmt s fuel l H. unfold run_placement, layout_categorical_bounds. rewrite H. cbn [length seq bounds_loop].
  rewrite (translate_categorical_empty exact s 0); auto; unfold exact; lra.
Qed.
Print Assumptions C24_bounds_empty_refuted.

(** C24. `linear N` puts ticks at min, min + N, min + 2N, ... up to max, when there are not
    too many of them. *)
Theorem C24_linear : forall (show : xr -> str) (fmt : nat -> str -> str) (s : scale) (a b step : R) (l : layout),
  linear_over s a b -> 0 < step -> (b - a) / step <= 8192 ->
  exists vs, arithmetic_ticks a step b vs /\ forall fuel, (length vs < fuel)%nat ->
    run_placement exact exact show fmt fuel (PLinear (Fin step)) s l =
    Ret (mk_layout (positions l ++ map (fun v => Fin (unit_pos (s_inverted s) a b v)) vs)
                   (labels l ++ tick_labels fmt show vs)).
Proof.
  intros show fmt s a b step l H P C. destruct (linear_layout show fmt s a b step l H P) as [[X _]|(_ & vs & A & _ & E)].
  - lra.
  - exists vs. split; [exact A|]. intros fuel F. unfold run_placement. now rewrite E.
Qed.
Print Assumptions C24_linear.

(** C24. `linear-interval N B E` does the same inside the intersection of [B,E] and the
    limits, and replaces earlier ticks. *)
Theorem C24_interval : forall (show : xr -> str) (fmt : nat -> str -> str) (s : scale) (a b step lo hi : R) (l : layout),
  linear_over s a b -> 0 < step -> (Rmin hi b - Rmax lo a) / step <= 8192 ->
  exists vs, arithmetic_ticks (Rmax lo a) step (Rmin hi b) vs /\ forall fuel, (length vs < fuel)%nat ->
    run_placement exact exact show fmt fuel (PInterval (Fin step) (Fin lo) (Fin hi)) s l =
    Ret (mk_layout (map (fun v => Fin (unit_pos (s_inverted s) a b v)) vs) (tick_labels fmt show vs)).
Proof.
  intros show fmt s a b step lo hi l H P C.
  destruct (interval_layout show fmt s a b step lo hi l H P) as [[X _]|(_ & vs & A & _ & E)].
  - lra.
  - exists vs. split; [exact A|]. intros fuel F. unfold run_placement. now rewrite E.
Qed.
Print Assumptions C24_interval.

(** C24. `linear-align N` on a scale that is not inverted: exactly the multiples of N inside
    the limits, in order. *)
Theorem C24_align_partial : forall (show : xr -> str) (fmt : nat -> str -> str) (s : scale) (a b step : R) (l : layout),
  linear_over s a b -> s_inverted s = false -> 0 < step -> (b - a) / step <= 8191 ->
  exists vs fuel0, lattice_in 0 a b step vs /\ forall fuel, (fuel0 < fuel)%nat ->
    run_placement exact exact show fmt fuel (PAlign (Fin step)) s l =
    Ret (mk_layout (positions l ++ map (fun v => Fin (unit_pos false a b v)) vs)
                   (labels l ++ tick_labels fmt show vs)).
Proof.
  intros show fmt s a b step l H I P C. destruct (align_layout show fmt s a b step l H I P C) as (vs & N & A & E).
  exists vs, N. split; [exact A|]. intros fuel F. unfold run_placement. now rewrite E.
Qed.
Print Assumptions C24_align_partial.

Definition axis (a b : R) (inv : bool) : scale := mk_scale Linear (Some (Fin a)) (Some (Fin b)) (Fin 10) inv (Fin 0) None None [] [].
Example C24_example : linear_over (axis 1 10 false) 1 10 /\ (10 - 1) / 3 <= 8191.
Proof. split; [repeat split; lra|lra]. Qed.

(** C24. On an inverted scale `linear-align` also places a tick outside the axis: with limits
    [1,10] and N = 4 the first tick is at value 0, position 10/9. *)
Theorem C24_align_inverted_refuted : forall (show : xr -> str) (fmt : nat -> str -> str) (l : layout),
  exists vs fuel0, forall fuel, (fuel0 < fuel)%nat -> exists labs,
    run_placement exact exact show fmt fuel (PAlign (Fin 4)) (axis 1 10 true) l =
    Ret (mk_layout (positions l ++ Fin (10 / 9) :: vs) labs).
Proof.
  intros show fmt l. set (s := axis 1 10 true). assert (H : linear_over s 1 10) by (repeat split; lra).
  pose proof (linear_translate s 1 10 H) as T.
  assert (Z0 : Ztrunc (1 / 4) = 0%Z).
  { rewrite Ztrunc_floor by lra. apply Zfloor_imp. cbn. lra. }
  destruct (checked_ticks_ok show fmt exact s (unit_pos true 1 10) 0 10 4 true l T ltac:(lra)) as [[X _]|(_ & vs & AT & _ & E)].
  { lra. }
  destruct vs as [|v vs].
  { destruct AT as [_ X]. cbn in X. lra. }
  destruct AT as [X _]. destruct (X 0%nat v eq_refl) as [-> _]. cbn [INR] in *.
  eexists (map (fun x => Fin (unit_pos true 1 10 x)) (kept true (unit_pos true 1 10) vs)), (S (length vs)).
  intros fuel F. eexists. unfold run_placement, layout_align. destruct H as (_ & A & B & _). rewrite A, B.
  rewrite xfmod_fin, Z0, xsub_exact by lra. replace (1 - (1 - 0 * 4)) with 0 by lra. rewrite E by auto. cbn [bind].
  do 2 f_equal. f_equal. cbn [kept filter]. replace (0 + 0 * 4) with 0 by lra.
  replace (unit_pos true 1 10 0) with (10 / 9) by (unfold unit_pos; field).
  destruct (Rlt_dec (10 / 9) 0); [lra|]. cbn [map]. f_equal. f_equal. unfold unit_pos. field.
Qed.
Print Assumptions C24_align_inverted_refuted.

(** C24. `linear-alignat N A` (documented: a tick exactly at A) in fact puts ticks at the
    numbers k*N - A inside the limits ... *)
Theorem C24_alignat_partial : forall (show : xr -> str) (fmt : nat -> str -> str) (s : scale) (a b step at_ : R) (l : layout),
  linear_over s a b -> s_inverted s = false -> 0 < step -> 0 <= at_ -> (b - a) / step <= 8190 ->
  exists vs fuel0, lattice_in (- at_) a b step vs /\ forall fuel, (fuel0 < fuel)%nat ->
    run_placement exact exact show fmt fuel (PAlignAt (Fin step) (Fin at_)) s l =
    Ret (mk_layout (positions l ++ map (fun v => Fin (unit_pos false a b v)) vs)
                   (labels l ++ tick_labels fmt show vs)).
Proof.
  intros show fmt s a b step at_ l H I P N C. destruct (alignat_layout show fmt s a b step at_ l H I P N C) as (vs & M & A & E).
  exists vs, M. split; [exact A|]. intros fuel F. unfold run_placement. now rewrite E.
Qed.
Print Assumptions C24_alignat_partial.

(** ... so there is no tick at A in general: limits [0,10], N = 5, A = 1. *)
Theorem C24_alignat_refuted : forall (show : xr -> str) (fmt : nat -> str -> str),
  exists vs fuel0, ~ In 1 vs /\ forall fuel, (fuel0 < fuel)%nat ->
    run_placement exact exact show fmt fuel (PAlignAt (Fin 5) (Fin 1)) (axis 0 10 false) (mk_layout [] []) =
    Ret (mk_layout (map (fun v => Fin (unit_pos false 0 10 v)) vs) (tick_labels fmt show vs)).
Proof.
  intros show fmt. destruct (C24_alignat_partial show fmt (axis 0 10 false) 0 10 5 1 (mk_layout [] []))
    as (vs & N & [A _] & E); try lra; [repeat split; lra|reflexivity|].
  exists vs, N. split; [|exact E]. intro I. apply A in I as ((k & K) & _).
  assert (IZR (5 * k) = IZR 2) by (rewrite mult_IZR; lra). apply eq_IZR in H. lia.
Qed.
Print Assumptions C24_alignat_refuted.

(** C24. `exponential B` on a logarithmic scale with base B: ticks at min * B^k up to the
    maximum (plus 0.001). *)
Theorem C24_exponential : forall (show : xr -> str) (fmt : nat -> str -> str) (s : scale) (base a b : R) (l : layout),
  s_kind s = Logarithmic -> s_log_base s = Fin base -> 1 < base ->
  scale_min exact exact s = Fin a -> scale_max exact exact s = Fin b -> 0 < a -> a < b ->
  exists n, (forall k, (k < n)%nat -> a * base ^ k <= b + 1/1000) /\ b + 1/1000 < a * base ^ n /\
    forall fuel, (n < fuel)%nat ->
      run_placement exact exact show fmt fuel (PExp (Fin base)) s l =
      let vs := map (fun k => a * base ^ k) (seq 0 n) in
      Ret (mk_layout (positions l ++ map (fun v => Fin (log_pos (s_inverted s) a b v)) vs)
                     (labels l ++ tick_labels fmt show vs)).
Proof.
  intros show fmt s base a b l K LB B1 A B P L.
  destruct (exp_layout show fmt s base a b l K LB B1 A B P L) as (n & H1 & H2 & E).
  exists n. split; [exact H1|]. split; [exact H2|]. intros fuel F. unfold run_placement. now rewrite E.
Qed.
Print Assumptions C24_exponential.

(** C24. `exponential-steps B N` subdivides each of these steps into N - 1 equal parts. *)
Theorem C24_exponential_steps : forall (show : xr -> str) (fmt : nat -> str -> str) (s : scale) (base a b : R) (steps : nat) (l : layout),
  s_kind s = Logarithmic -> s_log_base s = Fin base -> 1 < base -> (2 <= steps)%nat ->
  scale_min exact exact s = Fin a -> scale_max exact exact s = Fin b -> 0 < a -> a < b ->
  exists n, (forall k, (k < n)%nat -> a * base ^ k <= b + 1/1000) /\ b + 1/1000 < a * base ^ n /\
    forall fuel, (n + steps < fuel)%nat -> exists labs,
      layout_exponential_steps exact exact show fmt fuel s (Fin base) steps l =
      Ret (mk_layout (positions l ++ map (fun v => Fin (log_pos (s_inverted s) a b v))
        (flat_map (fun k => let v := a * base ^ k in
             upto (b + 1/1000) (map (fun j => v + INR j / INR (steps - 1) * (v * base - v)) (seq 0 (steps - 1))))
           (seq 0 n))) labs, true).
Proof.
  intros show fmt s base a b steps l K LB B1 S2 A B P L.
  destruct (exp_steps_layout show fmt s base a b steps l K LB B1 S2 A B P L) as (n & H1 & H2 & E).
  exists n. split; [exact H1|]. split; [exact H2|]. intros fuel F. destruct (E fuel F) as (labs & X). exists labs. rewrite X.
  do 4 f_equal. unfold powers. rewrite flat_map_concat_map, map_map, <- flat_map_concat_map. reflexivity.
Qed.
Print Assumptions C24_exponential_steps.

(* ------------------------------------------------------------------ C25 *)
(** C25. On a linear or logarithmic scale, every linear placement with a positive step
    terminates and adds at most kMaxTicks + 1 ticks (exact arithmetic). *)
Theorem C25_terminates_partial : forall (show : xr -> str) (fmt : nat -> str -> str) (s : scale) (a b : R) (p : placement) (l : layout),
  numeric_over s a b -> positive_step p ->
  exists fuel0 l', (forall fuel, (fuel0 < fuel)%nat -> run_placement exact exact show fmt fuel p s l = Ret l') /\
    (Z.of_nat (length (positions l')) <= Z.of_nat (length (positions l)) + 8193)%Z.
Proof. exact placement_terminates. Qed.
Print Assumptions C25_terminates_partial.

Example C25_example : numeric_over (axis 1 10 true) 1 10 /\ numeric_over log_scale 1 1000 /\ positive_step (PAlignAt (Fin 2) (Fin 1)).
Proof.
  split; [repeat split; try lra; now left|]. split; [|cbn; lra]. repeat split; try lra. right.
  split; [reflexivity|]. split; [lra|]. exists 10. repeat split; lra.
Qed.

(** C25. The bound kMaxTicks = 8192 itself is exceeded: 8193 ticks on [0,8192] with step 1. *)
Theorem C25_max_ticks_refuted : forall (show : xr -> str) (fmt : nat -> str -> str), exists fuel0 l',
  (forall fuel, (fuel0 < fuel)%nat ->
    run_placement exact exact show fmt fuel (PLinear (Fin 1)) (axis 0 8192 false) (mk_layout [] []) = Ret l') /\
  (Z.of_nat (length (positions l')) = 8193)%Z.
Proof.
  intros show fmt. destruct (C24_linear show fmt (axis 0 8192 false) 0 8192 1 (mk_layout [] [])) as (vs & A & E); try lra.
  { repeat split; lra. }
  eexists (length vs), _. split; [exact E|]. cbn [positions app]. rewrite map_length. destruct A as [A1 A2].
  rewrite INR_IZR_INZ in A2. assert (8192 < Z.of_nat (length vs))%Z by (apply lt_IZR; lra).
  destruct (nth_error vs (length vs - 1)) as [v|] eqn:X.
  - apply A1 in X as [-> X]. rewrite INR_IZR_INZ in X. assert (Z.of_nat (length vs - 1) <= 8192)%Z by (apply le_IZR; lra). lia.
  - apply nth_error_None in X. lia.
Qed.
Print Assumptions C25_max_ticks_refuted.

(** C24. The placement read from a setting, for every placement: the keyword and its numbers,
    in this order; a wrong number of arguments or an unknown keyword is an error. *)
Theorem C24_reader : forall (stod : str -> option (xr * nat)) (x y z : str) (u v w : xr) (n m k : nat),
  stod x = Some (u, n) -> stod y = Some (v, m) -> stod z = Some (w, k) ->
  configure_layout stod [EList [ELit (s_ "linear"); ELit x]] = Ret (PLinear u) /\
  configure_layout stod [EList [ELit (s_ "linear-align"); ELit x]] = Ret (PAlign u) /\
  configure_layout stod [EList [ELit (s_ "linear-alignat"); ELit x; ELit y]] = Ret (PAlignAt u v) /\
  configure_layout stod [EList [ELit (s_ "linear-interval"); ELit x; ELit y; ELit z]] = Ret (PInterval u v w) /\
  configure_layout stod [EList [ELit (s_ "exponential"); ELit x]] = Ret (PExp u) /\
  configure_layout stod [EList [ELit (s_ "exponential-steps"); ELit x; ELit y]] = Ret (PExpSteps u v) /\
  configure_layout stod [EList [ELit (s_ "subdivide"); ELit x]] = Ret (PSubdivide u) /\
  configure_layout stod [EList [ELit (s_ "subdivide")]] = Ret (PSubdivide (Fin 8)) /\
  configure_layout stod [ELit (s_ "categorical")] = Ret PCategorical /\
  configure_layout stod [ELit (s_ "categorical-bounds")] = Ret PCategoricalBounds /\
  configure_layout stod [ELit (s_ "none")] = Ret PNone.
Proof.
  intros stod x y z u v w n m k H1 H2 H3. unfold configure_layout. cbn - [expr_to_float64].
  unfold expr_to_float64. cbn [value_of]. rewrite ?H1, ?H2, ?H3. repeat (split; [reflexivity|]). reflexivity.
Qed.
Print Assumptions C24_reader.
Theorem C24_reader_errors : forall (stod : str -> option (xr * nat)) (kw : str) (args : list expr),
  (forall k, In (kw, k) [(s_ "linear", 1%nat); (s_ "linear-align", 1%nat); (s_ "linear-alignat", 2%nat); (s_ "linear-interval", 3%nat);
     (s_ "exponential", 1%nat); (s_ "exponential-steps", 2%nat)] -> length args <> k) ->
  (kw = s_ "subdivide" -> (2 <= length args)%nat) ->
  configure_layout stod [EList (ELit kw :: args)] = Err.
Proof.
  intros stod kw args H S. unfold configure_layout, list_headed, is_val, args1, args2, args3. cbn [value_of tl].
  repeat match goal with
  | |- context [str_eqb ?a ?b] => destruct (str_eqb_spec a b) as [?E|?E];
      [subst; first [specialize (H 1%nat ltac:(cbn; tauto)) | specialize (H 2%nat ltac:(cbn; tauto)) | specialize (H 3%nat ltac:(cbn; tauto)) | specialize (S eq_refl)];
       destruct args as [|? [|? [|? [|? ?]]]]; cbn in *; try reflexivity; try lia; try congruence|]
  end; reflexivity.
Qed.
Print Assumptions C24_reader_errors.

(** C25. "or an error": the error for too many ticks is dropped by the caller, which just
    sees no ticks. *)
Theorem C25_error_dropped_refuted : forall (show : xr -> str) (fmt : nat -> str -> str) (s : scale) (a b step : R) (l : layout) (fuel : nat),
  linear_over s a b -> 0 < step -> 8192 < (b - a) / step ->
  run_placement exact exact show fmt fuel (PLinear (Fin step)) s l = Ret l.
Proof.
  intros show fmt s a b step l fuel H P C. destruct (linear_layout show fmt s a b step l H P) as [[_ E]|(X & _)].
  - unfold run_placement. now rewrite E.
  - lra.
Qed.
Print Assumptions C25_error_dropped_refuted.

(** C25. The configuration reader accepts any number as step ... *)
Theorem C25_reader_accepts : forall (stod : str -> option (xr * nat)) (x : str) (v : xr) (n : nat),
  stod x = Some (v, n) ->
  configure_layout stod [EList [ELit (s_ "linear"); ELit x]] = Ret (PLinear v) /\
  configure_layout stod [EList [ELit (s_ "exponential"); ELit x]] = Ret (PExp v).
Proof.
  intros stod x v n H. unfold configure_layout. cbn - [expr_to_float64].
  unfold expr_to_float64. cbn [value_of]. rewrite H. split; reflexivity.
Qed.
Print Assumptions C25_reader_accepts.

(** ... but a negative step makes the layout loop forever on every scale ... *)
Theorem C25_negative_step_refuted : forall (show : xr -> str) (fmt : nat -> str -> str) (s : scale) (a b step : R) (l : layout) (fuel : nat),
  s_kind s <> Categorical -> scale_min exact exact s = Fin a -> scale_max exact exact s = Fin b -> a <= b -> step < 0 ->
  run_placement exact exact show fmt fuel (PLinear (Fin step)) s l = Diverge.
Proof.
  intros show fmt s a b step l fuel K A B L S. unfold run_placement.
  now rewrite (linear_negative show fmt s a b step l fuel K A B L S).
Qed.
Print Assumptions C25_negative_step_refuted.

(** ... as does step 0 with `linear-interval 0 x x` ... *)
Theorem C25_zero_step_refuted : forall (show : xr -> str) (fmt : nat -> str -> str) (s : scale) (a b x : R) (l : layout) (fuel : nat),
  s_kind s <> Categorical -> scale_min exact exact s = Fin a -> scale_max exact exact s = Fin b -> a <= x <= b ->
  run_placement exact exact show fmt fuel (PInterval (Fin 0) (Fin x) (Fin x)) s l = Diverge.
Proof.
  intros show fmt s a b x l fuel K A B L. unfold run_placement.
  now rewrite (interval_zero show fmt s a b x l fuel K A B L).
Qed.
Print Assumptions C25_zero_step_refuted.

(** ... and, in double precision, a positive step too small for the magnitude of the limits:
    step 1 on [2^54, 2^54 + 4] passes the check and then never advances ... *)
Theorem C25_small_step_refuted : forall (show : xr -> str) (fmt : nat -> str -> str) (f : R -> R) (l : layout) (fuel : nat),
  exists s, scale_min rnd64 f s = Fin (IZR (2 ^ 54)) /\ scale_max rnd64 f s = Fin (IZR (2 ^ 54 + 4)) /\
  run_placement rnd64 f show fmt fuel (PLinear (Fin 1)) s l = Diverge.
Proof.
  intros. exists big_scale. split; [reflexivity|]. split; [reflexivity|]. unfold run_placement.
  now rewrite (linear64_stuck show fmt f l fuel).
Qed.
Print Assumptions C25_small_step_refuted.

(** ... and an exponential layout with base at most 1 on a scale with that base. *)
Theorem C25_exp_base_refuted : forall (show : xr -> str) (fmt : nat -> str -> str) (s : scale) (base a b : R) (l : layout) (fuel : nat),
  s_kind s <> Categorical -> s_log_base s = Fin base -> 0 < base < 1 ->
  scale_min exact exact s = Fin a -> scale_max exact exact s = Fin b -> 0 < a -> a <= b ->
  run_placement exact exact show fmt fuel (PExp (Fin base)) s l = Diverge.
Proof.
  intros show fmt s base a b l fuel K LB B0 A B P L. unfold run_placement.
  rewrite (exp_small_base show fmt s base a b l fuel); auto; lra.
Qed.
Print Assumptions C25_exp_base_refuted.

(** C25. A logarithmic axis with default settings loops forever as soon as the data contain a
    negative value. *)
Theorem C25_log_negative_refuted : forall (show : xr -> str) (fmt : nat -> str -> str) (s : scale) (base a : R) (l : layout) (fuel : nat),
  s_kind s = Logarithmic -> s_log_base s = Fin base -> base <> 1 ->
  scale_min exact exact s = Fin a -> a < 0 ->
  run_placement exact exact show fmt fuel (default_label s) s l = Diverge.
Proof.
  intros show fmt s base a l fuel K LB B1 A L. unfold run_placement, default_label. rewrite K, LB.
  rewrite (exp_negative show fmt s base a l fuel); auto. rewrite K. discriminate.
Qed.
Print Assumptions C25_log_negative_refuted.

(** C25. The number of ticks of a subdivided axis is not limited. *)
Theorem C25_subdivide_unbounded_refuted : forall (show : xr -> str) (fmt : nat -> str -> str) (s : scale) (n : nat) (l : layout),
  exists l', layout_subdivide exact exact show fmt s n l = Ret (l', true) /\ length (positions l') = S n.
Proof. intros. eexists. split; [apply subdivide_layout|]. cbn [positions]. now rewrite map_length, seq_length. Qed.
Print Assumptions C25_subdivide_unbounded_refuted.

(** C24/C25. Placements left unset get the documented default for the kind of scale. *)
Theorem C24_defaults : forall s : scale, exists lab tick,
  layout_defaults s (Some None) (Some None) = (Some (Some lab), Some (Some tick)) /\
  lab = (match s_kind s with Categorical => PCategorical | Logarithmic => PExp (s_log_base s) | Linear => PSubdivide (Fin 10) end) /\
  tick = (match s_kind s with
          | Categorical => PCategoricalBounds
          | Logarithmic => if xeq (s_log_base s) (Fin 10) then PExpSteps (Fin 10) (Fin 10) else PExp (s_log_base s)
          | Linear => PSubdivide (Fin 10) end) /\
  forall p q, layout_defaults s (Some (Some p)) (Some (Some q)) = (Some (Some p), Some (Some q)).
Proof.
  intro s. unfold layout_defaults, default_label. destruct (s_kind s); try (eexists _, _; repeat split; reflexivity).
  destruct (xeq (s_log_base s) (Fin 10)); eexists _, _; repeat split; reflexivity.
Qed.
Print Assumptions C24_defaults.
