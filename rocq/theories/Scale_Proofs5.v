(** Subdivided, categorical and exponential layouts; layouts that never end. *)
From Verif Require Import Base Sexpr_Model Dispatch_Model Dispatch_Spec Dispatch_Proofs Csv_Model Data_Model Data_Spec Data_Proofs Num Scale_Model Scale_Spec Scale_Proofs Scale_Proofs2 Scale_Proofs3 Scale_Proofs4.
From Flocq Require Import Relative.
Local Open Scope R_scope.

Section More.
  Variable show : xr -> str.
  Variable fmt : nat -> str -> str.

  (* fold of add_tick over indices *)
  Lemma fold_ticks (p : nat -> xr) (lab : nat -> str) is : forall l,
    fold_left (fun l i => add_tick l (p i) (lab i)) is l =
    mk_layout (positions l ++ map p is) (labels l ++ map lab is).
  Proof.
    induction is as [|i is IH]; intro l; cbn [fold_left map].
    - rewrite !app_nil_r. now destruct l.
    - rewrite IH. cbn. now rewrite <- !app_assoc.
  Qed.

  Lemma subdivide_layout d f s n l :
    layout_subdivide d f show fmt s n l =
    Ret (mk_layout (map (subdivide_pos f n) (seq 0 (S n)))
           (map (fun i => fmt i (show (scale_untranslate d f s (subdivide_pos f n i)))) (seq 0 (S n))), true).
  Proof. unfold layout_subdivide. rewrite (fold_ticks (subdivide_pos f n) (fun i => fmt i (show (scale_untranslate d f s (subdivide_pos f n i))))). reflexivity. Qed.

  Lemma subdivide_pos_exact n i : (0 < n)%nat -> subdivide_pos exact n i = Fin (cell_border n i).
  Proof.
    intro N. unfold subdivide_pos. assert (0 < INR n) by (now apply lt_0_INR).
    rewrite xdiv_fin by (unfold exact; lra). cbn [xmul]. unfold exact, cell_border. f_equal. field. lra.
  Qed.

  (** The value a linear scale shows at position i/n. *)
  Lemma subdivide_value s a b n i : linear_over s a b -> (0 < n)%nat ->
    scale_untranslate exact exact s (Fin (cell_border n i)) =
    Fin (if s_inverted s then b - (b - a) * cell_border n i else a + (b - a) * cell_border n i).
  Proof.
    intros (K & A & B & L) N. unfold scale_untranslate. rewrite K. unfold untranslate_linear. rewrite A, B.
    destruct (s_inverted s); cbn; unfold exact; f_equal; lra.
  Qed.

  (* categorical *)
  Lemma categorical_loop_ok s n (P : s_padding s = Fin (1/2)) (L : length (s_categories s) = n) cs : forall i l,
    (i + length cs <= n)%nat ->
    categorical_loop exact fmt s cs i l =
    Ret (mk_layout (positions l ++ map (fun k => Fin (cell_centre n k)) (seq i (length cs)))
           (labels l ++ map (fun p => fmt (fst p) (snd p)) (combine (seq i (length cs)) cs))).
  Proof.
    induction cs as [|c cs IH]; intros i l H; cbn [categorical_loop length seq map combine].
    - rewrite !app_nil_r. now destruct l.
    - cbn [length] in H. rewrite (translate_categorical_ok s n i L ltac:(lia) P). cbn [bind].
      rewrite IH by lia. cbn. now rewrite <- !app_assoc.
  Qed.
  Lemma categorical_layout s l : s_padding s = Fin (1/2) ->
    let n := length (s_categories s) in
    layout_categorical exact fmt s l =
    Ret (mk_layout (map (fun k => Fin (cell_centre n k)) (seq 0 n))
           (map (fun p => fmt (fst p) (snd p)) (combine (seq 0 n) (s_categories s))), true).
  Proof.
    intros P n. unfold layout_categorical. rewrite (categorical_loop_ok s n P eq_refl) by (unfold n; lia). reflexivity.
  Qed.

  Lemma centre_half n i : (0 < n)%nat ->
    cell_centre n i - 1/2 / INR n = cell_border n i /\ cell_centre n i + 1/2 / INR n = cell_border n (S i).
  Proof.
    intro N. assert (0 < INR n) by (now apply lt_0_INR). unfold cell_centre, cell_border. rewrite S_INR. split; field; lra.
  Qed.

  Lemma bounds_loop_ok s n (P : s_padding s = Fin (1/2)) (L : length (s_categories s) = n) (N : (0 < n)%nat) is : forall l,
    Forall (fun i => (i <= n)%nat) is ->
    bounds_loop exact s n (Fin (1/2 / INR n)) is l =
    Ret (mk_layout (positions l ++ map (fun k => Fin (cell_border n k)) is) (labels l ++ map (fun _ => []) is)).
  Proof.
    induction is as [|i is IH]; intros l F; cbn [bounds_loop map].
    - rewrite !app_nil_r. now destruct l.
    - pose proof (Forall_inv F) as I. cbn beta in I. pose proof (Forall_inv_tail F) as F'. clear F.
      destruct (Nat.eqb_spec i n) as [->|NE].
      + rewrite (translate_categorical_clamped s n L N P). cbn [bind xadd]. unfold exact at 2.
        destruct (centre_half n (n - 1) N) as [_ ->]. replace (S (n - 1)) with n by lia.
        rewrite IH by auto. cbn. now rewrite <- !app_assoc.
      + rewrite (translate_categorical_ok s n i L ltac:(lia) P). cbn [bind]. rewrite xsub_exact.
        destruct (centre_half n i N) as [-> _].
        rewrite IH by auto. cbn. now rewrite <- !app_assoc.
  Qed.
  Lemma bounds_layout s l : s_padding s = Fin (1/2) ->
    let n := length (s_categories s) in (0 < n)%nat ->
    layout_categorical_bounds exact s l =
    Ret (mk_layout (map (fun k => Fin (cell_border n k)) (seq 0 (S n))) (repeat [] (S n)), true).
  Proof.
    intros P n N. assert (0 < INR n) by (now apply lt_0_INR).
    assert (E : xdiv exact (Fin (1/2)) (xadd exact (Fin (exact (INR (n - 1)))) (xmul exact (s_padding s) (Fin 2))) = Fin (1/2 / INR n)).
    { rewrite P. cbn [xmul xadd]. unfold exact. rewrite minus_INR by lia. rewrite xdiv_fin by (cbn; lra).
      do 2 f_equal. cbn. lra. }
    unfold layout_categorical_bounds. fold n.
    rewrite E. rewrite (bounds_loop_ok s n P eq_refl N).
    - cbn [bind empty_layout positions labels app]. do 3 f_equal.
      clear. generalize 0%nat at 1. induction (S n) as [|k IH]; intro j; cbn; auto. now rewrite IH.
    - apply Forall_forall. intros i I. apply in_seq in I. lia.
  Qed.

  (* exponential *)
  Definition powers (a base : R) (n : nat) : list R := map (fun k => a * base ^ k) (seq 0 n).

  Lemma xpow_exact base y : 0 < base -> xpow exact (Fin base) (Fin y) = Fin (Rpower base y).
  Proof.
    intro B. cbn. destruct (Req_EM_T y 0) as [->|N]; [now rewrite Rpower_O|]. destruct (Rlt_dec 0 base); [|lra]. reflexivity.
  Qed.

  Lemma powers_S a base n : powers a base (S n) = a :: powers (a * base) base n.
  Proof.
    unfold powers. cbn [seq map]. f_equal; [cbn; lra|]. rewrite <- seq_shift, map_map. apply map_ext. intro k. cbn. ring.
  Qed.

  Lemma exp_loop_ok s t base mn mx : 0 < base ->
    (forall v, 0 < v -> scale_translate exact exact s (Fin v) = Ret (Fin (t v))) ->
    scale_min exact exact s = Fin mn -> scale_max exact exact s = Fin mx ->
    forall n ex v idx l fuel, v = Rpower base ex ->
    (forall k, (k <= n)%nat -> mn <= v * base ^ k) ->
    (forall k, (k < n)%nat -> v * base ^ k <= mx + 1/1000) -> mx + 1/1000 < v * base ^ n -> (n < fuel)%nat ->
    exp_loop exact exact show fmt fuel s (Fin base) (Fin ex) idx l =
    Ret (mk_layout (positions l ++ map (fun x => Fin (t x)) (powers v base n))
           (labels l ++ labels_from show fmt idx (powers v base n))).
  Proof.
    intros B T Mn Mx. induction n as [|n IH]; intros ex v idx l fuel V Lo Le Hi F.
    - destruct fuel as [|fuel]; [lia|]. cbn [exp_loop]. rewrite Mn, Mx, (xpow_exact base ex B), <- V.
      assert (0 < v) by (rewrite V; apply exp_pos). rewrite T by auto. cbn [bind].
      specialize (Lo 0%nat ltac:(lia)). cbn in Hi, Lo.
      destruct (xlt (Fin v) (Fin mn)) eqn:E1; [apply xlt_fin in E1; lra|].
      unfold epsilon. cbn [xadd]. unfold exact at 1 2.
      destruct (xlt _ (Fin v)) eqn:E2; [|apply xlt_fin_f in E2; lra].
      cbn. rewrite !app_nil_r. now destruct l.
    - destruct fuel as [|fuel]; [lia|]. cbn [exp_loop]. rewrite Mn, Mx, (xpow_exact base ex B), <- V.
      assert (PV : 0 < v) by (rewrite V; apply exp_pos). rewrite T by auto. cbn [bind].
      pose proof (Lo 0%nat ltac:(lia)) as Lo0. pose proof (Le 0%nat ltac:(lia)) as Le0. cbn in Lo0, Le0.
      destruct (xlt (Fin v) (Fin mn)) eqn:E1; [apply xlt_fin in E1; lra|].
      unfold epsilon. cbn [xadd]. unfold exact at 1 2.
      destruct (xlt _ (Fin v)) eqn:E2; [apply xlt_fin in E2; lra|].
      rewrite (IH _ (v * base)).
      + rewrite powers_S. cbn. now rewrite <- !app_assoc.
      + unfold exact. rewrite Rpower_plus, Rpower_1, V by auto. reflexivity.
      + intros k K. specialize (Lo (S k) ltac:(lia)). cbn in Lo. lra.
      + intros k K. specialize (Le (S k) ltac:(lia)). cbn in Le. lra.
      + cbn in Hi. lra.
      + lia.
  Qed.

  Lemma powers_bound a base mx : 1 < base -> 0 < a -> exists n,
    (forall k, (k < n)%nat -> a * base ^ k <= mx) /\ mx < a * base ^ n.
  Proof.
    intros B A.
    assert (EX : exists n, mx < a * base ^ n).
    { destruct (Pow_x_infinity base ltac:(rewrite Rabs_pos_eq; lra) (Rabs mx / a + 1)) as [N HN].
      exists N. specialize (HN N (le_n _)). rewrite Rabs_pos_eq in HN by (left; apply pow_lt; lra).
      pose proof (Rle_abs mx). assert (Rabs mx / a * a = Rabs mx) by (field; lra).
      assert ((Rabs mx / a + 1) * a <= base ^ N * a) by (apply Rmult_le_compat_r; lra). lra. }
    destruct EX as [n Hn]. induction n as [|n IH].
    - exists 0%nat. split; auto. intros; lia.
    - destruct (Rlt_le_dec mx (a * base ^ n)) as [L|L]; auto.
      exists (S n). split; auto. intros k K. apply Rle_trans with (2 := L). apply Rmult_le_compat_l; [lra|].
      apply Rle_pow; [lra|lia].
  Qed.

  Lemma powers_length a base n : length (powers a base n) = n.
  Proof. unfold powers. now rewrite map_length, seq_length. Qed.
End More.
