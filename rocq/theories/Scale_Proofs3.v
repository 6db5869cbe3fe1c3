(** Categorical columns and tick layouts. *)
From Verif Require Import Base Sexpr_Model Dispatch_Model Dispatch_Spec Dispatch_Proofs Csv_Model Data_Model Data_Spec Data_Proofs Num Scale_Model Scale_Spec Scale_Proofs Scale_Proofs2.
Local Open Scope R_scope.

(* ---- configuration of categories ---- *)
Section Cat.
  Variable show : xr -> str.
  Variable stod : str -> option (xr * nat).
  Variable is_number : str -> bool.
  Variable read_file : str -> option str.

  Lemma values_no_list (vs : list str) (e : list expr) h :
    Forall2 (fun v x => x = ELit v \/ x = EVal v) vs e -> list_headed e h = None.
  Proof. intro H. destruct H as [|v x vs e Hx H]; auto. destruct Hx; subst; reflexivity. Qed.

  Definition categorical_scale (s : scale) (cats : list str) : scale :=
    index_categories (set_categories (set_categorical s) cats).

  Lemma configure_categorical args cats s :
    Forall2 (fun v x => x = ELit v \/ x = EVal v) cats args ->
    configure_kind stod read_file [EList (ELit (s_ "categorical") :: args)] s =
      (categorical_scale s cats, Ret tt).
  Proof.
    intro H. cbn [configure_kind is_val value_of orb].
    replace (list_headed [EList (ELit (s_ "categorical") :: args)] (s_ "log")) with (@None (list expr)) by reflexivity.
    replace (list_headed [EList (ELit (s_ "categorical") :: args)] (s_ "logarithmic")) with (@None (list expr)) by reflexivity.
    replace (list_headed [EList (ELit (s_ "categorical") :: args)] (s_ "categorical")) with (Some args) by reflexivity.
    unfold data_load_strings. rewrite (values_no_list cats args _ H).
    assert (E : expr_to_strings args (s_categories (set_categorical s)) = (cats, Ret tt)) by (apply strings_ok; exact H).
    rewrite E. reflexivity.
  Qed.

  Lemma to_unsigned_INR i n : (Z.of_nat n < 2 ^ 64)%Z -> (i < n)%nat -> to_unsigned 64 (Fin (INR i)) = Ret i.
  Proof.
    intros N I. unfold to_unsigned. rewrite INR_IZR_INZ, Ztrunc_IZR.
    destruct (Z.leb_spec 0 (Z.of_nat i)); [|lia]. destruct (Z.ltb_spec (Z.of_nat i) (2^64)); [|lia].
    cbn. now rewrite Nat2Z.id.
  Qed.

  Notation cells := (map (as_text xr show)).

  Lemma map_loop_ok s ts is : Forall2 (fun t i => assoc t (s_cmap s) = Some i) ts is -> forall acc,
    map_loop exact s ts acc = (acc ++ map (fun i => Fin (INR i)) is, Ret tt).
  Proof.
    induction 1 as [|t i ts is E H IH]; intro acc; cbn [map_loop map].
    - now rewrite app_nil_r.
    - rewrite E, IH, <- app_assoc. reflexivity.
  Qed.
  Lemma map_loop_err d s ts : (exists t, In t ts /\ assoc t (s_cmap s) = None) -> forall acc,
    snd (map_loop d s ts acc) = Err.
  Proof.
    induction ts as [|t ts IH]; intros (x & I & E) acc; [destruct I|]. cbn [map_loop].
    destruct (assoc t (s_cmap s)) eqn:A; auto. apply IH. destruct I as [->|I]; [congruence|eauto].
  Qed.

  Lemma translatev_cat f s n is : s_kind s = Categorical -> length (s_categories s) = n ->
    s_padding s = Fin (1/2) -> (Z.of_nat n < 2 ^ 64)%Z -> Forall (fun i => (i < n)%nat) is ->
    translatev exact f s (map (fun i => Fin (INR i)) is) = Ret (map (fun i => Fin (cell_centre n i)) is).
  Proof.
    intros K L P N F. induction F as [|i is I F IH]; cbn [translatev map]; auto.
    rewrite IH. unfold scale_translate. rewrite K, (to_unsigned_INR i n N I). cbn [bind].
    now rewrite (translate_categorical_ok s n i L I P).
  Qed.

  Lemma categorical_column f s cats b l is : NoDup cats -> (Z.of_nat (length cats) < 2 ^ 64)%Z ->
    repr xr b l -> Forall2 (fun t i => nth_error cats i = Some t) (cells l) is ->
    translatev_buf exact f show stod is_number (categorical_scale s cats) b =
      Ret (map (fun i => Fin (cell_centre (length cats) i)) is).
  Proof.
    intros ND N R F. unfold translatev_buf. change (s_kind (categorical_scale s cats)) with Categorical. cbn iota.
    unfold map_categories, databuf_to_text. rewrite (repr_text xr show b _ l [] R). cbn [app].
    rewrite (map_loop_ok (categorical_scale s cats) (cells l) is).
    - cbn [app]. apply translatev_cat; auto. apply Forall_forall. intros i I.
      clear - F I. induction F; [destruct I|]. destruct I as [->|I]; auto. apply nth_error_Some. congruence.
    - eapply Forall2_impl; [|exact F]. cbn. intros t i E.
      rewrite (assoc_number_last cats 0 (s_cmap s) t i E); auto. now apply nodup_last.
  Qed.

  Lemma categorical_unknown f s cats b l t : s_cmap s = [] ->
    repr xr b l -> In t (cells l) -> ~ In t cats ->
    translatev_buf exact f show stod is_number (categorical_scale s cats) b = Err /\
    fit_buf exact show stod (categorical_scale s cats) b = Err.
  Proof.
    intros M R I NI. unfold translatev_buf, fit_buf. change (s_kind (categorical_scale s cats)) with Categorical. cbn iota.
    unfold map_categories, databuf_to_text. rewrite (repr_text xr show b _ l [] R). cbn [app].
    pose proof (map_loop_err exact (categorical_scale s cats) (cells l)) as E.
    destruct (map_loop exact (categorical_scale s cats) (cells l) []) as [vs o] eqn:X.
    assert (o = Err) as ->.
    { assert (A : assoc t (s_cmap (categorical_scale s cats)) = None)
        by (cbn; rewrite assoc_number_none by auto; now rewrite M).
      specialize (E (ex_intro _ t (conj I A)) []). rewrite X in E. exact E. }
    auto.
  Qed.
End Cat.

(* ---- ticks ---- *)
Section Ticks.
  Variable show : xr -> str.
  Variable fmt : nat -> str -> str.

  Definition labels_from (k : nat) (vs : list R) : list str :=
    map (fun p => fmt (fst p) (show (Fin (snd p)))) (combine (seq k (length vs)) vs).

  Definition progression (v step : R) (n : nat) : list R := map (fun i => v + INR i * step) (seq 0 n).

  Lemma progression_S v step n : progression v step (S n) = v :: progression (v + step) step n.
  Proof.
    unfold progression. cbn [seq map]. f_equal; [cbn; lra|]. rewrite <- seq_shift, map_map.
    apply map_ext. intro i. rewrite S_INR. lra.
  Qed.

  Lemma progression_nth v step n i x : nth_error (progression v step n) i = Some x <->
    (i < n)%nat /\ x = v + INR i * step.
  Proof.
    unfold progression. split.
    - intro H. assert (i < n)%nat as I.
      { rewrite <- (seq_length n 0), <- (map_length (fun i => v + INR i * step)). apply nth_error_Some. congruence. }
      split; auto. rewrite nth_error_map, (nth_error_nth' _ 0%nat) in H by (now rewrite seq_length).
      rewrite seq_nth in H by auto. cbn in H. congruence.
    - intros [I ->]. rewrite nth_error_map, (nth_error_nth' _ 0%nat) by (now rewrite seq_length).
      now rewrite seq_nth.
  Qed.

  Definition kept (skip : bool) (t : R -> R) (vs : list R) : list R :=
    if skip then filter (fun v => if Rlt_dec (t v) 0 then false else true) vs else vs.

  Lemma tick_loop_ok f s t e step skip :
    (forall v, scale_translate exact f s (Fin v) = Ret (Fin (t v))) ->
    forall n v idx l fuel,
    (forall i, (i < n)%nat -> v + INR i * step <= e) -> e < v + INR n * step -> (n < fuel)%nat ->
    tick_loop exact f show fmt fuel skip s (Fin v) (Fin e) (Fin step) idx l =
      Ret (mk_layout (positions l ++ map (fun x => Fin (t x)) (kept skip t (progression v step n)))
                     (labels l ++ labels_from idx (kept skip t (progression v step n)))).
  Proof.
    intro T. induction n as [|n IH]; intros v idx l fuel Lo Hi F.
    - destruct fuel as [|fuel]; [lia|]. cbn [tick_loop]. cbn in Hi.
      destruct (xle (Fin v) (Fin e)) eqn:E; [apply xle_fin in E; lra|].
      replace (kept skip t (progression v step 0)) with (@nil R) by (destruct skip; reflexivity).
      cbn. rewrite !app_nil_r. now destruct l.
    - destruct fuel as [|fuel]; [lia|]. cbn [tick_loop].
      assert (V : v <= e) by (specialize (Lo 0%nat ltac:(lia)); cbn in Lo; lra).
      destruct (xle (Fin v) (Fin e)) eqn:E; [|apply xle_fin_f in E; lra].
      rewrite T. cbn [bind]. cbn [xadd]. unfold exact at 1 3.
      assert (Lo' : forall i, (i < n)%nat -> v + step + INR i * step <= e).
      { intros i I. specialize (Lo (S i) ltac:(lia)). rewrite S_INR in Lo. lra. }
      assert (Hi' : e < v + step + INR n * step) by (rewrite S_INR in Hi; lra).
      rewrite progression_S. destruct skip; cbn [andb].
      + cbn [kept filter]. destruct (Rlt_dec (t v) 0) as [N|N].
        * replace (xlt (Fin (t v)) (Fin 0)) with true by (symmetry; now apply xlt_fin).
          rewrite IH by (auto; lia). reflexivity.
        * replace (xlt (Fin (t v)) (Fin 0)) with false by (symmetry; apply xlt_fin_f; lra).
          rewrite IH by (auto; lia). cbn [add_tick positions labels kept map]. rewrite <- !app_assoc. reflexivity.
      + rewrite IH by (auto; lia). cbn [add_tick positions labels kept map]. rewrite <- !app_assoc. reflexivity.
  Qed.

  (* number of steps from v to e *)
  Definition count (v e step : R) : nat := Z.to_nat (Zfloor ((e - v) / step) + 1).

  Lemma count_ok v e step : 0 < step ->
    (forall i, (i < count v e step)%nat -> v + INR i * step <= e) /\ e < v + INR (count v e step) * step.
  Proof.
    intro P. unfold count. set (q := (e - v) / step).
    assert (Q : e = v + q * step) by (unfold q; field; lra).
    pose proof (Zfloor_lb q) as L. pose proof (Zfloor_ub q) as U.
    destruct (Z_lt_le_dec (Zfloor q + 1) 0) as [N|N].
    - replace (Z.to_nat (Zfloor q + 1)) with 0%nat by lia. split; [intros; lia|]. cbn.
      assert (q < 0) by (apply Rlt_le_trans with (1 := U); rewrite <- plus_IZR; apply IZR_le; lia). nra.
    - split.
      + intros i I. assert (Z.of_nat i <= Zfloor q)%Z by lia. apply IZR_le in H. rewrite <- INR_IZR_INZ in H.
        rewrite Q. assert (INR i <= q) by lra. nra.
      + rewrite INR_IZR_INZ, Z2Nat.id by lia. rewrite plus_IZR. rewrite Q. nra.
  Qed.

  Lemma count_max v e step k : 0 < step -> (0 <= k)%Z -> (e - v) / step <= IZR k -> (Z.of_nat (count v e step) <= k + 1)%Z.
  Proof.
    intros P K H. unfold count. assert (Zfloor ((e - v) / step) <= k)%Z.
    { apply le_IZR. pose proof (Zfloor_lb ((e - v) / step)). lra. } lia.
  Qed.

  Lemma progression_arith v step e n : (forall i, (i < n)%nat -> v + INR i * step <= e) -> e < v + INR n * step ->
    arithmetic_ticks v step e (progression v step n).
  Proof.
    intros Lo Hi. split.
    - intros i x H. apply progression_nth in H as [I ->]. split; auto.
    - unfold progression. now rewrite map_length, seq_length.
  Qed.

  Lemma progression_length v step n : length (progression v step n) = n.
  Proof. unfold progression. now rewrite map_length, seq_length. Qed.

  Lemma kept_length skip t vs : (length (kept skip t vs) <= length vs)%nat.
  Proof.
    destruct skip; cbn; auto. induction vs as [|v vs IH]; cbn; auto. destruct (Rlt_dec (t v) 0); cbn; lia.
  Qed.

  (** Termination and count for any positive step. *)
  Lemma checked_ticks_ok f s t b e step skip l :
    (forall v, scale_translate exact f s (Fin v) = Ret (Fin (t v))) -> 0 < step ->
    (8192 < (e - b) / step /\ forall fuel, checked_ticks exact f show fmt fuel skip s (Fin b) (Fin e) (Fin step) l = Ret (l, false)) \/
    ((e - b) / step <= 8192 /\
     exists vs, arithmetic_ticks b step e vs /\ (Z.of_nat (length vs) <= 8193)%Z /\
     forall fuel, (length vs < fuel)%nat ->
       checked_ticks exact f show fmt fuel skip s (Fin b) (Fin e) (Fin step) l =
       Ret (mk_layout (positions l ++ map (fun x => Fin (t x)) (kept skip t vs))
                      (labels l ++ labels_from 0 (kept skip t vs)), true)).
  Proof.
    intros T P.
    assert (Q : xdiv exact (xsub exact (Fin e) (Fin b)) (Fin step) = Fin ((e - b) / step))
      by (rewrite xsub_fin, xdiv_fin by lra; reflexivity).
    unfold checked_ticks, max_ticks. rewrite Q.
    destruct (xlt (Fin 8192) (Fin ((e - b) / step))) eqn:E.
    - left. apply xlt_fin in E. split; auto.
    - right. apply xlt_fin_f in E. split; auto. destruct (count_ok b e step P) as [Lo Hi].
      exists (progression b step (count b e step)). split; [now apply progression_arith|].
      rewrite progression_length. split.
      + pose proof (count_max b e step 8192 P ltac:(lia) E). lia.
      + intros fuel F. now rewrite (tick_loop_ok f s t e step skip T (count b e step)).
  Qed.

  Lemma tick_diverge d f s e step skip v0 :
    (forall v, exists p, scale_translate d f s v = Ret p) ->
    forall fuel (I : xr -> Prop), I v0 -> (forall v, I v -> xle v e = true /\ I (xadd d v step)) ->
    forall idx l, tick_loop d f show fmt fuel skip s v0 e step idx l = Diverge.
  Proof.
    intros T fuel I H0 HI. revert v0 H0. induction fuel as [|fuel IH]; intros v H0 idx l; cbn [tick_loop]; auto.
    destruct (HI v H0) as [-> H1]. destruct (T v) as [p ->]. cbn [bind]. destruct (skip && _); now apply IH.
  Qed.
End Ticks.
