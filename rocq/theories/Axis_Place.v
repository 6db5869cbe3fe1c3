(** What the positions and labels of a tick placement have to do with each other. *)
From Coq Require Import Reals Lra.
From Verif Require Import Base Num Sexpr_Model Dispatch_Model Data_Model Scale_Model Scale_Spec Scale_Proofs4 Scale_Props
  Units_Model Color_Model Geo_Model Svg_Model Format_Model Cmd_Model Cmd_Spec Cmd_Proofs Style_Model Plot_Model Plot_Spec Axis_Model Axis_Spec.

Section Place.
  Variables (d f : R -> R) (show : xr -> str) (s : scale).
  Notation tr := (scale_translate d f s).
  Definition labels_from (fmt : nat -> str -> str) (i : nat) (vs : list xr) : list str :=
    map (fun q => fmt (fst q) (show (snd q))) (combine (seq i (length vs)) vs).
  Definition grown (fmt : nat -> str -> str) (i : nat) (l : layout) (ps vs : list xr) : layout :=
    mk_layout (positions l ++ ps) (labels l ++ labels_from fmt i vs).
  Lemma grown_add fmt i l p ps v vs :
    grown fmt (S i) (add_tick l p (fmt i (show v))) ps vs = grown fmt i l (p :: ps) (v :: vs).
  Proof. unfold grown, add_tick. cbn [positions labels labels_from length seq combine map fst snd]. now rewrite <- !app_assoc. Qed.

  Lemma tick_loop_by fuel skip : forall v e step i fmt0 l0 l', tick_loop d f show fmt0 fuel skip s v e step i l0 = Ret l' ->
    exists ps vs, Forall2 (fun p v => tr v = Ret p) ps vs /\
      forall fmt l, tick_loop d f show fmt fuel skip s v e step i l = Ret (grown fmt i l ps vs).
  Proof.
    assert (Nil : forall fmt i l, grown fmt i l [] [] = l) by (intros; unfold grown; cbn; rewrite !app_nil_r; now destruct l).
    induction fuel as [|fuel IH]; intros v e step i fmt0 l0 l' H; cbn [tick_loop] in H; [discriminate|].
    destruct (xle v e) eqn:V.
    - inv_bind H. destruct (skip && xlt v0 (Fin 0)) eqn:K.
      + destruct (IH _ _ _ _ _ _ _ H) as (ps & vs & F & Q). exists ps, vs. split; [exact F|]. intros. cbn [tick_loop]. rewrite V, A. cbn [bind]. rewrite K. apply Q.
      + destruct (IH _ _ _ _ _ _ _ H) as (ps & vs & F & Q). exists (v0 :: ps), (v :: vs). split; [now constructor|].
        intros. cbn [tick_loop]. rewrite V, A. cbn [bind]. rewrite K, Q. now rewrite grown_add.
    - exists [], []. split; [constructor|]. intros. cbn [tick_loop]. now rewrite V, Nil.
  Qed.
  Lemma exp_loop_by fuel base : forall ex i fmt0 l0 l', exp_loop d f show fmt0 fuel s base ex i l0 = Ret l' ->
    exists ps vs, Forall2 (fun p v => tr v = Ret p) ps vs /\
      forall fmt l, exp_loop d f show fmt fuel s base ex i l = Ret (grown fmt i l ps vs).
  Proof.
    assert (Nil : forall fmt i l, grown fmt i l [] [] = l) by (intros; unfold grown; cbn; rewrite !app_nil_r; now destruct l).
    induction fuel as [|fuel IH]; intros ex i fmt0 l0 l' H; cbn [exp_loop] in H; [discriminate|].
    inv_bind H. destruct (xlt (xpow d base ex) (scale_min d f s)) eqn:K; [|destruct (xlt (xadd d (scale_max d f s) (epsilon d)) (xpow d base ex)) eqn:M].
    - destruct (IH _ _ _ _ _ H) as (ps & vs & F & Q). exists ps, vs. split; [exact F|]. intros. cbn [exp_loop]. rewrite A. cbn [bind]. rewrite K. apply Q.
    - exists [], []. split; [constructor|]. intros. cbn [exp_loop]. rewrite A. cbn [bind]. now rewrite K, M, Nil.
    - destruct (IH _ _ _ _ _ H) as (ps & vs & F & Q). exists (v :: ps), (xpow d base ex :: vs). split; [now constructor|].
      intros. cbn [exp_loop]. rewrite A. cbn [bind]. rewrite K, M, Q. now rewrite grown_add.
  Qed.
  Lemma checked_by fuel skip b e step fmt0 l' ok : checked_ticks d f show fmt0 fuel skip s b e step empty_layout = Ret (l', ok) ->
    exists ps vs, Forall2 (fun p v => tr v = Ret p) ps vs /\
      forall fmt, checked_ticks d f show fmt fuel skip s b e step empty_layout = Ret (mk_layout ps (labels_from fmt 0 vs), ok).
  Proof.
    unfold checked_ticks. destruct (xlt max_ticks _).
    - intro H. injection H as <- <-. exists [], []. split; [constructor|]. reflexivity.
    - intro H. inv_bind H. injection H as <- <-. destruct (tick_loop_by _ _ _ _ _ _ _ _ _ A) as (ps & vs & F & Q).
      exists ps, vs. split; [exact F|]. intro fmt. now rewrite Q.
  Qed.
  Lemma placement_by p fuel fmt0 l' : by_value p -> run_placement d f show fmt0 fuel p s empty_layout = Ret l' ->
    exists ps vs, Forall2 (fun p v => tr v = Ret p) ps vs /\
      forall fmt, run_placement d f show fmt fuel p s empty_layout = Ret (mk_layout ps (labels_from fmt 0 vs)).
  Proof.
    intros B H. unfold run_placement in H. inv_bind H. destruct v as [l ok]. injection H as <-.
    destruct p; try contradiction; unfold Scale_Model.layout_linear, Scale_Model.layout_align, Scale_Model.layout_alignat, layout_interval, layout_exponential in A.
    1-4: destruct (checked_by _ _ _ _ _ _ _ _ A) as (ps & vs & F & Q); exists ps, vs; split; [exact F|]; intro fmt; unfold run_placement, Scale_Model.layout_linear, Scale_Model.layout_align, Scale_Model.layout_alignat, layout_interval; cbv zeta; cbv zeta in Q; now rewrite Q.
    - inv_bind A. injection A as <- <-. destruct (exp_loop_by _ _ _ _ _ _ _ A0) as (ps & vs & F & Q).
      exists ps, vs. split; [exact F|]. intro fmt. unfold run_placement, layout_exponential. now rewrite Q.
    - injection A as <- <-. exists [], []. split; [constructor|]. reflexivity.
  Qed.
End Place.

Section Placed.
  Variable W : world.
  Lemma combine_nth_error {A B} (l : list A) (l' : list B) i : nth_error (combine l l') i =
    match nth_error l i, nth_error l' i with Some a, Some b => Some (a, b) | _, _ => None end.
  Proof. revert l' i. induction l as [|a l IH]; intros [|b l'] [|i]; cbn; try reflexivity. - now destruct (nth_error l i). - apply IH. Qed.
  Lemma labels_from_nth show fmt vs i : nth_error (labels_from show fmt 0 vs) i = option_map (fun v => fmt i (show v)) (nth_error vs i).
  Proof.
    unfold labels_from. rewrite nth_error_map, combine_nth_error. destruct (nth_error vs i) eqn:V.
    - assert (i < length vs)%nat by (apply nth_error_Some; congruence).
      replace (nth_error (seq 0 (length vs)) i) with (Some i); [reflexivity|].
      symmetry. rewrite (nth_error_nth' _ 0%nat) by (rewrite seq_length; lia). now rewrite seq_nth.
    - now destruct (nth_error (seq 0 (length vs)) i).
  Qed.
  Lemma placed_labels s fm p l ps vs :
    (forall fmt, run_placement (w_d W) (w_f W) (w_show W) fmt (w_fuel W) p s empty_layout = Ret (mk_layout ps (labels_from (w_show W) fmt 0 vs))) ->
    placed W p s fm = Ret l ->
    positions l = ps /\ length (labels l) = length vs /\
    forall i v, nth_error vs i = Some v -> exists t, fm i (w_show W v) = Ret t /\ nth_error (labels l) i = Some t.
  Proof.
    intros Q H. unfold placed in H. rewrite !Q in H. cbn [bind labels] in H. destruct (existsb _ _) eqn:X; [discriminate|]. injection H as <-.
    cbn [positions labels]. split; [reflexivity|]. split; [unfold labels_from; rewrite map_length, combine_length, seq_length; lia|].
    intros i v N. rewrite labels_from_nth, N. cbn [option_map].
    destruct (fm i (w_show W v)) as [t| | | |] eqn:F; [exists t; auto|exfalso..];
      (apply Bool.diff_true_false; rewrite <- X; symmetry; apply existsb_exists; exists (s_ "!"); split; [|reflexivity];
       apply (nth_error_In _ i); rewrite labels_from_nth, N; cbn [option_map]; now rewrite F).
  Qed.
  Lemma ticks_by_value s fm p l : by_value p -> placed W p s fm = Ret l -> ticks_for W s fm l.
  Proof.
    intros B H. assert (H' := H). unfold placed in H'. inv_bind H'.
    destruct (placement_by _ _ _ _ _ _ _ _ B A) as (ps & vs & F & Q).
    destruct (placed_labels s fm p l ps vs Q H) as (P & L & K). assert (LF : length ps = length vs) by (clear - F; induction F; cbn; congruence). unfold ticks_for. rewrite P. split; [congruence|].
    intros i t lab N1 N2. destruct (nth_error vs i) as [v'|] eqn:V.
    - exists v'. split.
      + clear - F N1 V. revert i N1 V. induction F as [|p0 v0 ps vs P F IH]; intros [|i] N1 V; cbn in *; try discriminate; [congruence|eauto].
      + destruct (K i v' V) as (t' & T & N3). congruence.
    - exfalso. apply nth_error_None in V. assert (nth_error ps i = None) by (apply nth_error_None; lia). congruence.
  Qed.
  Lemma ticks_subdivide s fm n l a b : exact_world W -> linear_over s a b -> (0 < n)%nat -> (Z.of_nat n < 2 ^ 32)%Z ->
    placed W (PSubdivide (Fin (INR n))) s fm = Ret l ->
    positions l = map (fun i => Fin (INR i / INR n)) (seq 0 (S n)) /\ length (labels l) = S n /\
    forall i, (i <= n)%nat -> let v := division (s_inverted s) a b n i in
      unit_pos (s_inverted s) a b v = (INR i / INR n)%R /\
      exists t, fm i (w_show W (Fin v)) = Ret t /\ nth_error (labels l) i = Some t.
  Proof.
    intros X Li N N32 H.
    set (vs := map (fun i => Fin (division (s_inverted s) a b n i)) (seq 0 (S n))).
    assert (Q : forall fmt, run_placement (w_d W) (w_f W) (w_show W) fmt (w_fuel W) (PSubdivide (Fin (INR n))) s empty_layout =
      Ret (mk_layout (map (fun i => Fin (INR i / INR n)) (seq 0 (S n))) (labels_from (w_show W) fmt 0 vs))).
    { intro fmt. destruct X as [-> ->]. rewrite (C24_subdivide _ _ _ a b n) by assumption. do 2 f_equal.
      unfold labels_from, vs. rewrite map_length, seq_length. generalize (seq 0 (S n)) as is.
      intro is. rewrite <- (map_id is) at 2. induction is as [|i is IH]; [reflexivity|].
      cbn [map combine fst snd]. f_equal; exact IH. }
    destruct (placed_labels s fm _ l _ vs Q H) as (P & L & K). split; [exact P|]. split; [unfold vs in L; now rewrite map_length, seq_length in L|].
    intros i I v. split.
    - destruct Li as (_ & _ & _ & Lt). unfold v, division, unit_pos. assert (0 < INR n)%R by (apply lt_0_INR; lia).
      destruct (s_inverted s); field; lra.
    - apply K. unfold vs. rewrite nth_error_map, (nth_error_nth' _ 0%nat) by (rewrite seq_length; lia). now rewrite seq_nth by lia.
  Qed.
End Placed.
