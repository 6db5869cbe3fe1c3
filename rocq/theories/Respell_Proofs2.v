(** How the values of a data column are written does not matter: the elements. *)
From Coq Require Import Reals.
From Verif Require Import Base Num Sexpr_Model Dispatch_Model Data_Model Scale_Model Svg_Model Cmd_Model Cmd_Spec Cmd_Proofs
  Style_Model Plot_Model Source_Spec Respell_Spec Respell_Proofs.
Local Open Scope string_scope.
Local Open Scope list_scope.

Lemma orel_eq {S} (o o' : outcome S) : orel eq o o' -> o = o'.
Proof. destruct o, o'; cbn; try contradiction; congruence. Qed.

Arguments alike W {S}.

Section Elements.
  Variable W : world.
  Variable E : env.
  Variable p : plot.
  Variables e e' : list expr.
  Hypothesis PF : plain_files W.
  Hypothesis SO : Forall2 (same_option W) e e'.

  Lemma lines_like : orel (fun a b => alike W l_src set_l_src (fst (fst a)) (fst (fst b)) /\ snd (fst a) = snd (fst b) /\ snd a = snd b) (lines_configure W E p e) (lines_configure W E p e').
  Proof.
    unfold lines_configure. apply orel_bind with (R := alike W l_src set_l_src); [apply run_fair with (W := W); [apply lines_fair|exact PF|exact SO|exists src0; split; [reflexivity|apply src_refl]]|].
    intros c c' (v & -> & Q). change (l_src (set_l_src v c)) with v. rewrite (lines_sees W _ _ Q).
    destruct (load_lines W v) as [[b g]| | | |]; [|exact I..]. cbn [bind]. destruct (negb _); [exact I|]. destruct (_ =? _)%nat; [exact I|].
    cbn. split; [exists v; auto|auto].
  Qed.
  Lemma points_like : orel (fun a b => alike W p_src set_p_src (fst (fst (fst a))) (fst (fst (fst b))) /\ snd (fst (fst a)) = snd (fst (fst b)) /\ snd (fst a) = snd (fst b) /\ snd a = snd b)
    (points_configure W E p e) (points_configure W E p e').
  Proof.
    unfold points_configure. apply orel_bind with (R := alike W p_src set_p_src); [apply run_fair with (W := W); [apply points_fair|exact PF|exact SO|exists src0; split; [reflexivity|apply src_refl]]|].
    intros c c' (v & -> & Q). change (p_src (set_p_src v c)) with v. rewrite (points_sees W _ _ _ _ Q).
    destruct (load_points W v empty empty) as [b| | | |]; [|exact I..]. cbn [bind]. destruct (negb _); [exact I|].
    change (p_marks (set_p_src v c)) with (p_marks c). destruct (colors_of W (p_marks c)) as [cs| | | |]; [|exact I..]. cbn [bind].
    destruct (sizes_of W (p_marks c)) as [ss| | | |]; [|exact I..]. cbn. split; [exists v; auto|auto].
  Qed.
  Lemma vectors_like : orel (fun a b => alike W v_src set_v_src (fst (fst (fst a))) (fst (fst (fst b))) /\ snd (fst (fst a)) = snd (fst (fst b)) /\ snd (fst a) = snd (fst b) /\ snd a = snd b)
    (vectors_configure W E p e) (vectors_configure W E p e').
  Proof.
    unfold vectors_configure. apply orel_bind with (R := alike W v_src set_v_src); [apply run_fair with (W := W); [apply vectors_fair|exact PF|exact SO|exists src0; split; [reflexivity|apply src_refl]]|].
    intros c c' (v & -> & Q). change (v_src (set_v_src v c)) with v. rewrite (points_sees W _ _ _ _ Q).
    destruct (load_points W v empty empty) as [b| | | |]; [|exact I..]. cbn [bind]. destruct (negb _); [exact I|].
    change (v_marks (set_v_src v c)) with (v_marks c). destruct (colors_of W (v_marks c)) as [cs| | | |]; [|exact I..]. cbn [bind].
    destruct (sizes_of W (v_marks c)) as [ss| | | |]; [|exact I..]. cbn. split; [exists v; auto|auto].
  Qed.
  Lemma rects_like : orel (fun a b => alike W r_src set_r_src (fst (fst a)) (fst (fst b)) /\ snd (fst a) = snd (fst b) /\ snd a = snd b)
    (rects_configure W E p e) (rects_configure W E p e').
  Proof.
    unfold rects_configure. apply orel_bind with (R := alike W r_src set_r_src); [apply run_fair with (W := W); [apply rects_fair|exact PF|exact SO|exists src0; split; [reflexivity|apply src_refl]]|].
    intros c c' (v & -> & Q). change (r_src (set_r_src v c)) with v. rewrite (points_sees W _ _ _ _ Q).
    destruct (load_points W v empty empty) as [b| | | |]; [|exact I..]. cbn [bind]. destruct (negb _); [exact I|].
    change (r_marks (set_r_src v c)) with (r_marks c). destruct (colors_of W (r_marks c)) as [cs| | | |]; [|exact I..]. cbn. split; [exists v; auto|auto].
  Qed.
  Lemma labels_like : orel (fun a b => alike W t_src set_t_src (fst a) (fst b) /\ snd a = snd b) (labels_configure W E p e) (labels_configure W E p e').
  Proof.
    unfold labels_configure. apply orel_bind with (R := alike W t_src set_t_src); [apply run_fair with (W := W); [apply labels_fair|exact PF|exact SO|exists src0; split; [reflexivity|apply src_refl]]|].
    intros c c' (v & -> & Q). change (t_src (set_t_src v c)) with v. rewrite (points_sees W _ _ _ _ Q).
    destruct (load_points W v empty empty) as [b| | | |]; [|exact I..]. cbn [bind]. destruct (negb _); [exact I|]. cbn. split; [exists v; auto|auto].
  Qed.
  Lemma areas_like : orel (alike W a_src set_a_src) (areas_configure W E p e) (areas_configure W E p e').
  Proof.
    unfold areas_configure. apply orel_bind with (R := alike W a_src set_a_src); [apply run_fair with (W := W); [apply areas_fair|exact PF|exact SO|exists src0; split; [reflexivity|apply src_refl]]|].
    intros c c' (v & -> & Q). change (a_src (set_a_src v c)) with v. rewrite (points_sees W _ _ _ _ Q). change (a_x (set_a_src v c)) with (a_x c). change (a_y (set_a_src v c)) with (a_y c).
    destruct (load_points W v (a_x c) (a_y c)) as [b| | | |]; [|exact I..]. cbn [bind]. cbv zeta.
    set (c1 := set_a_y (snd b) (set_a_x (fst b) c)). change (set_a_y (snd b) (set_a_x (fst b) (set_a_src v c))) with (set_a_src v c1).
    change (a_x (set_a_src v c1)) with (a_x c1). change (a_y (set_a_src v c1)) with (a_y c1). change (a_xlow (set_a_src v c1)) with (a_xlow c1). change (a_ylow (set_a_src v c1)) with (a_ylow c1).
    destruct (negb _); [exact I|]. destruct (_ && _)%bool; [exact I|]. destruct (_ && _)%bool; [exact I|]. exists v. auto.
  Qed.
  Lemma bars_like : bars_configure W E p e = bars_configure W E p e'.
  Proof. unfold bars_configure. rewrite (orel_eq _ _ (run_fair W _ eq _ (bars_fair W E) e e' (bars0 W E p) _ PF SO eq_refl)). reflexivity. Qed.
  Lemma err_like : err_configure W E p e = err_configure W E p e'.
  Proof. unfold err_configure. erewrite (orel_eq _ _ (run_fair W _ eq _ (err_fair W E) e e' _ _ PF SO eq_refl)). reflexivity. Qed.

  Lemma lines_auto : lines_autorange W E p e = lines_autorange W E p e'.
  Proof. unfold lines_autorange. pose proof lines_like as H. destruct (lines_configure W E p e) as [[[c b] g]| | | |], (lines_configure W E p e') as [[[c' b'] g']| | | |]; cbn in H; try contradiction; try reflexivity. destruct H as (_ & -> & ->). reflexivity. Qed.
  Lemma lines_draws : lines_draw W E p e = lines_draw W E p e'.
  Proof. unfold lines_draw. pose proof lines_like as H. destruct (lines_configure W E p e) as [[[c b] g]| | | |], (lines_configure W E p e') as [[[c' b'] g']| | | |]; cbn in H; try contradiction; try reflexivity. destruct H as ((v & -> & _) & -> & ->). reflexivity. Qed.
  Lemma points_auto : points_autorange W E p e = points_autorange W E p e'.
  Proof. unfold points_autorange. pose proof points_like as H. destruct (points_configure W E p e) as [[[[c b] g] z]| | | |], (points_configure W E p e') as [[[[c' b'] g'] z']| | | |]; cbn in H; try contradiction; try reflexivity. destruct H as (_ & -> & _). reflexivity. Qed.
  Lemma points_draws : points_draw W E p e = points_draw W E p e'.
  Proof. unfold points_draw. pose proof points_like as H. destruct (points_configure W E p e) as [[[[c b] g] z]| | | |], (points_configure W E p e') as [[[[c' b'] g'] z']| | | |]; cbn in H; try contradiction; try reflexivity. destruct H as ((v & -> & _) & -> & -> & ->). reflexivity. Qed.
  Lemma vectors_auto : vectors_autorange W E p e = vectors_autorange W E p e'.
  Proof. unfold vectors_autorange. pose proof vectors_like as H. destruct (vectors_configure W E p e) as [[[[c b] g] z]| | | |], (vectors_configure W E p e') as [[[[c' b'] g'] z']| | | |]; cbn in H; try contradiction; try reflexivity. destruct H as (_ & -> & _). reflexivity. Qed.
  Lemma vectors_draws : vectors_draw W E p e = vectors_draw W E p e'.
  Proof. unfold vectors_draw. pose proof vectors_like as H. destruct (vectors_configure W E p e) as [[[[c b] g] z]| | | |], (vectors_configure W E p e') as [[[[c' b'] g'] z']| | | |]; cbn in H; try contradiction; try reflexivity. destruct H as ((v & -> & _) & -> & -> & ->). reflexivity. Qed.
  Lemma rects_auto : rectangles_autorange W E p e = rectangles_autorange W E p e'.
  Proof. unfold rectangles_autorange. pose proof rects_like as H. destruct (rects_configure W E p e) as [[[c b] g]| | | |], (rects_configure W E p e') as [[[c' b'] g']| | | |]; cbn in H; try contradiction; try reflexivity. destruct H as (_ & -> & _). reflexivity. Qed.
  Lemma rects_draws : rectangles_draw W E p e = rectangles_draw W E p e'.
  Proof. unfold rectangles_draw. pose proof rects_like as H. destruct (rects_configure W E p e) as [[[c b] g]| | | |], (rects_configure W E p e') as [[[c' b'] g']| | | |]; cbn in H; try contradiction; try reflexivity. destruct H as ((v & -> & _) & -> & ->). reflexivity. Qed.
  Lemma labels_auto : labels_autorange W E p e = labels_autorange W E p e'.
  Proof. unfold labels_autorange. pose proof labels_like as H. destruct (labels_configure W E p e) as [[c b]| | | |], (labels_configure W E p e') as [[c' b']| | | |]; cbn in H; try contradiction; try reflexivity. destruct H as (_ & ->). reflexivity. Qed.
  Lemma labels_draws : labels_draw W E p e = labels_draw W E p e'.
  Proof. unfold labels_draw. pose proof labels_like as H. destruct (labels_configure W E p e) as [[c b]| | | |], (labels_configure W E p e') as [[c' b']| | | |]; cbn in H; try contradiction; try reflexivity. destruct H as ((v & -> & _) & ->). reflexivity. Qed.
  Lemma areas_auto : areas_autorange W E p e = areas_autorange W E p e'.
  Proof. unfold areas_autorange. pose proof areas_like as H. destruct (areas_configure W E p e) as [c| | | |], (areas_configure W E p e') as [c'| | | |]; cbn in H; try contradiction; try reflexivity. destruct H as (v & -> & _). reflexivity. Qed.
  Lemma areas_draws : areas_draw W E p e = areas_draw W E p e'.
  Proof. unfold areas_draw. pose proof areas_like as H. destruct (areas_configure W E p e) as [c| | | |], (areas_configure W E p e') as [c'| | | |]; cbn in H; try contradiction; try reflexivity. destruct H as (v & -> & _). reflexivity. Qed.
  Lemma bars_auto : bars_autorange W E p e = bars_autorange W E p e'.
  Proof. unfold bars_autorange. now rewrite bars_like. Qed.
  Lemma bars_draws : bars_draw W E p e = bars_draw W E p e'.
  Proof. unfold bars_draw. now rewrite bars_like. Qed.
  Lemma err_auto : errorbars_autorange W E p e = errorbars_autorange W E p e'.
  Proof. unfold errorbars_autorange. now rewrite err_like. Qed.
  Lemma err_draws : errorbars_draw W E p e = errorbars_draw W E p e'.
  Proof. unfold errorbars_draw. now rewrite err_like. Qed.
End Elements.
