(** Options about different things can be exchanged: commands, plots and whole programs. *)
From Coq Require Import Reals Permutation.
From Verif Require Import Base Num Sexpr_Model Dispatch_Model Data_Model Scale_Model Units_Model Svg_Model Legend_Model Cmd_Model Cmd_Spec Cmd_Proofs
  Style_Model Plot_Model Axis_Model Eval_Model Eval_Spec Eval_Proofs Order_Spec Order_Proofs Order_Proofs2 Order_Proofs3 Order_Proofs4.
Local Open Scope string_scope.
Local Open Scope list_scope.

Lemma bind_iff {A B} (m m' : outcome A) (f : A -> outcome B) v : (forall x, m = Ret x <-> m' = Ret x) ->
  (let* x := m in f x) = Ret v <-> (let* x := m' in f x) = Ret v.
Proof.
  intro H. split; intro K; apply bind_ret in K; destruct K as (x & X & K); apply H in X; rewrite X; exact K.
Qed.
Lemma bind_iff2 {A B} (m : outcome A) (f g : A -> outcome B) v : (forall x, f x = Ret v <-> g x = Ret v) ->
  (let* x := m in f x) = Ret v <-> (let* x := m in g x) = Ret v.
Proof. intro H. destruct m; cbn [bind]; try tauto. apply H. Qed.

Section Commands.
  Variable W : world.
  Variable E : env.
  Ltac steps K := repeat (lazymatch goal with |- bind _ _ = _ <-> _ => apply bind_iff; intro end); apply K.
  Lemma lines_cmd p e e' : reordered about_lines e e' ->
    (forall v, lines_draw W E p e = Ret v <-> lines_draw W E p e' = Ret v) /\
    (forall v, lines_autorange W E p e = Ret v <-> lines_autorange W E p e' = Ret v).
  Proof.
    intro R. pose proof (run_reordered _ _ _ lines_whole (lines_owned W E) _ _ R) as K.
    split; intro v; unfold lines_draw, lines_autorange, lines_configure; steps K.
  Qed.
  Lemma points_cmd p e e' : reordered about_points e e' ->
    (forall v, points_draw W E p e = Ret v <-> points_draw W E p e' = Ret v) /\
    (forall v, points_autorange W E p e = Ret v <-> points_autorange W E p e' = Ret v).
  Proof.
    intro R. pose proof (run_reordered _ _ _ points_whole (points_owned W E) _ _ R) as K.
    split; intro v; unfold points_draw, points_autorange, points_configure; steps K.
  Qed.
  Lemma bars_cmd p e e' : reordered about_bars e e' ->
    (forall v, bars_draw W E p e = Ret v <-> bars_draw W E p e' = Ret v) /\
    (forall v, bars_autorange W E p e = Ret v <-> bars_autorange W E p e' = Ret v).
  Proof.
    intro R. pose proof (run_reordered _ _ _ bars_whole (bars_owned W E) _ _ R) as K.
    split; intro v; unfold bars_draw, bars_autorange, bars_configure; steps K.
  Qed.
  Lemma areas_cmd p e e' : reordered about_areas e e' ->
    (forall v, areas_draw W E p e = Ret v <-> areas_draw W E p e' = Ret v) /\
    (forall v, areas_autorange W E p e = Ret v <-> areas_autorange W E p e' = Ret v).
  Proof.
    intro R. pose proof (run_reordered _ _ _ areas_whole (areas_owned W E) _ _ R) as K.
    split; intro v; unfold areas_draw, areas_autorange, areas_configure; steps K.
  Qed.
  Lemma errorbars_cmd p e e' : reordered about_errorbars e e' ->
    (forall v, errorbars_draw W E p e = Ret v <-> errorbars_draw W E p e' = Ret v) /\
    (forall v, errorbars_autorange W E p e = Ret v <-> errorbars_autorange W E p e' = Ret v).
  Proof.
    intro R. pose proof (run_reordered _ _ _ err_whole (err_owned W E) _ _ R) as K.
    split; intro v; unfold errorbars_draw, errorbars_autorange, err_configure; steps K.
  Qed.
  Lemma labels_cmd p e e' : reordered about_labels_ e e' ->
    (forall v, labels_draw W E p e = Ret v <-> labels_draw W E p e' = Ret v) /\
    (forall v, labels_autorange W E p e = Ret v <-> labels_autorange W E p e' = Ret v).
  Proof.
    intro R. pose proof (run_reordered _ _ _ labels_whole (labels_owned W E) _ _ R) as K.
    split; intro v; unfold labels_draw, labels_autorange, labels_configure; steps K.
  Qed.
  Lemma vectors_cmd p e e' : reordered about_vectors e e' ->
    (forall v, vectors_draw W E p e = Ret v <-> vectors_draw W E p e' = Ret v) /\
    (forall v, vectors_autorange W E p e = Ret v <-> vectors_autorange W E p e' = Ret v).
  Proof.
    intro R. pose proof (run_reordered _ _ _ vectors_whole (vectors_owned W E) _ _ R) as K.
    split; intro v; unfold vectors_draw, vectors_autorange, vectors_configure; steps K.
  Qed.
  Lemma rectangles_cmd p e e' : reordered about_rectangles e e' ->
    (forall v, rectangles_draw W E p e = Ret v <-> rectangles_draw W E p e' = Ret v) /\
    (forall v, rectangles_autorange W E p e = Ret v <-> rectangles_autorange W E p e' = Ret v).
  Proof.
    intro R. pose proof (run_reordered _ _ _ rects_whole (rects_owned W E) _ _ R) as K.
    split; intro v; unfold rectangles_draw, rectangles_autorange, rects_configure; steps K.
  Qed.
  Lemma polygons_cmd p e e' : reordered about_polygons e e' ->
    (forall v, polygons_draw W E p e = Ret v <-> polygons_draw W E p e' = Ret v) /\
    (forall v, polygons_autorange W E p e = Ret v <-> polygons_autorange W E p e' = Ret v).
  Proof.
    intro R. pose proof (run_reordered _ _ _ polys_whole (polys_owned W E) _ _ R) as K.
    split; intro v; unfold polygons_draw, polygons_autorange, polys_configure; steps K.
  Qed.
  Lemma grid_cmd p e e' : reordered about_grid e e' -> forall v, plot_grid W E p e = Ret v <-> plot_grid W E p e' = Ret v.
  Proof. intros R v. pose proof (run_reordered _ _ _ grid_whole (grid_owned W E) _ _ R) as K. unfold plot_grid. steps K. Qed.
  Lemma background_cmd p e e' : reordered about_background e e' -> forall v, set_background W E p e = Ret v <-> set_background W E p e' = Ret v.
  Proof. intros R v. pose proof (run_reordered _ _ _ background_whole (background_owned W E) _ _ R) as K. unfold set_background. steps K. Qed.
  Lemma legend_cmd_ p e e' : reordered about_legend e e' -> forall v, legend_cmd W E p e = Ret v <-> legend_cmd W E p e' = Ret v.
  Proof. intros R v. pose proof (run_reordered _ _ _ legend_whole (legend_owned W E) _ _ R) as K. unfold legend_cmd. steps K. Qed.
  Lemma axes_cmd p e e' : reordered about_axes e e' -> forall v, plot_axes W E p e = Ret v <-> plot_axes W E p e' = Ret v.
  Proof. intros R v. pose proof (run_reordered _ _ _ axes_whole (axes_owned W E) _ _ R) as K. unfold plot_axes. steps K. Qed.
  Lemma item_cmd e e' : reordered about_item e e' -> forall v, item_configure W E e = Ret v <-> item_configure W E e' = Ret v.
  Proof. intros R v. exact (run_reordered _ _ _ item_whole (item_owned W E) _ _ R _ v). Qed.

  (** axis reads its options twice, first for align. *)
  Definition align_views : list (view axis_align) := [mk_view "align" (fun a => a)].
  Lemma align_whole : whole align_views.
  Proof. intros s t [H _]. exact H. Qed.
  Lemma align_owned : owned align_views about_one_axis [(s_ "align", upd (expr_to_enum align_enum) (fun v _ => v))].
  Proof.
    apply owned_all. apply Forall_cons; [|apply Forall_nil]. change (own align_views ["align"] (upd (expr_to_enum align_enum) (fun v _ => v))).
    apply own_upd; intros; cbn; auto.
  Qed.
  Lemma reordered_perm T e e' : reordered T e e' -> Permutation e e'.
  Proof.
    induction 1 as [l|l x y r _|a b c _ IH1 _ IH2]; [apply Permutation_refl| |eapply perm_trans; eauto]. apply Permutation_app_head, perm_swap.
  Qed.
  Lemma axis_cmd p e e' : reordered about_one_axis e e' -> forall v, plot_axis W E p e = Ret v <-> plot_axis W E p e' = Ret v.
  Proof.
    intros R v. unfold plot_axis. apply bind_iff. intro a. pose proof (reordered_perm _ _ _ R) as P.
    pose proof (options_reordered _ _ _ align_whole align_owned _ _ R) as K1. pose proof (options_reordered _ _ _ axis_whole (axis_owned W E) _ _ R) as K2.
    unfold axis_configure. destruct e as [|x e]; [apply Permutation_nil in P; subst e'; tauto|].
    destruct e' as [|x' e']; [apply Permutation_sym, Permutation_nil in P; discriminate|].
    unfold run_collect. rewrite !collect_is.
    set (w := walkx (axis_table W E) true (x :: e) [] []). set (w' := walkx (axis_table W E) true (x' :: e') [] []).
    assert (Hw : forall s, w s = (let* s' := options (axis_table W E) (x :: e) s in Ret (s', rest (axis_table W E) (x :: e) [] []))) by (intro; apply collect_is).
    assert (Hw' : forall s, w' s = (let* s' := options (axis_table W E) (x' :: e') s in Ret (s', rest (axis_table W E) (x' :: e') [] []))) by (intro; apply collect_is).
    clearbody w w'. split; intro H.
    - apply bind_ret in H. destruct H as ([g u] & H1 & H). apply bind_ret in H1. destruct H1 as (g' & H1 & H2). injection H2 as -> <-.
      apply K1 in H1. rewrite H1. cbn [bind]. apply bind_ret in H. destruct H as ([b u'] & H3 & H). injection H as ->. rewrite Hw in H3.
      apply bind_ret in H3. destruct H3 as (b' & H3 & H4). injection H4 as -> <-. rewrite Hw'. apply K2 in H3. rewrite H3. reflexivity.
    - apply bind_ret in H. destruct H as ([g u] & H1 & H). apply bind_ret in H1. destruct H1 as (g' & H1 & H2). injection H2 as -> <-.
      apply K1 in H1. rewrite H1. cbn [bind]. apply bind_ret in H. destruct H as ([b u'] & H3 & H). injection H as ->. rewrite Hw' in H3.
      apply bind_ret in H3. destruct H3 as (b' & H3 & H4). injection H4 as -> <-. rewrite Hw. apply K2 in H3. rewrite H3. reflexivity.
  Qed.
End Commands.
