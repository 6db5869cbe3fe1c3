(** C113: no option list makes an element of a plot read outside its data, or run for ever. *)
From Coq Require Import Reals Lra Lia.
From Verif Require Import Base Num Sexpr_Model Dispatch_Model Data_Model Data_Spec Scale_Model
  Units_Model Color_Model Geo_Model Svg_Model Geojson_Model Cmd_Model Cmd_Spec Cmd_Proofs Style_Model Plot_Model Plot_Spec Plot_Proofs Plot_Parts
  Safe_Spec Safe_Proofs Safe_Proofs2 Safe_Proofs3 Demo.
Local Open Scope R_scope.

Lemma text_of W E rd e l : options (label_options W E rd) e (plain_labels W E) = Ret l -> labels_of W e = Ret (lb_text l).
Proof.
  intro H. assert (P : projects lb_text (label_options W E rd) [(s_ "labels", rd_strings W)]) by projection.
  exact (options_proj _ _ _ P ltac:(intros x [<-|[]]; cbn; tauto) _ _ _ H).
Qed.
Lemma text_of2 W E rd e l : options (label_options W E rd ++ font_options W) e (plain_labels W E) = Ret l -> labels_of W e = Ret (lb_text l).
Proof.
  intro H. assert (P : projects lb_text (label_options W E rd ++ font_options W) [(s_ "labels", rd_strings W)]) by projection.
  exact (options_proj _ _ _ P ltac:(intros x [<-|[]]; cbn; tauto) _ _ _ H).
Qed.

(** Lines: whatever the options are, if there are no more labels than points. *)
Theorem C113_lines : forall (W : world) (E : env) (p : plot) (e : list expr),
  tame W -> counts W -> maps_read W e -> scales_usable W p e -> few_labels W e (line_points W e) ->
  defined (lines_draw W E p e) /\ defined (lines_autorange W E p e).
Proof.
  intros W E p e T CW MR U FL. split; [|now apply lines_range]. apply lines_safe; auto. intros c b g Q.
  destruct (lines_conf_wf _ _ _ _ _ _ _ Q) as (R & LL & _). destruct (lines_parts W E e p c R) as (_ & _ & SR & _ & _ & _ & LB & _).
  apply (FL _ _ (text_of _ _ _ _ _ LB)). exists b, g. rewrite <- SR. now split.
Qed.
Print Assumptions C113_lines.

(** Points: the same, and a gradient for the colours reaches 1. *)
Theorem C113_points : forall (W : world) (E : env) (p : plot) (e : list expr),
  tame W -> counts W -> maps_read W e -> scales_usable W p e -> gradients_full W E e -> few_labels W e (data_points W e) ->
  defined (points_draw W E p e) /\ defined (points_autorange W E p e).
Proof.
  intros W E p e T CW MR U G FL. split; [|now apply points_range]. apply points_safe; auto. intros c b cs ss Q. pose proof Q as Q0.
  destruct (points_conf_wf _ _ _ _ _ _ _ _ Q) as (R & _). destruct (points_parts W E e p c R) as (_ & _ & SR & _ & _ & _ & _ & LB).
  apply (FL _ _ (text_of2 _ _ _ _ _ LB)). exists b. split; [|reflexivity]. rewrite <- SR.
  unfold points_configure in Q0. rewrite R in Q0. cbn [bind] in Q0. apply bind_ret in Q0. destruct Q0 as (b' & Q1 & Q2).
  destruct (negb _); [discriminate|]. apply bind_ret in Q2. destruct Q2 as (? & _ & Q2). apply bind_ret in Q2. destruct Q2 as (? & _ & Q2).
  assert (b' = b) as <- by congruence. exact Q1.
Qed.
Print Assumptions C113_points.

(** Bars. *)
Theorem C113_bars : forall (W : world) (E : env) (p : plot) (e : list expr),
  tame W -> counts W -> scales_usable W p e -> few_labels W e (column_points W ["data-x"; "data-x-high"]%string e) ->
  defined (bars_draw W E p e) /\ defined (bars_autorange W E p e).
Proof.
  intros W E p e T CW U FL. split; [|now apply bars_range]. apply bars_safe; auto. intros c Q.
  destruct (bars_conf_wf _ _ _ _ _ Q) as (R & _). destruct (bars_parts W E e p c R) as (_ & _ & X & _ & _ & _ & _ & _ & _ & _ & _ & _ & _ & LB).
  apply (FL _ _ (text_of _ _ _ _ _ LB)). exists (b_x c). now split.
Qed.
Print Assumptions C113_bars.

(** Areas, error bars and rectangles have no such labels. *)
Theorem C113_areas : forall (W : world) (E : env) (p : plot) (e : list expr),
  tame W -> counts W -> maps_read W e -> scales_usable W p e ->
  defined (areas_draw W E p e) /\ defined (areas_autorange W E p e).
Proof. intros. split; [now apply areas_safe|now apply areas_range]. Qed.
Print Assumptions C113_areas.
Theorem C113_errorbars : forall (W : world) (E : env) (p : plot) (e : list expr),
  tame W -> counts W -> scales_usable W p e -> gradients_full W E e ->
  defined (errorbars_draw W E p e) /\ defined (errorbars_autorange W E p e).
Proof. intros. split; [now apply err_safe|now apply err_range]. Qed.
Print Assumptions C113_errorbars.
Theorem C113_rectangles : forall (W : world) (E : env) (p : plot) (e : list expr),
  tame W -> counts W -> maps_read W e -> scales_usable W p e -> gradients_full W E e ->
  defined (rectangles_draw W E p e) /\ defined (rectangles_autorange W E p e).
Proof. intros. split; [now apply rects_safe|now apply rects_range]. Qed.
Print Assumptions C113_rectangles.

(** Labels. *)
Theorem C113_labels : forall (W : world) (E : env) (p : plot) (e : list expr),
  tame W -> counts W -> maps_read W e -> scales_usable W p e -> few_labels W e (data_points W e) ->
  defined (labels_draw W E p e) /\ defined (labels_autorange W E p e).
Proof.
  intros W E p e T CW MR U FL. split; [|now apply labels_range]. apply labels_safe; auto. intros c b Q. pose proof Q as Q0.
  destruct (labels_conf_wf _ _ _ _ _ _ Q) as (R & _). destruct (labels_parts W E e p c R) as (_ & _ & SR & LB).
  apply (FL _ _ (text_of2 _ _ _ _ _ LB)). exists b. split; [|reflexivity]. rewrite <- SR.
  unfold labels_configure in Q0. rewrite R in Q0. cbn [bind] in Q0. apply bind_ret in Q0. destruct Q0 as (b' & Q1 & Q2).
  destruct (negb _); [discriminate|]. assert (b' = b) as <- by congruence. exact Q1.
Qed.
Print Assumptions C113_labels.

(** Vectors: the columns of the differences are at least as long as the points. *)
Theorem C113_vectors : forall (W : world) (E : env) (p : plot) (e : list expr),
  tame W -> counts W -> maps_read W e -> scales_usable W p e -> gradients_full W E e ->
  (forall n m, data_points W e n -> column_points W ["data-dx"]%string e m -> (n <= m)%nat) ->
  (forall n m, data_points W e n -> column_points W ["data-dy"]%string e m -> (n <= m)%nat) ->
  defined (vectors_draw W E p e).
Proof.
  intros W E p e T CW MR U G LX LY. apply vectors_safe; auto. intros c b cs ss Q. pose proof Q as Q0.
  destruct (vectors_conf_wf _ _ _ _ _ _ _ _ Q) as (R & _). destruct (vectors_parts W E e p c R) as (_ & _ & SR & DX & DY & _).
  assert (D : data_points W e (databuf_len xr (fst b))).
  { exists b. split; [|reflexivity]. rewrite <- SR.
    unfold vectors_configure in Q0. rewrite R in Q0. cbn [bind] in Q0. apply bind_ret in Q0. destruct Q0 as (b' & Q1 & Q2).
    destruct (negb _); [discriminate|]. apply bind_ret in Q2. destruct Q2 as (? & _ & Q2). apply bind_ret in Q2. destruct Q2 as (? & _ & Q2).
    assert (b' = b) as <- by congruence. exact Q1. }
  split; [apply (LX _ _ D)|apply (LY _ _ D)]; eexists; split; eauto.
Qed.
Print Assumptions C113_vectors.
(** Fitting the axes needs no differences. *)
Theorem C113_vectors_fit : forall (W : world) (E : env) (p : plot) (e : list expr),
  tame W -> maps_read W e -> gradients_full W E e -> defined (vectors_autorange W E p e).
Proof. intros. now apply vectors_range. Qed.
Print Assumptions C113_vectors_fit.

(** Polygons, on scales that are not categorical. *)
Theorem C113_polygons : forall (W : world) (E : env) (p : plot) (e : list expr),
  tame W -> maps_read W e ->
  (forall s, options (firstn 4 (scale_options W "x")) e (p_sx p) = Ret s -> s_kind s <> Categorical) ->
  (forall s, options (firstn 4 (scale_options W "y")) e (p_sy p) = Ret s -> s_kind s <> Categorical) ->
  defined (polygons_draw W E p e) /\ defined (polygons_autorange W E p e).
Proof. intros. split; [now apply polys_safe|now apply polys_range]. Qed.
Print Assumptions C113_polygons.
