(** The elements, axes, grids, legends and backgrounds of a modest program. *)
From Coq Require Import Reals Lra Lia.
From Verif Require Import Base Num Sexpr_Model Dispatch_Model Data_Model Data_Spec Scale_Model
  Units_Model Color_Model Geo_Model Svg_Model Geojson_Model Format_Model Legend_Model Cmd_Model Cmd_Spec Cmd_Proofs Style_Model Plot_Model Plot_Spec Plot_Proofs Plot_Parts
  Axis_Model Eval_Model Eval_Spec Eval_Proofs Safe_Spec Safe_Proofs Safe_Proofs2 Safe_Proofs3 Safe_Props Safe_Props2 Ends_Spec Ends_Proofs.
Local Open Scope R_scope.

Section Commands.
  Variable W : world.
  Variable E : env.
  Hypothesis T : tame W.
  Hypothesis CW : counts W.
  Variable cat : Prop.
  Hypothesis dec_cat : cat \/ ~ cat.
  Notation okl := (okl W cat).
  Notation fine := (fine cat).
  Notation banned := (banned cat).
  Notation plot_fine := (plot_fine cat).
  Notation keep_cmd := (keep_if (Ends_Proofs.okl W cat)).
  Notation keep_table := (keep_table W cat).

  Lemma given_ok e k a : okl e -> given e k a -> ~ banned (s_ k) /\ okl a.
  Proof. intros O (x & I & Q). destruct (okl_option W cat e x (s_ k) a O I Q) as (A & B & _). now split. Qed.
  Lemma lo_labels : banned (s_ "labels"). Proof. left; cbn; auto 6. Qed.
  Lemma lo_gradient : banned (s_ "gradient"). Proof. left; cbn; auto 6. Qed.
  Lemma lo_vectors : banned (s_ "vectors"). Proof. left; cbn; auto 6. Qed.
  Lemma ok_labels e points : okl e -> few_labels W e points.
  Proof. intro O. apply C113_no_labels. intros a G. exact (proj1 (given_ok _ _ _ O G) lo_labels). Qed.
  Lemma ok_gradients e : okl e -> gradients_full W E e.
  Proof.
    intros O a stops G Q. exfalso. destruct (given_ok _ _ _ O G) as [_ Oa]. unfold color_map_read in Q.
    destruct a as [|[l|t|t] a]; try discriminate. destruct (head_is (s_ "gradient") l) eqn:H.
    - unfold head_is in H. destruct l as [|[y|t|t] l]; try discriminate H; cbn [value_of] in H.
      all: destruct (str_eqb_spec t (s_ "gradient")) as [->|]; [|discriminate H].
      all: refine (proj1 (proj1 Oa (s_ "gradient") _) lo_gradient); cbn; now left.
    - destruct (head_is (s_ "steps") l); [|discriminate]. apply bind_ret in Q. destruct Q as (u & _ & Q). discriminate.
  Qed.
  Lemma ok_maps e : okl e -> maps_read W e.
  Proof.
    intros O path (a & G & P). destruct (given_ok _ _ _ O G) as [_ Oa].
    assert (V : forall b p, okl b -> value_of b = Some p -> defined (geojson_shapes W p)).
    { intros b p Ob V. destruct b as [|[l|t|t] b]; try discriminate V; cbn [value_of] in V; injection V as ->; apply (proj1 Ob); cbn; now left. }
    destruct P as [P|(h & b & r & -> & P)]; [eapply V; eauto|]. eapply V; [|exact P]. exact (okl_list _ _ _ _ Oa _ _ eq_refl).
  Qed.

  (** Fitting. *)
  Lemma fit_fine s b s' : fine s -> fit_data W s b = Ret s' -> fine s'.
  Proof.
    unfold fit_data, fit_buf. intros F Q.
    assert (G : forall vs, fine (fit_all s vs)) by (intro vs; exact (fit_same cat vs s F)).
    destruct (s_kind s); [apply bind_ret in Q; destruct Q as (vs & _ & Q)..|]; try (injection Q as <-; apply G).
    destruct (map_categories _ _ s b []) as [vs []]; try discriminate. injection Q as <-. apply G.
  Qed.
  Lemma fit_x_fine b p p' : plot_fine p -> fit_x W b p = Ret p' -> plot_fine p'.
  Proof. intros [A B] Q. apply bind_ret in Q. destruct Q as (s & Q1 & Q). injection Q as <-. split; [exact (fit_fine _ _ _ A Q1)|exact B]. Qed.
  Lemma fit_y_fine b p p' : plot_fine p -> fit_y W b p = Ret p' -> plot_fine p'.
  Proof. intros [A B] Q. apply bind_ret in Q. destruct Q as (s & Q1 & Q). injection Q as <-. split; [exact A|exact (fit_fine _ _ _ B Q1)]. Qed.
  Ltac fits Q := repeat match type of Q with
    | bind _ _ = _ => let v := fresh "v" in let A := fresh "A" in apply bind_ret in Q; destruct Q as (v & A & Q); try (destruct v as [[[? ?] ?] ?] || destruct v as [[? ?] ?] || destruct v as [? ?])
    end.
  Lemma ranges_keep f : (forall p e, okl e -> defined (f p e)) -> (forall p e p', plot_fine p -> f p e = Ret p' -> plot_fine p') ->
    keep_cmd plot_fine (ranges f).
  Proof. intros D P a p O F. unfold ranges. split; [now apply D|]. intros p' Q. eapply P; eauto. Qed.
  Ltac fine_fit :=
    let p := fresh in let e := fresh in let p' := fresh in let F := fresh "F" in let Q := fresh "Q" in
    intros p e p' F Q; apply bind_ret in Q; destruct Q as (? & _ & Q);
    repeat match type of Q with context [let '(_, _) := ?x in _] => destruct x end;
    repeat first
     [ match type of Q with bind (fit_x _ _ _) _ = _ => let A := fresh "A" in apply bind_ret in Q; destruct Q as (? & A & Q); apply fit_x_fine in A; [|assumption] end
     | match type of Q with bind (fit_y _ _ _) _ = _ => let A := fresh "A" in apply bind_ret in Q; destruct Q as (? & A & Q); apply fit_y_fine in A; [|assumption] end ];
    first [eapply fit_x_fine; [|exact Q]; assumption|eapply fit_y_fine; [|exact Q]; assumption].
  Lemma prepare_keep : keep_table plot_fine (prepare_table W E).
  Proof.
    unfold prepare_table. apply keep_app.
    { apply scale_entries_keep; [intros s V; exact V|]. intros v s [A B] F. now split. }
    apply keep_cons; [apply ranges_keep; [intros; apply areas_range; auto using ok_maps|unfold areas_autorange; fine_fit]|].
    apply keep_cons; [apply ranges_keep; [intros; apply bars_range; auto|unfold bars_autorange; fine_fit]|].
    apply keep_cons; [apply ranges_keep; [intros; apply err_range; auto using ok_gradients|unfold errorbars_autorange; fine_fit]|].
    apply keep_cons; [apply ranges_keep; [intros; apply labels_range; auto using ok_maps|unfold labels_autorange; fine_fit]|].
    apply keep_cons; [apply ranges_keep; [intros; apply lines_range; auto using ok_maps|unfold lines_autorange; fine_fit]|].
    apply keep_cons; [apply ranges_keep; [intros; apply points_range; auto using ok_maps, ok_gradients|unfold points_autorange; fine_fit]|].
    apply keep_cons; [apply ranges_keep; [intros; apply polys_range; auto using ok_maps|]|].
    { intros p e p' [A B] Q. unfold polygons_autorange, polys_configure in Q. apply bind_ret in Q. destruct Q as ([c p1] & Q1 & Q).
      injection Q as <-. apply bind_ret in Q1. destruct Q1 as (c0 & _ & Q1). injection Q1 as _ <-. split; cbn [p_sx p_sy]; now apply fit_same. }
    apply keep_cons; [apply ranges_keep; [intros; apply rects_range; auto using ok_maps, ok_gradients|unfold rectangles_autorange; fine_fit]|].
    apply keep_cons; [apply ranges_keep; [intros; apply vectors_range; auto using ok_maps, ok_gradients|unfold vectors_autorange; fine_fit]|].
    apply keep_nil.
  Qed.
End Commands.
