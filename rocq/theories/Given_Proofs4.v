(** Commands of a plot with given limits do not influence each other: the axes. *)
From Coq Require Import Reals.
From Verif Require Import Base Num Sexpr_Model Dispatch_Model Data_Model Scale_Model Svg_Model Cmd_Model Cmd_Spec Cmd_Proofs
  Style_Model Geo_Model Format_Model Plot_Model Axis_Model Eval_Model Given_Proofs Given_Proofs2 Given_Proofs3.
Local Open Scope list_scope.

Section Axes.
  Variable W : world.
  Variable E : env.
  Notation d := (w_d W).
  Definition arel (a b : axis) : Prop := exists x, b = set_a_scale x a /\ close (a_scale a) x.
  Definition axes_rel (c c' : axes_cfg) : Prop := Forall2 arel (x_axes c) (x_axes c') /\ x_margins c = x_margins c'.
  Ltac arelated := intros; repeat match goal with H : arel _ _ |- _ => destruct H as (? & -> & ?) end;
    first [assumption | reflexivity | match goal with |- arel _ _ => eexists; split; [reflexivity|assumption] end].
  Lemma g_scale : par arel (c_scale W).
  Proof. apply (par_part _ close); [apply close_kind|arelated..]. Qed.
  Lemma g_limit : par arel (c_limit W).
  Proof. apply (par_part _ close); [apply close_limits|arelated..]. Qed.
  Ltac plain := first [apply par_upd; solve [arelated]|apply par_same; solve [arelated]].
  Ltac acmd := first [exact g_scale|exact g_limit|plain].

  Lemma nth_rel l l' i a : Forall2 arel l l' -> nth_error l i = Some a -> exists b, nth_error l' i = Some b /\ arel a b.
  Proof.
    intro F. revert i. induction F as [|x y l l' R F IH]; intros [|i] H; cbn in *; try discriminate.
    - injection H as <-. eauto.
    - exact (IH i H).
  Qed.
  Lemma set_nth_rel l l' i a b : Forall2 arel l l' -> arel a b -> Forall2 arel (set_nth i a l) (set_nth i b l').
  Proof. intros F R. revert i. induction F; intros [|i]; cbn [set_nth]; auto. Qed.
  Lemma g_on i c : par arel c -> par axes_rel (on i c).
  Proof.
    intros P e s t v [F M] H. unfold on in *. destruct (nth_error (x_axes s) i) as [a|] eqn:Q; [|discriminate].
    destruct (nth_rel _ _ _ _ F Q) as (b & -> & R). apply bind_ret in H. destruct H as (a' & H & K). injection K as <-.
    destruct (P _ _ _ _ R H) as (b' & -> & R'). eexists. split; [reflexivity|]. split; cbn; [now apply set_nth_rel|exact M].
  Qed.
  Lemma g_on_all is cs : Forall (par arel) cs -> par axes_rel (on_all is cs).
  Proof.
    intro C. unfold on_all. apply par_each. rewrite Forall_forall in *. intros f H. apply in_flat_map in H. destruct H as (c & Hc & H).
    apply in_map_iff in H. destruct H as (i & <- & _). apply g_on. auto.
  Qed.
  Lemma pt_app {S} (R : S -> S -> Prop) a b : par_table R a -> par_table R b -> par_table R (a ++ b).
  Proof. apply Forall_app_2 || (intros; apply Forall_app; split; assumption). Qed.
  Lemma g_sides n c : par arel c -> par_table axes_rel (sides n c).
  Proof. intro C. unfold sides. repeat (apply Forall_cons; [cbn [snd]; now apply g_on|]). apply Forall_nil. Qed.
  Lemma g_dims n c : par arel c -> par_table axes_rel (dims n c).
  Proof. intro C. unfold dims. repeat (apply Forall_cons; [cbn [snd]; apply g_on_all; auto|]). apply Forall_nil. Qed.
  Lemma g_every n c : par arel c -> par_table axes_rel (every n c).
  Proof. intro C. unfold every. repeat (apply Forall_cons; [cbn [snd]; apply g_on_all; auto|]). apply Forall_nil. Qed.
  Lemma enable_rel e : forall l l' v, Forall2 arel l l' -> enable_sides e l = Ret v -> exists w, enable_sides e l' = Ret w /\ Forall2 arel v w.
  Proof.
    induction e as [|x e IH]; intros l l' v F H; cbn [enable_sides] in *; [injection H as <-; eauto|].
    destruct (side_index x) as [i|]; [|discriminate]. destruct (nth_error l i) as [a|] eqn:Q; [|discriminate].
    destruct (nth_rel _ _ _ _ F Q) as (b & -> & R). apply (IH _ _ _ (set_nth_rel _ _ i (set_a_enable true a) (set_a_enable true b) F ltac:(arelated)) H).
  Qed.
  Lemma g_position : par axes_rel c_position.
  Proof.
    intros e s t v [F M] H. unfold c_position in *. apply bind_ret in H. destruct H as (l & H & K). injection K as <-.
    destruct (enable_rel e (map (set_a_enable false) (x_axes s)) (map (set_a_enable false) (x_axes t)) l) as (w & -> & R); [|exact H|].
    - clear -F. induction F as [|x y l l' R F IH]; cbn [map]; constructor; auto. arelated.
    - eexists. split; [reflexivity|]. split; assumption.
  Qed.
  Lemma g_margins {S} (R : S -> S -> Prop) get put : (forall s t, R s t -> get s = get t) -> (forall m s t, R s t -> R (put m s) (put m t)) ->
    par_table R (margin_entries W E get put).
  Proof.
    intros G P. unfold margin_entries. cbv zeta.
    assert (O : forall st, par R (upd (rd_size W E) (fun v s => put (st v (get s)) s))).
    { intro st. apply par_upd. intros v s t Rs. rewrite (G _ _ Rs). now apply P. }
    apply Forall_cons; [cbn [snd]; apply par_each; repeat (apply Forall_cons; [apply O|]); apply Forall_nil|].
    repeat (apply Forall_cons; [cbn [snd]; apply O|]). apply Forall_nil.
  Qed.
  Lemma g_axes_table : par_table axes_rel (axes_table W E).
  Proof.
    unfold axes_table. repeat apply pt_app.
    all: try (first [apply g_sides|apply g_dims|apply g_every]; acmd).
    - apply Forall_cons; [exact g_position|apply Forall_nil].
    - apply g_margins; [intros s t [_ M]; exact M|]. intros m s t [F M]. split; [exact F|reflexivity].
    - repeat (apply Forall_cons; [cbn [snd]; apply g_on_all; repeat (apply Forall_cons; [acmd|]); apply Forall_nil|]). apply Forall_nil.
  Qed.

  (** An axis with another range of the data is laid out and drawn alike. *)
  Lemma defaults_rel a b : arel a b -> arel (axis_set_defaults W a) (axis_set_defaults W b).
  Proof.
    intros (x & -> & C). unfold axis_set_defaults. change (a_scale (set_a_scale x a)) with x.
    change (a_lplace (set_a_scale x a)) with (a_lplace a). change (a_tickplace (set_a_scale x a)) with (a_tickplace a). change (a_lformat (set_a_scale x a)) with (a_lformat a).
    rewrite <- (defaults_close (a_scale a) x _ _ (proj1 C)). assert (K : s_kind (a_scale a) = s_kind x).
    { destruct C as [(A & _) _]. unfold Order_Proofs.both_of, Order_Proofs.kind_of in A. congruence. }
    rewrite <- K. destruct (layout_defaults (a_scale a) _ _) as [lab tick]. exists x. split; [reflexivity|exact C].
  Qed.
  Lemma labels_rel a b : arel a b -> axis_layout_labels W E a = axis_layout_labels W E b.
  Proof.
    intros (x & -> & C). unfold axis_layout_labels. change (a_scale (set_a_scale x a)) with x. rewrite (call_close W _ _ _ _ C).
    change (a_lplace (set_a_scale x a)) with (a_lplace a). change (a_lformat (set_a_scale x a)) with (a_lformat a).
    destruct (call_placement W (a_lplace a) x (a_lformat a)) as [l| | | |]; cbn [bind]; try reflexivity. generalize (Fin 0). induction (ticks_of l) as [|[t u] ts IH]; intro m; cbn [label_extent]; [reflexivity|].
    change (a_lfont (set_a_scale x a)) with (a_lfont a). change (a_lsize (set_a_scale x a)) with (a_lsize a).
    destruct (w_measure W (a_lfont a) (a_lsize a) (dpi E) u); cbn [bind]; try reflexivity. apply IH.
  Qed.
  Lemma layout_rel a b : arel a b -> axis_layout W E a = axis_layout W E b.
  Proof. intros R. unfold axis_layout. rewrite (labels_rel a b R). destruct R as (x & -> & C). reflexivity. Qed.
  Lemma draw_axis_rel h a b u v w : arel a b -> draw_axis W E h a u v w = draw_axis W E h b u v w.
  Proof.
    intro R. unfold draw_axis. rewrite (labels_rel a b R). destruct R as (x & -> & C). change (a_scale (set_a_scale x a)) with x. rewrite !(call_close W _ _ _ _ C). reflexivity.
  Qed.
  Lemma aligned_rel p q a b : plot_clip W E p = plot_clip W E q -> arel a b -> draw_aligned W E p a = draw_aligned W E q b.
  Proof.
    intros K R. unfold draw_aligned. rewrite K. assert (A : a_align a = a_align b) by (destruct R as (x & -> & _); reflexivity). rewrite <- A.
    destruct (a_align a); now apply draw_axis_rel.
  Qed.
  Lemma padding_rel a b : arel a b -> axis_padding W E a = axis_padding W E b.
  Proof.
    intro R. unfold axis_padding. assert (A : a_enable a = a_enable b) by (destruct R as (x & -> & _); reflexivity). rewrite <- A.
    destruct (a_enable a); [|reflexivity]. apply layout_rel. now apply defaults_rel.
  Qed.
  Lemma axes_shown p q e p1 v : relp close p q -> plot_axes W E p e = Ret (p1, v) ->
    relp close p1 (mk_plot (p_sx p) (p_sy p) (p_margins p1) (p_stack p1)) /\ exists q1, plot_axes W E q e = Ret (q1, v) /\ relp close p1 q1.
  Proof.
    intros PQ H. unfold plot_axes in *. apply bind_ret in H. destruct H as (c & X & H). apply bind_ret in H. destruct H as (ps & P & H).
    apply bind_ret in H. destruct H as (out & O & H). injection H as <- <-.
    assert (I : axes_rel (axes0 W E p) (axes0 W E q)).
    { split; [|reflexivity]. destruct PQ as (CX & CY & _). unfold axes0. cbn [x_axes].
      repeat (apply Forall2_cons; [eexists; split; [reflexivity|assumption]|]). apply Forall2_nil. }
    destruct (par_run _ _ g_axes_table e _ _ _ I X) as (c' & X' & F & M). rewrite X'. cbn [bind].
    assert (P' : forM (axis_padding W E) (x_axes c') = Ret ps).
    { rewrite <- P. clear -F. induction F as [|a b l l' R F IH]; cbn [forM]; [reflexivity|]. now rewrite (padding_rel a b R), IH. }
    rewrite P'. cbn [bind]. rewrite <- M.
    assert (B : axes_box W E q (x_margins c) ps = axes_box W E p (x_margins c) ps).
    { unfold axes_box. now rewrite (same_clip W E _ _ _ PQ). }
    rewrite B. set (q1 := mk_plot (p_sx q) _ _ _) in *. set (p1 := mk_plot (p_sx p) _ _ _) in *.
    assert (PQ1 : relp close p1 q1).
    { destruct PQ as (CX & CY & MM & S). split; [exact CX|]. split; [exact CY|]. split; [exact MM|]. cbn. now rewrite S. }
    split; [destruct PQ as ((_ & BX) & (_ & BY) & _); repeat split; cbn; apply BX || apply BY|].
    exists q1. split; [|exact PQ1].
    assert (Q : draw_each (fun a => if a_enable a then draw_aligned W E q1 (axis_set_defaults W a) else Ret []) (x_axes c') = Ret out).
    { rewrite <- O. pose proof (same_clip W E _ _ _ PQ1) as K. clear -F K. induction F as [|a b l l' R F IH]; cbn [draw_each]; [reflexivity|].
      rewrite IH. assert (A : a_enable a = a_enable b) by (destruct R as (x & -> & _); reflexivity). rewrite <- A. destruct (a_enable a); [|reflexivity].
      now rewrite (aligned_rel p1 q1 _ _ K (defaults_rel a b R)). }
    rewrite Q. reflexivity.
  Qed.
End Axes.
