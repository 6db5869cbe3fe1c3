(** Options about different things can be exchanged: the tables of the elements. *)
From Coq Require Import Reals Permutation.
From Verif Require Import Base Num Sexpr_Model Dispatch_Model Data_Model Scale_Model Svg_Model Cmd_Model Cmd_Spec Cmd_Proofs
  Style_Model Plot_Model Order_Spec Order_Proofs.
Local Open Scope string_scope.
Local Open Scope list_scope.

Lemma own_run {S} (V : list (view S)) A tbl : Forall (fun e => own V A (snd e)) tbl -> own V A (run tbl).
Proof.
  intro F. rewrite Forall_forall in F.
  assert (G : forall k f, assoc k tbl = Some f -> own V A f) by (intros k f H; apply assoc_In in H; exact (F _ H)).
  split.
  - induction a as [|x l IH]; intros s v H.
    + injection H as <-. apply same_if_spec. auto.
    + rewrite run_cons in H. destruct (option_of x) as [[k a]|]; [|discriminate]. destruct (assoc k tbl) as [f|] eqn:Ef; [|discriminate].
      apply bind_ret in H. destruct H as (s1 & H1 & H). pose proof (proj1 (same_if_spec _ _ _ _) (own_off _ _ _ (G _ _ Ef) _ _ _ H1)) as E1.
      pose proof (proj1 (same_if_spec _ _ _ _) (IH _ _ H)) as E2. apply same_if_spec. intros y I P. rewrite (E1 y I P). auto.
  - induction a as [|x l IH]; intros s t v Sm H.
    + injection H as <-. exists t. auto.
    + rewrite run_cons in H. destruct (option_of x) as [[k a]|] eqn:O; [|discriminate]. destruct (assoc k tbl) as [f|] eqn:Ef; [|discriminate].
      apply bind_ret in H. destruct H as (s1 & H1 & H). destruct (own_on _ _ _ (G _ _ Ef) _ _ _ _ Sm H1) as [t1 [T1 K1]].
      destruct (IH _ _ _ K1 H) as [w [Hw K]]. exists w. split; [|exact K]. rewrite run_cons, O, Ef, T1. exact Hw.
Qed.

(** Computing which of the things are concerned. *)
Ltac eqs := repeat match goal with H : _ /\ _ |- _ => let A := fresh in let B := fresh in destruct H as [A B] | H : True |- _ => clear H end.
Definition line_of (s : stroke_style) := (s_width s, dash_of s).
Definition stroke_views : list (view stroke_style) := [mk_view "line" line_of; mk_view "colour" s_color].
Ltac flags := cbv [same_if on off mem negb v_name v_get String.eqb Ascii.eqb Bool.eqb String.append stroke_views].
Ltac flags_in H := cbv [same_if on off mem negb v_name v_get String.eqb Ascii.eqb Bool.eqb String.append stroke_views] in H.
Section Strokes.
  Variable W : world.
  Variable E : env.
  Lemma dash_run : own stroke_views ["line"]
    (run [(s_ "pattern", upd (fun e => ended (expr_tov (rd_measuren W E) e [])) ss_with_pattern);
          (s_ "offset", upd (rd_measuren W E) ss_with_offset)]).
  Proof.
    apply own_run. apply Forall_cons; [|apply Forall_cons; [|apply Forall_nil]]; cbn [snd]; apply own_upd; flags; intros; eqs;
      repeat split; unfold line_of, dash_of in *; cbn; congruence.
  Qed.
  Lemma dash_own : own stroke_views ["line"] (stroke_style_read_dash W E).
  Proof.
    split.
    - intros a s v H. unfold stroke_style_read_dash in H. apply (own_off stroke_views ["line"]) in H.
      + flags. flags_in H. exact H.
      + exact dash_run.
    - intros a s t v Sm H. unfold stroke_style_read_dash in *.
      eapply (own_on stroke_views ["line"]) in H; [exact H| |].
      + exact dash_run.
      + flags. flags_in Sm. destruct Sm as [Sm _]. unfold line_of, dash_of in *. cbn. repeat split. congruence.
  Qed.
  Lemma stroke_own : own stroke_views ["line"] (stroke_style_read W E).
  Proof.
    split.
    - intros a s v. unfold stroke_style_read.
      repeat match goal with
             | |- context [if ?c then _ else _] => destruct c
             | |- context [match ?c with Some _ => _ | None => _ end] => destruct c
             end; intro H; try discriminate; try (apply dash_own in H; exact H); injection H as <-; flags; cbn; repeat split.
    - intros a s t v Sm. unfold stroke_style_read.
      repeat match goal with
             | |- context [if ?c then _ else _] => destruct c
             | |- context [match ?c with Some _ => _ | None => _ end] => destruct c
             end; intro H; try discriminate; try (apply (own_on _ _ _ dash_own _ _ _ _ Sm H)); injection H as <-;
        (eexists; split; [reflexivity|]); flags; flags_in Sm; destruct Sm as [Sm _]; unfold line_of, dash_of in *; cbn; repeat split; congruence.
  Qed.
  Lemma stroke_off a s v : stroke_style_read W E a s = Ret v -> s_color s = s_color v.
  Proof. intro H. apply stroke_own in H. flags_in H. tauto. Qed.
  Lemma stroke_on a s t v : s_width s = s_width t -> dash_of s = dash_of t -> stroke_style_read W E a s = Ret v ->
    exists w, stroke_style_read W E a t = Ret w /\ s_width v = s_width w /\ dash_of v = dash_of w.
  Proof.
    intros H1 H2 H. destruct (own_on _ _ _ stroke_own a s t v) as [w [Hw K]].
    - flags. unfold line_of. repeat split. congruence.
    - exact H.
    - exists w. split; [exact Hw|]. flags_in K. destruct K as [K _]. unfold line_of in K. split; congruence.
  Qed.
End Strokes.

(** ---- views ---- *)
Definition scale_views {S} (x : string) (g : S -> scale) : list (view S) :=
  [mk_view (x ++ " minimum") (fun s => s_min (g s)); mk_view (x ++ " maximum") (fun s => s_max (g s));
   mk_view (x ++ " kind") (fun s => kind_of (g s)); mk_view (x ++ " padding") (fun s => s_padding (g s));
   mk_view (x ++ " hints") (fun s => hints_of (g s))].
Definition source_views {S} (g : S -> src) : list (view S) :=
  [mk_view "source" (fun s => d_ref (g s)); mk_view "source format" (fun s => d_fmt (g s));
   mk_view "x data" (fun s => d_x (g s)); mk_view "y data" (fun s => d_y (g s))].
Definition label_views {S} (g : S -> lbl) : list (view S) :=
  [mk_view "labels" (fun s => lb_text (g s)); mk_view "label size" (fun s => lb_size (g s));
   mk_view "label colour" (fun s => lb_color (g s)); mk_view "label padding" (fun s => lb_pad (g s));
   mk_view "label font" (fun s => lb_font (g s))].
Definition mark_views {S} (g : S -> marks) : list (view S) :=
  [mk_view "colour" (fun s => m_color (g s)); mk_view "colours" (fun s => m_colors (g s)); mk_view "colour map" (fun s => m_cmap (g s));
   mk_view "size" (fun s => m_size (g s)); mk_view "sizes" (fun s => m_sizes (g s)); mk_view "size map" (fun s => m_smap (g s))].
Definition line_views {S} (x : string) (g : S -> stroke_style) : list (view S) :=
  [mk_view (x ++ " colour") (fun s => s_color (g s)); mk_view (x ++ " width") (fun s => s_width (g s));
   mk_view (x ++ " dash") (fun s => dash_of (g s))].

Definition lines_views : list (view lines_cfg) :=
  source_views l_src ++ scale_views "x" l_sx ++ scale_views "y" l_sy ++ line_views "line" l_stroke ++ label_views l_lbl ++
  [mk_view "marker size" l_msize; mk_view "marker shape" l_marker; mk_view "marker colour" l_mcolor].

Definition points_views : list (view points_cfg) :=
  source_views p_src ++ scale_views "x" p_sx_ ++ scale_views "y" p_sy_ ++ mark_views p_marks ++ label_views p_lbl ++
  [mk_view "shape" p_shape; mk_view "shapes" p_shapes].
Definition bars_views : list (view bars_cfg) :=
  scale_views "x" b_sx ++ scale_views "y" b_sy ++ line_views "line" b_stroke ++ label_views b_lbl ++
  [mk_view "x data" b_x; mk_view "y data" b_y; mk_view "x low data" b_xlow; mk_view "y low data" b_ylow; mk_view "width" b_size;
   mk_view "widths" b_sizes; mk_view "offset" b_offset; mk_view "offsets" b_offsets; mk_view "fill" b_fill; mk_view "direction" b_horiz].
Definition areas_views : list (view areas_cfg) :=
  source_views a_src ++ scale_views "x" a_sx ++ scale_views "y" a_sy ++ line_views "high" a_high ++ line_views "low" a_low ++
  [mk_view "x high data" a_x; mk_view "y high data" a_y; mk_view "x low data" a_xlow; mk_view "y low data" a_ylow;
   mk_view "fill" a_fill; mk_view "direction" a_horiz].
Definition err_views : list (view err_cfg) :=
  scale_views "x" e_sx ++ scale_views "y" e_sy ++ mark_views e_marks ++
  [mk_view "x data" e_x; mk_view "y data" e_y; mk_view "x low data" e_xlow; mk_view "y low data" e_ylow;
   mk_view "x high data" e_xhigh; mk_view "y high data" e_yhigh; mk_view "width" e_barw; mk_view "line width" e_strokew].
Definition labels_views : list (view labels_cfg) :=
  source_views t_src ++ scale_views "x" t_sx ++ scale_views "y" t_sy ++ label_views t_lbl.
Definition vectors_views : list (view vectors_cfg) :=
  source_views v_src ++ scale_views "x" v_sx ++ scale_views "y" v_sy ++ mark_views v_marks ++
  [mk_view "dx data" v_dx; mk_view "dy data" v_dy].
Definition rects_views : list (view rects_cfg) :=
  source_views r_src ++ scale_views "x" r_sx ++ scale_views "y" r_sy ++ mark_views r_marks ++
  [mk_view "x size data" r_szx; mk_view "y size data" r_szy; mk_view "x size" r_defx; mk_view "y size" r_defy].
Definition polys_views : list (view polys_cfg) :=
  scale_views "x" g_sx ++ scale_views "y" g_sy ++ line_views "line" g_stroke ++ [mk_view "data" g_polys; mk_view "fill" g_fill].

Ltac views := cbv [lines_views points_views bars_views areas_views err_views labels_views vectors_views rects_views polys_views source_views scale_views line_views label_views mark_views app].
Ltac views_in H := cbv [lines_views points_views bars_views areas_views err_views labels_views vectors_views rects_views polys_views source_views scale_views line_views label_views mark_views app] in H.


(** The kinds of entries. *)
Section Entries.
  Context {S : Type} (V : list (view S)) (A : list string).
  Variable W : world.
  Variable E : env.
  Notation on_ := (same_if (on A) V).
  Notation off_ := (same_if (off A) V).
  Lemma own_whole {T} (get : S -> T) rd put :
    (forall v s, off_ s (put v s)) -> (forall s t, on_ s t -> get s = get t) ->
    (forall v s t, on_ s t -> on_ (put v s) (put v t)) -> own V A (updf get rd put).
  Proof.
    intros F G L. apply own_updf; [intros; apply F|]. intros a v s t Sm H. exists v. split; [|auto]. now rewrite <- (G _ _ Sm).
  Qed.
  Lemma own_part {T U} (get : S -> T) (rd : list expr -> outcome U) h put :
    (forall v s, off_ s (put (h v (get s)) s)) ->
    (forall v s t, on_ s t -> on_ (put (h v (get s)) s) (put (h v (get t)) t)) ->
    own V A (updf get (fun e s => let* v := rd e in Ret (h v s)) put).
  Proof.
    intros F L. apply own_updf.
    - intros a v s H. apply bind_ret in H. destruct H as (x & _ & H). injection H as <-. apply F.
    - intros a v s t Sm H. apply bind_ret in H. destruct H as (x & R & H). injection H as <-. rewrite R.
      eexists. split; [reflexivity|]. auto.
  Qed.
  Lemma own_limits (get : S -> scale) put :
    (forall lo hi s, off_ s (put (with_max hi (with_min lo (get s))) s)) ->
    (forall lo hi s t, on_ s t -> on_ (put (with_max hi (with_min lo (get s))) s) (put (with_max hi (with_min lo (get t))) t)) ->
    own V A (updf get (rd_limits W) put).
  Proof.
    intros F L. apply own_updf.
    - intros a v s H. destruct (rd_limits_is W a) as [o R]. rewrite R in H. destruct o as [[lo hi]| | | |]; cbn [bind] in H; try discriminate.
      injection H as <-. apply F.
    - intros a v s t Sm H. destruct (rd_limits_is W a) as [o R]. rewrite R in H |- *. destruct o as [[lo hi]| | | |]; cbn [bind] in H; try discriminate.
      injection H as <-. eexists. split; [reflexivity|]. auto.
  Qed.
  Lemma own_kind (get : S -> scale) put :
    (forall v s, s_min (get s) = s_min v -> s_max (get s) = s_max v -> hints_of (get s) = hints_of v -> off_ s (put v s)) ->
    (forall s t, on_ s t -> both_of (get s) = both_of (get t)) ->
    (forall v w s t, on_ s t -> kind_of v = kind_of w -> s_padding v = s_padding w -> on_ (put v s) (put w t)) ->
    own V A (updf get (rd_kind W) put).
  Proof.
    intros F G L. apply own_updf.
    - intros a v s H. apply rd_kind_off in H. unfold rest_of in H. injection H as H1 H2 H3. apply F; auto. unfold hints_of. congruence.
    - intros a v s t Sm H. destruct (rd_kind_on W a _ (get t) v (G _ _ Sm) H) as [w [Hw K]]. exists w. split; [exact Hw|].
      assert (K1 : kind_of v = kind_of w) by exact (f_equal fst K).
      assert (K2 : s_padding v = s_padding w) by exact (f_equal snd K). auto.
  Qed.
  Lemma own_stroke (get : S -> stroke_style) put :
    (forall v s, s_color (get s) = s_color v -> off_ s (put v s)) ->
    (forall s t, on_ s t -> s_width (get s) = s_width (get t)) -> (forall s t, on_ s t -> dash_of (get s) = dash_of (get t)) ->
    (forall v w s t, on_ s t -> s_width v = s_width w -> dash_of v = dash_of w -> on_ (put v s) (put w t)) ->
    own V A (updf get (stroke_style_read W E) put).
  Proof.
    intros F G1 G2 L. apply own_updf.
    - intros a v s H. apply F. eapply stroke_off; eauto.
    - intros a v s t Sm H. destruct (stroke_on W E a _ (get t) v (G1 _ _ Sm) (G2 _ _ Sm) H) as [w [Hw [K1 K2]]]. eauto.
  Qed.
End Entries.

Ltac clean := views; flags; cbn -[kind_of hints_of dash_of both_of].
Ltac sameness := let H := fresh "Sm" in intro H; views_in H; flags_in H; eqs.
Ltac finish_ := cbn -[kind_of hints_of dash_of both_of] in *; repeat split; first [reflexivity | assumption | congruence
  | unfold both_of; congruence | unfold kind_of, hints_of, dash_of in *; cbn in *; congruence].
Ltac goal1 := intros; repeat match goal with H : same_if _ _ _ _ |- _ => views_in H; flags_in H; eqs end; views; flags; finish_.
Ltac entry :=
  match goal with
  | |- own _ _ (upd _ _) => apply own_upd; goal1
  | |- own _ _ (call_each _) => apply own_call; repeat (apply Forall_cons; [entry|]); apply Forall_nil
  | |- own _ _ (updf _ (rd_kind _) _) => apply own_kind; goal1
  | |- own _ _ (updf _ (rd_limits _) _) => apply own_limits; goal1
  | |- own _ _ (updf _ (stroke_style_read _ _) _) => apply own_stroke; goal1
  | |- own _ _ (updf _ (fun _ _ => bind _ _) _) => apply own_part; goal1
  | |- own _ _ (updf _ _ _) => apply own_whole; goal1
  end.
Ltac untuple := repeat match goal with H : (_, _) = (_, _) |- _ => injection H; clear H; intros end.
Ltac table :=
  apply owned_all; cbn [app firstn];
  repeat match goal with
  | |- Forall _ (_ :: _) => apply Forall_cons
  | |- Forall _ [] => apply Forall_nil
  end;
  unfold entry_ok; match goal with |- match topics_of ?T (fst (?k, ?f)) with Some A => own ?V A _ | None => _ end =>
    let r := eval vm_compute in (topics_of T k) in change (match r with Some A => own V A f | None => False end); cbn iota beta; entry end.
Ltac everything :=
  intros s t H; views_in H; flags_in H; eqs.

Section Tables.
  Variable W : world.
  Variable E : env.
  Lemma lines_owned : owned lines_views about_lines (lines_table W E).
  Proof. unfold lines_table, src_entries, scale_entries, label_entries. table. Qed.
  Lemma lines_whole : whole lines_views.
  Proof.
    everything. destruct s as [[] [] [] [] ? ? ? []], t as [[] [] [] [] ? ? ? []].
    unfold kind_of, hints_of, dash_of in *. cbn in *. untuple. subst. reflexivity.
  Qed.
  Lemma points_owned : owned points_views about_points (points_table W E).
  Proof. unfold points_table, src_entries, scale_entries, label_entries, font_entries, color_entries, size_entries. cbv zeta beta. table. Qed.
  Lemma points_whole : whole points_views.
  Proof.
    everything. destruct s as [[] [] [] [] ? ? []], t as [[] [] [] [] ? ? []].
    unfold kind_of, hints_of, dash_of in *. cbn in *. untuple. subst. reflexivity.
  Qed.
  Lemma bars_owned : owned bars_views about_bars (bars_table W E).
  Proof. unfold bars_table, src_entries, scale_entries, label_entries, font_entries, color_entries, size_entries. cbv zeta beta. table. Qed.
  Lemma bars_whole : whole bars_views.
  Proof.
    everything. destruct s as [? ? ? ? [] [] [] ? ? ? ? ? ? []], t as [? ? ? ? [] [] [] ? ? ? ? ? ? []].
    unfold kind_of, hints_of, dash_of in *. cbn in *. untuple. subst. reflexivity.
  Qed.
  Lemma areas_owned : owned areas_views about_areas (areas_table W E).
  Proof. unfold areas_table, src_entries, scale_entries, label_entries, font_entries, color_entries, size_entries. cbv zeta beta. table. Qed.
  Lemma areas_whole : whole areas_views.
  Proof.
    everything. destruct s as [[] ? ? ? ? [] [] [] [] ? ?], t as [[] ? ? ? ? [] [] [] [] ? ?].
    unfold kind_of, hints_of, dash_of in *. cbn in *. untuple. subst. reflexivity.
  Qed.
  Lemma err_owned : owned err_views about_errorbars (err_table W E).
  Proof. unfold err_table, src_entries, scale_entries, label_entries, font_entries, color_entries, size_entries. cbv zeta beta. table. Qed.
  Lemma err_whole : whole err_views.
  Proof.
    everything. destruct s as [? ? ? ? ? ? [] [] ? ? []], t as [? ? ? ? ? ? [] [] ? ? []].
    unfold kind_of, hints_of, dash_of in *. cbn in *. untuple. subst. reflexivity.
  Qed.
  Lemma labels_owned : owned labels_views about_labels_ (labels_table W E).
  Proof. unfold labels_table, src_entries, scale_entries, label_entries, font_entries, color_entries, size_entries. cbv zeta beta. table. Qed.
  Lemma labels_whole : whole labels_views.
  Proof.
    everything. destruct s as [[] [] [] []], t as [[] [] [] []].
    unfold kind_of, hints_of, dash_of in *. cbn in *. untuple. subst. reflexivity.
  Qed.
  Lemma vectors_owned : owned vectors_views about_vectors (vectors_table W E).
  Proof. unfold vectors_table, src_entries, scale_entries, label_entries, font_entries, color_entries, size_entries. cbv zeta beta. table. Qed.
  Lemma vectors_whole : whole vectors_views.
  Proof.
    everything. destruct s as [[] ? ? [] [] []], t as [[] ? ? [] [] []].
    unfold kind_of, hints_of, dash_of in *. cbn in *. untuple. subst. reflexivity.
  Qed.
  Lemma rects_owned : owned rects_views about_rectangles (rects_table W E).
  Proof. unfold rects_table, src_entries, scale_entries, label_entries, font_entries, color_entries, size_entries. cbv zeta beta. table. Qed.
  Lemma rects_whole : whole rects_views.
  Proof.
    everything. destruct s as [[] ? ? ? ? [] [] []], t as [[] ? ? ? ? [] [] []].
    unfold kind_of, hints_of, dash_of in *. cbn in *. untuple. subst. reflexivity.
  Qed.
  Lemma polys_owned : owned polys_views about_polygons (polys_table W E).
  Proof. unfold polys_table, src_entries, scale_entries, label_entries, font_entries, color_entries, size_entries. cbv zeta beta. table. Qed.
  Lemma polys_whole : whole polys_views.
  Proof.
    everything. destruct s as [? [] [] ? []], t as [? [] [] ? []].
    unfold kind_of, hints_of, dash_of in *. cbn in *. untuple. subst. reflexivity.
  Qed.
End Tables.
