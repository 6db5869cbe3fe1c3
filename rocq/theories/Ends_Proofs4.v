(** Legends, backgrounds, elements and whole programs. *)
From Coq Require Import Reals Lra Lia.
From Verif Require Import Base Num Sexpr_Model Dispatch_Model Data_Model Data_Spec Scale_Model
  Units_Model Color_Model Geo_Model Svg_Model Geojson_Model Format_Model Legend_Model Cmd_Model Cmd_Spec Cmd_Proofs Style_Model Plot_Model Plot_Spec Plot_Proofs Plot_Parts
  Axis_Model Eval_Model Eval_Spec Eval_Proofs Safe_Spec Safe_Proofs Safe_Proofs2 Safe_Proofs3 Safe_Props Safe_Props2 Ends_Spec Ends_Proofs Ends_Proofs2 Ends_Proofs3.
Local Open Scope R_scope.

Section Free.
  Variable W : world.
  Variable E : env.
  Hypothesis T : tame W.
  Ltac rdr := first
    [ apply d_float | apply d_size | apply d_font_size | apply d_measure | apply d_string | apply d_enum | apply d_switch | apply d_color | (apply d_font; exact T)
    | apply d_marker | apply d_solid | apply d_fill | apply d_stroke | apply def_ret ].
  Ltac ent := first [apply safe_updf; intros; rdr|apply safe_upd; intro; rdr].
  (** Legends. *)
  Lemma s_item : safe_table (item_table W E).
  Proof. unfold item_table. tbl; ent. Qed.
  Lemma d_position_ l : forall a b p, defined (position_ l a b p).
  Proof.
    induction l as [|e l IH]; intros a b p; cbn [position_]; [apply def_ret|].
    repeat match goal with |- context [if Legend_Model.is_word ?x ?y then _ else _] => destruct (Legend_Model.is_word x y); [apply IH|] end. apply def_err.
  Qed.
  Lemma s_legend : safe_table (legend_table W E).
  Proof.
    assert (D : forall i, safe_cmd (c_side k_padding set_k_padding (fun e (_ : xr) => rd_size W E e) i)) by (intro; unfold c_side; ent).
    assert (D2 : forall i, safe_cmd (c_side k_margins set_k_margins (fun e (_ : xr) => rd_size W E e) i)) by (intro; unfold c_side; ent).
    assert (D3 : forall i, safe_cmd (c_side k_borders set_k_borders border_style_read i)) by (intro; unfold c_side; ent).
    assert (D4 : forall i, safe_cmd (c_side k_borders set_k_borders (fun e s => let* c := rd_color W E e (s_color s) in Ret (ss_with_color c s)) i)).
    { intro i. unfold c_side. apply safe_updf. intros. apply def_bind; [apply d_color|intros; apply def_ret]. }
    assert (D5 : forall i, safe_cmd (c_side k_borders set_k_borders (fun e s => let* w := rd_size W E e in Ret (ss_with_width w s)) i)).
    { intro i. unfold c_side. apply safe_updf. intros. apply def_bind; [apply d_size|intros; apply def_ret]. }
    unfold legend_table. cbv zeta. tbl; try ent; try (first [apply D|apply D2|apply D3|apply D4|apply D5]);
      try (apply safe_each; repeat (apply Forall_cons; [first [apply D|apply D2|apply D3|apply D4|apply D5]|]); apply Forall_nil).
    - apply safe_updf. intros; apply d_position_.
    - intros a s. apply def_bind; [apply run_defined, s_item|intros; apply def_ret].
  Qed.
  Lemma plot_legend_def c clip items : defined (plot_legend (w_d W) c clip items).
  Proof.
    unfold plot_legend. destruct (lg_margins c) as [[[? ?] ?] ?]. unfold legend_layout. destruct (lg_padding c) as [[[? ?] ?] ?].
    destruct (lg_flow c); (apply def_bind; [destruct (_ : xr * xr * list rectangle) as [[? ?] ?]; apply def_ret|intros [[? ?] ?] _; apply def_ret]).
  Qed.
  Lemma legend_def p e : defined (legend_cmd W E p e).
  Proof.
    unfold legend_cmd. apply def_bind; [apply run_defined, s_legend|]. intros c _. unfold legend_draw.
    apply def_bind; [apply def_forM; intros; unfold item_extent; apply def_bind; [apply T|intros; apply def_ret]|]. intros sizes _.
    apply def_bind; [apply plot_legend_def|]. intros [border boxes] _. apply def_bind; [|intros; apply def_ret].
    apply def_draw_each. intros [i b] _. unfold item_draw. apply def_bind; [now apply d_draw_text|]. intros l _.
    apply def_bind; [now apply d_draw_marker|]. intros; apply def_ret.
  Qed.
  Lemma background_def p e : defined (set_background W E p e).
  Proof.
    unfold set_background. apply def_bind; [|intros [st fl] _; apply def_ret]. apply run_defined. unfold background_table. cbv zeta. tbl; try ent.
    apply safe_each. repeat (apply Forall_cons; [ent|]); apply Forall_nil.
  Qed.

  (** The class draw. *)
  Lemma d_style_solid e s : defined (style_read_fill_solid W E e s).
  Proof. unfold style_read_fill_solid. apply def_bind; [apply d_color|intros; apply def_ret]. Qed.
  Lemma d_style_hatch e s : defined (style_read_fill_hatch W E e s).
  Proof.
    unfold style_read_fill_hatch. apply def_bind; [apply run_defined, d_hatch_table, d_size|]. intros [c [[[a o] st] w]] _. apply def_ret.
  Qed.
  Lemma d_style_fill e s : defined (style_read_fill W E e s).
  Proof. unfold style_read_fill. dfn; (apply d_style_hatch || apply d_style_solid). Qed.
  Lemma d_stroke_solid e s : defined (style_read_stroke_solid W E e s).
  Proof. unfold style_read_stroke_solid. apply def_bind; [apply run_defined; tbl; ent|]. intros [c w] _. apply def_ret. Qed.
  Lemma d_stroke_short e s : defined (style_read_stroke_solid_short W E e s).
  Proof.
    unfold style_read_stroke_solid_short. destruct e as [|a [|b [|x e]]]; try apply def_err. apply def_bind; [apply d_size|]. intros.
    apply def_bind; [apply d_color|]. intros; apply def_ret.
  Qed.
  Lemma d_stroke_dash e s : defined (style_read_stroke_dash W E e s).
  Proof.
    unfold style_read_stroke_dash. apply def_bind; [|intros [[[c w] p] o] _; apply def_ret]. apply run_defined. tbl; try ent.
    apply safe_upd. intro. apply def_ended, d_tov, d_size.
  Qed.
  Lemma d_style_stroke e s : defined (style_read_stroke W E e s).
  Proof. unfold style_read_stroke. dfn; first [apply d_stroke_solid|apply d_stroke_dash|apply d_stroke_short]. Qed.
  Lemma s_style {S} get (put : compound -> S -> S) : safe_table (style_entries W E get put).
  Proof. unfold style_entries. tbl; apply safe_updf; intros; [apply d_style_solid|apply d_style_fill|apply d_style_stroke]. Qed.
  Lemma d_rd_position u1 u2 e v : defined (rd_position W u1 u2 e v).
  Proof.
    unfold rd_position. apply def_bind; [|intros [x y] _; apply def_ret]. apply def_ended. unfold expr_to_vec2.
    destruct e as [|a [|b [|x e]]]; try apply def_err. destruct (expr_to_number _ _ _ _ _ [a; b]); cbn [snd]; try apply def_err.
    destruct (expr_to_number _ _ _ _ _ [b]); cbn [snd]; first [apply def_err|apply def_ret].
  Qed.
  Lemma rectangle_def e : defined (eval_rectangle W E e).
  Proof.
    unfold eval_rectangle. apply def_bind; [|intros [[p s] st] _; apply def_ret]. apply run_defined. apply safe_app; [|apply s_style].
    tbl; apply safe_updf; intros; apply d_rd_position.
  Qed.
  Lemma text_def e : defined (Style_Model.eval_text W E e).
  Proof.
    unfold Style_Model.eval_text. apply def_bind; [|intros o _; apply def_bind; [apply T|intros; apply def_ret]]. apply run_defined. apply safe_app; [|apply s_style].
    tbl; try ent. apply safe_updf; intros; apply d_rd_position.
  Qed.
  Lemma draw_eval_def e : defined (draw_eval W E e).
  Proof. unfold draw_eval. apply run_defined. tbl; intros a s; unfold draws; apply def_bind; [apply text_def| |apply rectangle_def|]; intros; apply def_ret. Qed.
End Free.

Section Programs.
  Variable W : world.
  Variable E : env.
  Hypothesis T : tame W.
  Hypothesis CW : counts W.
  Variable cat : Prop.
  Hypothesis dec_cat : cat \/ ~ cat.
  Notation okl := (okl W cat).
  Notation fine := (fine cat).
  Notation plot_fine := (plot_fine cat).
  Notation keep_cmd := (keep_if (Ends_Proofs.okl W cat)).
  Notation keep_table := (keep_table W cat).
  Definition drawn_fine (s : plot * list draw_command) : Prop := plot_fine (fst s).
  Lemma shows_keep f : (forall p e, okl e -> plot_fine p -> defined (f p e)) -> keep_cmd drawn_fine (shows f).
  Proof.
    intros D a s O F. unfold shows. split; [apply def_bind; [now apply D|intros; apply def_ret]|]. intros s' Q. apply bind_ret in Q.
    destruct Q as (l & _ & Q). injection Q as <-. exact F.
  Qed.
  Lemma moves_keep f : (forall p e, okl e -> plot_fine p -> defined (f p e) /\ forall p' l, f p e = Ret (p', l) -> plot_fine p') ->
    keep_cmd drawn_fine (shows_and_moves f).
  Proof.
    intros D a s O F. unfold shows_and_moves. destruct (D (fst s) a O F) as [D1 D2]. split; [apply def_bind; [exact D1|intros [p l] _; apply def_ret]|].
    intros s' Q. apply bind_ret in Q. destruct Q as ([p l] & Q1 & Q). injection Q as <-. exact (D2 _ _ Q1).
  Qed.
  Lemma polygons_keep p e : ~ cat -> okl e -> plot_fine p ->
    defined (polygons_draw W E p e) /\ forall p' l, polygons_draw W E p e = Ret (p', l) -> plot_fine p'.
  Proof.
    intros NC O [FX FY]. split.
    - apply polys_safe; auto; [eapply ok_maps; eauto|..]; intros s Q K.
      + apply (options_keep_ W cat fine) in Q; auto; [|apply firstn_keep, scale_options_keep; auto]. apply NC. exact (proj1 (proj1 (proj2 Q) K)).
      + apply (options_keep_ W cat fine) in Q; auto; [|apply firstn_keep, scale_options_keep; auto]. apply NC. exact (proj1 (proj1 (proj2 Q) K)).
    - intros p' l Q. unfold polygons_draw, polys_configure in Q. apply bind_ret in Q. destruct Q as ([c p1] & Q1 & Q). apply bind_ret in Q. destruct Q as (ps & _ & Q).
      injection Q as <- _. apply bind_ret in Q1. destruct Q1 as (c0 & _ & Q1). injection Q1 as _ <-. split; cbn [p_sx p_sy]; now apply fit_same.
  Qed.
  Lemma draw_keep : keep_table drawn_fine (draw_table W E).
  Proof.
    assert (MR := ok_maps W cat). assert (GR := ok_gradients W E cat). assert (SC := scales_ok W cat).
    unfold draw_table. apply keep_app; [apply margins_keep; intros m s F; exact F|].
    apply keep_cons; [apply moves_keep; intros; now apply plot_axes_def|].
    apply keep_cons; [apply shows_keep; intros; eapply plot_axis_def; eauto|].
    apply keep_cons; [apply shows_keep; intros; eapply plot_grid_def; eauto|].
    apply keep_cons; [apply shows_keep; intros; now apply background_def|].
    apply keep_cons; [apply shows_keep; intros; now apply legend_def|].
    apply keep_cons; [apply shows_keep; intros; apply C113_areas; auto|].
    apply keep_cons; [apply shows_keep; intros; apply C113_bars; auto; eapply ok_labels; eauto|].
    apply keep_cons; [apply shows_keep; intros; apply C113_errorbars; auto|].
    apply keep_cons; [apply shows_keep; intros; apply C113_labels; auto; eapply ok_labels; eauto|].
    apply keep_cons; [apply shows_keep; intros; apply C113_lines; auto; eapply ok_labels; eauto|].
    apply keep_cons; [apply shows_keep; intros; apply C113_points; auto; eapply ok_labels; eauto|].
    destruct dec_cat as [C|C].
    - apply keep_ban; [right; now split|].
      apply keep_cons; [apply shows_keep; intros; apply C113_rectangles; auto|].
      apply keep_ban; [left; cbn; auto 6|apply keep_nil].
    - apply keep_cons; [apply moves_keep; intros; now apply polygons_keep|].
      apply keep_cons; [apply shows_keep; intros; apply C113_rectangles; auto|].
      apply keep_ban; [left; cbn; auto 6|apply keep_nil].
  Qed.
  Lemma plot_eval_def e : okl e -> defined (plot_eval W E e).
  Proof.
    intro O. unfold plot_eval, plot_prepare, plot_draw.
    destruct (collect_keep W cat plot_fine (prepare_table W E) e plot0) as [D1 D2]; [apply prepare_keep; auto|exact O|split; apply fine0|].
    apply def_bind; [apply def_bind; [exact D1|intros [p r] _; apply def_ret]|]. intros p Q. apply bind_ret in Q. destruct Q as ([p1 r] & Q & Q0). injection Q0 as <-.
    destruct (collect_keep W cat drawn_fine (draw_table W E) e (p1, [])) as [D3 _]; [apply draw_keep|exact O|exact (D2 _ _ Q)|].
    apply def_bind; [apply def_bind; [exact D3|intros [p r'] _; apply def_ret]|]. intros; apply def_ret.
  Qed.
End Programs.
