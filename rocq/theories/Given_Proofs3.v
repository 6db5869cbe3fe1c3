(** Commands of a plot with given limits do not influence each other: what the elements draw. *)
From Coq Require Import Reals.
From Verif Require Import Base Num Sexpr_Model Dispatch_Model Data_Model Scale_Model Svg_Model Cmd_Model Cmd_Spec Cmd_Proofs
  Style_Model Geo_Model Plot_Model Axis_Model Eval_Model Given_Proofs Given_Proofs2.
Local Open Scope list_scope.

Section Draws.
  Variable W : world.
  Variable E : env.
  Notation d := (w_d W).
  Definition kept_shown (f : plot -> list expr -> outcome (list draw_command)) : Prop :=
    forall p q e v, relp close p q -> f p e = Ret v -> f q e = Ret v.
  Lemma same_clip (C : scale -> scale -> Prop) p q : relp C p q -> plot_clip W E p = plot_clip W E q.
  Proof. intros (_ & _ & M & S). unfold plot_clip. now rewrite M, S. Qed.
  Ltac configured R H :=
    let c := fresh "c" in let X := fresh "X" in apply bind_ret in H; destruct H as (c & X & H).

  Lemma lines_shown : kept_shown (lines_draw W E).
  Proof.
    intros p q e v PQ H. unfold lines_draw in *. apply bind_ret in H. destruct H as ([[c b] g] & X & H).
    destruct (lines_conf W E close (kept_close W) p q PQ e c b g X) as (c' & X' & x & y & -> & CX & CY). rewrite X'. cbn [bind].
    rewrite (same_clip _ _ _ PQ) in H. rewrite (to_unit_close W _ _ _ CX), (to_unit_close W _ _ _ CY) in H. exact H.
  Qed.
  Lemma points_shown : kept_shown (points_draw W E).
  Proof.
    intros p q e v PQ H. unfold points_draw in *. apply bind_ret in H. destruct H as ([[[c b] cs] zs] & X & H).
    destruct (points_conf W E close (kept_close W) p q PQ e c b cs zs X) as (c' & X' & x & y & -> & CX & CY). rewrite X'. cbn [bind].
    rewrite (same_clip _ _ _ PQ) in H. rewrite (to_unit_close W _ _ _ CX), (to_unit_close W _ _ _ CY) in H. exact H.
  Qed.
  Lemma bars_shown : kept_shown (bars_draw W E).
  Proof.
    intros p q e v PQ H. unfold bars_draw in *. apply bind_ret in H. destruct H as (c & X & H).
    destruct (bars_conf W E close (kept_close W) p q PQ e c X) as (c' & X' & x & y & -> & CX & CY). rewrite X'. cbn [bind].
    rewrite (same_clip _ _ _ PQ) in H. change (b_horiz (set_b_sx x (set_b_sy y c))) with (b_horiz c). destruct (b_horiz c).
    - rewrite !(to_unit_close W _ _ _ CX), (to_unit_close W _ _ _ CY), (translate_close W _ _ CX) in H. exact H.
    - rewrite (to_unit_close W _ _ _ CX), !(to_unit_close W _ _ _ CY), (translate_close W _ _ CY) in H. exact H.
  Qed.
  Lemma areas_shown : kept_shown (areas_draw W E).
  Proof.
    intros p q e v PQ H. unfold areas_draw in *. apply bind_ret in H. destruct H as (c & X & H).
    destruct (areas_conf W E close (kept_close W) p q PQ e c X) as (c' & X' & x & y & -> & CX & CY). rewrite X'. cbn [bind].
    rewrite (same_clip _ _ _ PQ) in H. change (a_horiz (set_a_sx x (set_a_sy y c))) with (a_horiz c). destruct (a_horiz c).
    - rewrite !(to_unit_close W _ _ _ CX), !(to_unit_close W _ _ _ CY), (translate_close W _ _ CX) in H. exact H.
    - rewrite !(to_unit_close W _ _ _ CX), !(to_unit_close W _ _ _ CY), (translate_close W _ _ CY) in H. exact H.
  Qed.
  Lemma errorbars_shown : kept_shown (errorbars_draw W E).
  Proof.
    intros p q e v PQ H. unfold errorbars_draw in *. apply bind_ret in H. destruct H as ([c cs] & X & H).
    destruct (err_conf W E close (kept_close W) p q PQ e c cs X) as (c' & X' & x & y & -> & CX & CY). rewrite X'. cbn [bind].
    rewrite (same_clip _ _ _ PQ) in H. rewrite !(to_unit_close W _ _ _ CX), !(to_unit_close W _ _ _ CY) in H. exact H.
  Qed.
  Lemma labels_shown : kept_shown (labels_draw W E).
  Proof.
    intros p q e v PQ H. unfold labels_draw in *. apply bind_ret in H. destruct H as ([c b] & X & H).
    destruct (labels_conf W E close (kept_close W) p q PQ e c b X) as (c' & X' & x & y & -> & CX & CY). rewrite X'. cbn [bind].
    rewrite (same_clip _ _ _ PQ) in H. rewrite (to_unit_close W _ _ _ CX), (to_unit_close W _ _ _ CY) in H. exact H.
  Qed.
  Lemma vectors_shown : kept_shown (vectors_draw W E).
  Proof.
    intros p q e v PQ H. unfold vectors_draw in *. apply bind_ret in H. destruct H as ([[[c b] cs] zs] & X & H).
    destruct (vectors_conf W E close (kept_close W) p q PQ e c b cs zs X) as (c' & X' & x & y & -> & CX & CY). rewrite X'. cbn [bind].
    rewrite (same_clip _ _ _ PQ) in H. rewrite (to_unit_close W _ _ _ CX), (to_unit_close W _ _ _ CY), (magnitudes_close W _ _ _ CX), (magnitudes_close W _ _ _ CY) in H. exact H.
  Qed.
  Lemma rectangles_shown : kept_shown (rectangles_draw W E).
  Proof.
    intros p q e v PQ H. unfold rectangles_draw in *. apply bind_ret in H. destruct H as ([[c b] cs] & X & H).
    destruct (rects_conf W E close (kept_close W) p q PQ e c b cs X) as (c' & X' & x & y & -> & CX & CY). rewrite X'. cbn [bind].
    rewrite (same_clip _ _ _ PQ) in H. rewrite (to_unit_close W _ _ _ CX), (to_unit_close W _ _ _ CY), (magnitudes_close W _ _ _ CX), (magnitudes_close W _ _ _ CY) in H. exact H.
  Qed.
  Lemma grid_shown : kept_shown (plot_grid W E).
  Proof.
    intros p q e v PQ H. unfold plot_grid in *. apply bind_ret in H. destruct H as (c & X & H).
    destruct (opened_run close p q PQ e _ _ _ _ _ _ _ (grid_par W E close (kept_close W)) X eq_refl eq_refl) as (x & y & X' & CX & CY).
    match type of X' with _ = ?r => change (run (grid_table W E) e (grid0 W E q) = r) in X' end. rewrite X'. cbn [bind].
    unfold grid_default in *.
    change (gr_sx (set_gr_sx x (set_gr_sy y c))) with x. change (gr_sy (set_gr_sx x (set_gr_sy y c))) with y.
    change (gr_lx (set_gr_sx x (set_gr_sy y c))) with (gr_lx c). change (gr_ly (set_gr_sx x (set_gr_sy y c))) with (gr_ly c).
    rewrite (same_clip _ _ _ PQ), !(call_close W _ _ _ _ CX), !(call_close W _ _ _ _ CY), (defaults_close _ _ _ _ (proj1 CX)), (defaults_close _ _ _ _ (proj1 CY)) in H.
    exact H.
  Qed.

  (** Polygons fit the plot's own scales. *)
  Definition kept_moved (f : plot -> list expr -> outcome (plot * list draw_command)) : Prop :=
    forall p q e p1 v, relp close p q -> f p e = Ret (p1, v) ->
    relp close p1 p1 /\ (exists q1, f q e = Ret (q1, v) /\ relp close p1 q1).
  Lemma polygons_shown p q e p1 v : relp close p q -> polygons_draw W E p e = Ret (p1, v) ->
    relp close p p1 /\ exists q1, polygons_draw W E q e = Ret (q1, v) /\ relp close p1 q1.
  Proof.
    intros PQ H. unfold polygons_draw in *. apply bind_ret in H. destruct H as ([c p2] & X & H). apply bind_ret in H. destruct H as (ps & H & K).
    injection K as -> <-.
    assert (F : forall s t, close s t -> forall vs us, close (fit_values vs s) (fit_values us t)).
    { intros s t [L [B1 B2]] vs us. pose proof (fit_values_loose vs s) as (A & A1 & A2). pose proof (fit_values_loose us t) as (Q & Q1 & Q2).
      destruct L as (L & L1 & L2). split; [repeat split; congruence|]. split; congruence. }
    destruct (polys_conf W E close p q e c p1 (kept_close W) F PQ X) as (c' & q1 & X' & (x & y & -> & CX & CY) & PQ1).
    split.
    - unfold polys_configure in X. apply bind_ret in X. destruct X as (c0 & _ & X). pose proof (f_equal (fun o => match o with Ret v => snd v | _ => p end) X) as Z. cbn [snd] in Z. subst p1.
      destruct PQ as ([_ BX] & [_ BY] & _). split; [split; [apply fit_values_loose|exact BX]|]. split; [split; [apply fit_values_loose|exact BY]|]. split; reflexivity.
    - exists q1. split; [|exact PQ1]. rewrite X'. cbn [bind]. change (g_sx (set_g_sx x (set_g_sy y c))) with x. change (g_sy (set_g_sx x (set_g_sy y c))) with y.
      change (g_polys (set_g_sx x (set_g_sy y c))) with (g_polys c). rewrite (same_clip _ _ _ PQ) in H.
      assert (Z : forall (f g : poly2 -> outcome poly2) l, (forall a, f a = g a) -> forM f l = forM g l).
      { intros f g l Q. induction l as [|a l IH]; cbn [forM]; [reflexivity|]. now rewrite Q, IH. }
      assert (Z2 : forall (f g : vec2 -> outcome vec2) l, (forall a, f a = g a) -> forM f l = forM g l).
      { intros f g l Q. induction l as [|a l IH]; cbn [forM]; [reflexivity|]. now rewrite Q, IH. }
      match type of H with forM ?f ?l = _ => match goal with |- (let* ps := forM ?g l in _) = _ => rewrite (Z g f l) end end; [rewrite H; reflexivity|].
      intro a. match goal with |- (let* b := forM ?g ?l in _) = (let* b := forM ?f ?l in _) => rewrite (Z2 g f l) end; [reflexivity|].
      intro u. now rewrite (translate_close W _ _ CX), (translate_close W _ _ CY).
  Qed.

  (** ---- the pass that fits the scales ---- *)
  Definition fitted_kept (f : plot -> list expr -> outcome plot) : Prop :=
    forall p q e p1, relp loose p q -> f p e = Ret p1 -> relp loose p p1 /\ exists q1, f q e = Ret q1 /\ relp loose p1 q1.
  Lemma fit_x_kept p q b p1 : relp loose p q -> fit_x W b p = Ret p1 -> relp loose p p1 /\ exists q1, fit_x W b q = Ret q1 /\ relp loose p1 q1.
  Proof.
    intros (X & Y & M & S) H. unfold fit_x in *. apply bind_ret in H. destruct H as (v & H & K). injection K as <-.
    destruct (fit_data_loose W _ _ _ _ X H) as (A & w & H' & B). rewrite H'. split; [|eexists; split; [reflexivity|]]; repeat split; cbn; try apply loose_refl; auto; try apply A; try apply B; apply Y.
  Qed.
  Lemma fit_y_kept p q b p1 : relp loose p q -> fit_y W b p = Ret p1 -> relp loose p p1 /\ exists q1, fit_y W b q = Ret q1 /\ relp loose p1 q1.
  Proof.
    intros (X & Y & M & S) H. unfold fit_y in *. apply bind_ret in H. destruct H as (v & H & K). injection K as <-.
    destruct (fit_data_loose W _ _ _ _ Y H) as (A & w & H' & B). rewrite H'. split; [|eexists; split; [reflexivity|]]; repeat split; cbn; try apply loose_refl; auto; try apply A; try apply B; apply X.
  Qed.
  Lemma relp_trans p q r : relp loose p q -> relp loose q r -> relp loose p r.
  Proof. intros (A & B & C & D) (A' & B' & C' & D'). split; [eapply loose_trans; eauto|]. split; [eapply loose_trans; eauto|]. split; congruence. Qed.
  Lemma relp_refl p : relp loose p p.
  Proof. repeat split. Qed.
  Fixpoint fit_cols (l : list (bool * databuf xr)) (p : plot) : outcome plot :=
    match l with [] => Ret p | (h, b) :: l => let* p := (if h : bool then fit_x W b p else fit_y W b p) in fit_cols l p end.
  Lemma fit_cols_kept l : forall p q p1, relp loose p q -> fit_cols l p = Ret p1 -> relp loose p p1 /\ exists q1, fit_cols l q = Ret q1 /\ relp loose p1 q1.
  Proof.
    induction l as [|[h b] l IH]; intros p q p1 R H; cbn [fit_cols] in *.
    - injection H as <-. split; [apply relp_refl|]. eauto.
    - apply bind_ret in H. destruct H as (p2 & H & K).
      assert (X : relp loose p p2 /\ exists q2, (if h then fit_x W b q else fit_y W b q) = Ret q2 /\ relp loose p2 q2) by (destruct h; [eapply fit_x_kept; eauto|eapply fit_y_kept; eauto]).
      destruct X as (A & q2 & Q & B). destruct (IH _ _ _ B K) as (A' & q1 & Q1 & B'). split; [eapply relp_trans; eauto|]. exists q1. rewrite Q. auto.
  Qed.
  Lemma bind_last {T} (m : outcome T) : (let* v := m in Ret v) = m.
  Proof. destruct m; reflexivity. Qed.
  Lemma bind_same {A B} (m : outcome A) (f g : A -> outcome B) : (forall a, f a = g a) -> (let* a := m in f a) = (let* a := m in g a).
  Proof. intro Q. destruct m; cbn [bind]; auto. Qed.
  Lemma fits_two x y p : fit_cols [(true, x); (false, y)] p = (let* p := fit_x W x p in fit_y W y p).
  Proof. cbn [fit_cols]. apply bind_same. intro. apply bind_last. Qed.
  Lemma fits_four x y z w p : fit_cols [(true, x); (true, y); (false, z); (false, w)] p =
    (let* p := fit_x W x p in let* p := fit_x W y p in let* p := fit_y W z p in fit_y W w p).
  Proof. cbn [fit_cols]. do 3 (apply bind_same; intro). apply bind_last. Qed.
  Lemma fits_six x y z w u v p : fit_cols [(true, x); (true, y); (true, z); (false, w); (false, u); (false, v)] p =
    (let* p := fit_x W x p in let* p := fit_x W y p in let* p := fit_x W z p in let* p := fit_y W w p in let* p := fit_y W u p in fit_y W v p).
  Proof. cbn [fit_cols]. do 5 (apply bind_same; intro). apply bind_last. Qed.

  Lemma lines_fit : fitted_kept (lines_autorange W E).
  Proof.
    intros p q e p1 PQ H. unfold lines_autorange in *. apply bind_ret in H. destruct H as ([[c b] g] & X & H).
    destruct (lines_conf W E loose (kept_loose W) p q PQ e c b g X) as (c' & X' & x & y & -> & _). rewrite X'. cbn [bind].
    rewrite <- fits_two in H. destruct (fit_cols_kept _ _ _ _ PQ H) as (A & q1 & Q & B). rewrite fits_two in Q. eauto.
  Qed.
  Lemma points_fit : fitted_kept (points_autorange W E).
  Proof.
    intros p q e p1 PQ H. unfold points_autorange in *. apply bind_ret in H. destruct H as ([[[c b] cs] zs] & X & H).
    destruct (points_conf W E loose (kept_loose W) p q PQ e c b cs zs X) as (c' & X' & x & y & -> & _). rewrite X'. cbn [bind].
    rewrite <- fits_two in H. destruct (fit_cols_kept _ _ _ _ PQ H) as (A & q1 & Q & B). rewrite fits_two in Q. eauto.
  Qed.
  Lemma bars_fit : fitted_kept (bars_autorange W E).
  Proof.
    intros p q e p1 PQ H. unfold bars_autorange in *. apply bind_ret in H. destruct H as (c & X & H).
    destruct (bars_conf W E loose (kept_loose W) p q PQ e c X) as (c' & X' & x & y & -> & _). rewrite X'. cbn [bind].
    rewrite <- fits_four in H. destruct (fit_cols_kept _ _ _ _ PQ H) as (A & q1 & Q & B). rewrite fits_four in Q. eauto.
  Qed.
  Lemma areas_fit : fitted_kept (areas_autorange W E).
  Proof.
    intros p q e p1 PQ H. unfold areas_autorange in *. apply bind_ret in H. destruct H as (c & X & H).
    destruct (areas_conf W E loose (kept_loose W) p q PQ e c X) as (c' & X' & x & y & -> & _). rewrite X'. cbn [bind].
    rewrite <- fits_four in H. destruct (fit_cols_kept _ _ _ _ PQ H) as (A & q1 & Q & B). rewrite fits_four in Q. eauto.
  Qed.
  Lemma errorbars_fit : fitted_kept (errorbars_autorange W E).
  Proof.
    intros p q e p1 PQ H. unfold errorbars_autorange in *. apply bind_ret in H. destruct H as ([c cs] & X & H).
    destruct (err_conf W E loose (kept_loose W) p q PQ e c cs X) as (c' & X' & x & y & -> & _). rewrite X'. cbn [bind].
    rewrite <- fits_six in H. destruct (fit_cols_kept _ _ _ _ PQ H) as (A & q1 & Q & B). rewrite fits_six in Q. eauto.
  Qed.
  Lemma labels_fit : fitted_kept (labels_autorange W E).
  Proof.
    intros p q e p1 PQ H. unfold labels_autorange in *. apply bind_ret in H. destruct H as ([c b] & X & H).
    destruct (labels_conf W E loose (kept_loose W) p q PQ e c b X) as (c' & X' & x & y & -> & _). rewrite X'. cbn [bind].
    rewrite <- fits_two in H. destruct (fit_cols_kept _ _ _ _ PQ H) as (A & q1 & Q & B). rewrite fits_two in Q. eauto.
  Qed.
  Lemma vectors_fit : fitted_kept (vectors_autorange W E).
  Proof.
    intros p q e p1 PQ H. unfold vectors_autorange in *. apply bind_ret in H. destruct H as ([[[c b] cs] zs] & X & H).
    destruct (vectors_conf W E loose (kept_loose W) p q PQ e c b cs zs X) as (c' & X' & x & y & -> & _). rewrite X'. cbn [bind].
    rewrite <- fits_two in H. destruct (fit_cols_kept _ _ _ _ PQ H) as (A & q1 & Q & B). rewrite fits_two in Q. eauto.
  Qed.
  Lemma rectangles_fit : fitted_kept (rectangles_autorange W E).
  Proof.
    intros p q e p1 PQ H. unfold rectangles_autorange in *. apply bind_ret in H. destruct H as ([[c b] cs] & X & H).
    destruct (rects_conf W E loose (kept_loose W) p q PQ e c b cs X) as (c' & X' & x & y & -> & _). rewrite X'. cbn [bind].
    rewrite <- fits_two in H. destruct (fit_cols_kept _ _ _ _ PQ H) as (A & q1 & Q & B). rewrite fits_two in Q. eauto.
  Qed.
  Lemma polygons_fit : fitted_kept (polygons_autorange W E).
  Proof.
    intros p q e p1 PQ H. unfold polygons_autorange in *. apply bind_ret in H. destruct H as ([c p2] & X & H). injection H as ->.
    assert (F : forall s t, loose s t -> forall vs us, loose (fit_values vs s) (fit_values us t)).
    { intros s t L vs us. eapply loose_trans; [apply loose_sym, fit_values_loose|]. eapply loose_trans; [exact L|apply fit_values_loose]. }
    destruct (polys_conf W E loose p q e c p1 (kept_loose W) F PQ X) as (c' & q1 & X' & _ & PQ1). rewrite X'. cbn [bind]. split; [|eauto].
    unfold polys_configure in X. apply bind_ret in X. destruct X as (c0 & _ & X). pose proof (f_equal (fun o => match o with Ret v => snd v | _ => p end) X) as Z. cbn [snd] in Z. subst p1.
    split; [apply fit_values_loose|]. split; [apply fit_values_loose|]. split; reflexivity.
  Qed.
End Draws.
