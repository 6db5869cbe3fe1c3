(** Commands of a plot with given limits do not influence each other: the elements. *)
From Coq Require Import Reals.
From Verif Require Import Base Num Sexpr_Model Dispatch_Model Data_Model Scale_Model Svg_Model Cmd_Model Cmd_Spec Cmd_Proofs
  Style_Model Plot_Model Axis_Model Eval_Model Given_Proofs.
Local Open Scope list_scope.

(** Plots that differ only in the scales, related by [C]. *)
Definition relp (C : scale -> scale -> Prop) (p q : plot) : Prop :=
  C (p_sx p) (p_sx q) /\ C (p_sy p) (p_sy q) /\ p_margins p = p_margins q /\ p_stack p = p_stack q.
(** The same for configurations with two scales. *)
Definition rel {S} (C : scale -> scale -> Prop) (gx gy : S -> scale) (px py : scale -> S -> S) (s t : S) : Prop :=
  exists x y, t = px x (py y s) /\ C (gx s) x /\ C (gy s) y.

Section Elements.
  Variable W : world.
  Variable E : env.
  Record kept (C : scale -> scale -> Prop) : Prop := mk_kept {
    k_limits : par C (rd_limits W); k_kind : par C (rd_kind W);
    k_min : par C (fun e s => let* v := rd_float W e in Ret (with_min v s));
    k_max : par C (fun e s => let* v := rd_float W e in Ret (with_max v s));
    k_padding : par C (fun e s => let* v := rd_float W e in Ret (with_padding v s)) }.
  Lemma kept_loose : kept loose.
  Proof.
    split; [apply loose_limits|apply loose_kind|apply loose_float, loose_min|apply loose_float, loose_max|apply loose_float, loose_padding].
  Qed.
  Lemma kept_close : kept close.
  Proof.
    split; [apply close_limits|apply close_kind|..].
    - apply close_float; [apply loose_min|]. intros v s [A B]. split; [discriminate|exact B].
    - apply close_float; [apply loose_max|]. intros v s [A B]. split; [exact A|discriminate].
    - apply close_float; [apply loose_padding|]. intros v s [A B]. split; assumption.
  Qed.

  Section Tables.
    Variable C : scale -> scale -> Prop.
    Hypothesis K : kept C.
    Ltac related :=
      intros; repeat match goal with H : rel _ _ _ _ _ _ _ |- _ => destruct H as (? & ? & -> & ? & ?) end;
      first [ assumption | reflexivity
            | match goal with |- rel _ _ _ _ _ _ _ => do 2 eexists; split; [reflexivity|split; assumption] end ].
    Ltac one := first
      [ apply par_upd; solve [related]
      | apply par_same; solve [related]
      | eapply (par_part _ C); [first [apply (k_limits C K)|apply (k_kind C K)|apply (k_min C K)|apply (k_max C K)|apply (k_padding C K)]
                               |solve [related]|intros; match goal with H : rel _ _ _ _ _ _ _ |- _ => destruct H as (? & ? & -> & ? & ?) end; do 2 eexists; split; [reflexivity|split; assumption]] ].
    Ltac entry := cbn [snd]; match goal with
      | |- par _ (call_each _) => apply par_each; repeat (apply Forall_cons; [one|]); apply Forall_nil
      | _ => one end.
    Ltac table := unfold par_table; cbn [app firstn]; repeat (apply Forall_cons; [entry|]); apply Forall_nil.
    Ltac opened := unfold src_entries, scale_entries, label_entries, font_entries, color_entries, size_entries; cbv zeta beta; table.

    Lemma lines_par : par_table (rel C l_sx l_sy set_l_sx set_l_sy) (lines_table W E).
    Proof. unfold lines_table. opened. Qed.
    Lemma points_par : par_table (rel C p_sx_ p_sy_ set_p_sx_ set_p_sy_) (points_table W E).
    Proof. unfold points_table. opened. Qed.
    Lemma bars_par : par_table (rel C b_sx b_sy set_b_sx set_b_sy) (bars_table W E).
    Proof. unfold bars_table. opened. Qed.
    Lemma areas_par : par_table (rel C a_sx a_sy set_a_sx set_a_sy) (areas_table W E).
    Proof. unfold areas_table. opened. Qed.
    Lemma err_par : par_table (rel C e_sx e_sy set_e_sx set_e_sy) (err_table W E).
    Proof. unfold err_table. opened. Qed.
    Lemma labels_par : par_table (rel C t_sx t_sy set_t_sx set_t_sy) (labels_table W E).
    Proof. unfold labels_table. opened. Qed.
    Lemma vectors_par : par_table (rel C v_sx v_sy set_v_sx set_v_sy) (vectors_table W E).
    Proof. unfold vectors_table. opened. Qed.
    Lemma rects_par : par_table (rel C r_sx r_sy set_r_sx set_r_sy) (rects_table W E).
    Proof. unfold rects_table. opened. Qed.
    Lemma polys_par : par_table (rel C g_sx g_sy set_g_sx set_g_sy) (polys_table W E).
    Proof. unfold polys_table. opened. Qed.
    Lemma grid_par : par_table (rel C gr_sx gr_sy set_gr_sx set_gr_sy) (grid_table W E).
    Proof. unfold grid_table. opened. Qed.

    (** The configurations. *)
    Variables p q : plot.
    Hypothesis PQ : relp C p q.
    Variable e : list expr.
    Lemma opened_run {S} gx gy px py (tbl : list (str * cmd S)) s0 c : par_table (rel C gx gy px py) tbl -> run tbl e s0 = Ret c ->
      gx s0 = p_sx p -> gy s0 = p_sy p -> exists x y, run tbl e (px (p_sx q) (py (p_sy q) s0)) = Ret (px x (py y c)) /\ C (gx c) x /\ C (gy c) y.
    Proof.
      intros P H GX GY. destruct PQ as (X & Y & _). destruct (par_run _ _ P e s0 (px (p_sx q) (py (p_sy q) s0)) c) as (w & Hw & x & y & -> & Cx & Cy);
        [do 2 eexists; split; [reflexivity|rewrite GX, GY; split; assumption]|exact H|]. eauto.
    Qed.
    Lemma lines_conf c b g : lines_configure W E p e = Ret (c, b, g) ->
      exists c', lines_configure W E q e = Ret (c', b, g) /\ rel C l_sx l_sy set_l_sx set_l_sy c c'.
    Proof.
      unfold lines_configure. intro H. apply bind_ret in H. destruct H as (c0 & R & H). destruct (opened_run _ _ _ _ _ _ _ lines_par R eq_refl eq_refl) as (x & y & R' & X & Y). match type of R' with _ = ?r => change (run (lines_table W E) e (lines0 W E q) = r) in R' end. rewrite R'. cbn [bind].
      apply bind_ret in H. destruct H as ([b0 g0] & H & K1). exists (set_l_sx x (set_l_sy y c)).
      change (l_src (set_l_sx x (set_l_sy y c0))) with (l_src c0). rewrite H. cbn [bind].
      destruct (negb _); [discriminate|]. destruct (_ =? 0)%nat; [discriminate|]. injection K1 as <- <- <-. split; [reflexivity|]. exists x, y. auto.
    Qed.
    Lemma points_conf c b cs zs : points_configure W E p e = Ret (c, b, cs, zs) ->
      exists c', points_configure W E q e = Ret (c', b, cs, zs) /\ rel C p_sx_ p_sy_ set_p_sx_ set_p_sy_ c c'.
    Proof.
      unfold points_configure. intro H. apply bind_ret in H. destruct H as (c0 & R & H). destruct (opened_run _ _ _ _ _ _ _ points_par R eq_refl eq_refl) as (x & y & R' & X & Y). match type of R' with _ = ?r => change (run (points_table W E) e (points0 W E q) = r) in R' end. rewrite R'. cbn [bind].
      apply bind_ret in H. destruct H as (b0 & H & K1). exists (set_p_sx_ x (set_p_sy_ y c)).
      change (p_src (set_p_sx_ x (set_p_sy_ y c0))) with (p_src c0). change (p_marks (set_p_sx_ x (set_p_sy_ y c0))) with (p_marks c0). rewrite H. cbn [bind].
      destruct (negb _); [discriminate|]. apply bind_ret in K1. destruct K1 as (cs0 & -> & K1). apply bind_ret in K1. destruct K1 as (z0 & -> & K1). cbn [bind].
      injection K1 as <- <- <- <-. split; [reflexivity|]. exists x, y. auto.
    Qed.
    Lemma bars_conf c : bars_configure W E p e = Ret c ->
      exists c', bars_configure W E q e = Ret c' /\ rel C b_sx b_sy set_b_sx set_b_sy c c'.
    Proof.
      unfold bars_configure. intro H. apply bind_ret in H. destruct H as (c0 & R & H). destruct (opened_run _ _ _ _ _ _ _ bars_par R eq_refl eq_refl) as (x & y & R' & X & Y). match type of R' with _ = ?r => change (run (bars_table W E) e (bars0 W E q) = r) in R' end. rewrite R'. cbn [bind].
      exists (set_b_sx x (set_b_sy y c)).
      change (b_x (set_b_sx x (set_b_sy y c0))) with (b_x c0). change (b_y (set_b_sx x (set_b_sy y c0))) with (b_y c0).
      change (b_xlow (set_b_sx x (set_b_sy y c0))) with (b_xlow c0). change (b_ylow (set_b_sx x (set_b_sy y c0))) with (b_ylow c0).
      repeat match type of H with (if ?c then _ else _) = _ => destruct c; [discriminate|] end. injection H as <-. split; [reflexivity|]. exists x, y. auto.
    Qed.
    Lemma areas_conf c : areas_configure W E p e = Ret c ->
      exists c', areas_configure W E q e = Ret c' /\ rel C a_sx a_sy set_a_sx set_a_sy c c'.
    Proof.
      unfold areas_configure. intro H. apply bind_ret in H. destruct H as (c0 & R & H). destruct (opened_run _ _ _ _ _ _ _ areas_par R eq_refl eq_refl) as (x & y & R' & X & Y). match type of R' with _ = ?r => change (run (areas_table W E) e (areas0 E q) = r) in R' end. rewrite R'. cbn [bind].
      apply bind_ret in H. destruct H as (b0 & H & K1). exists (set_a_sx x (set_a_sy y c)).
      change (a_src (set_a_sx x (set_a_sy y c0))) with (a_src c0). change (a_x (set_a_sx x (set_a_sy y c0))) with (a_x c0).
      change (a_y (set_a_sx x (set_a_sy y c0))) with (a_y c0). rewrite H. cbn [bind]. cbn [a_x a_y a_xlow a_ylow set_a_y set_a_x set_a_sx set_a_sy] in *.
      repeat match type of K1 with (if ?c then _ else _) = _ => destruct c; [discriminate|] end. injection K1 as <-. split; [reflexivity|]. exists x, y. auto.
    Qed.
    Lemma err_conf c cs : err_configure W E p e = Ret (c, cs) ->
      exists c', err_configure W E q e = Ret (c', cs) /\ rel C e_sx e_sy set_e_sx set_e_sy c c'.
    Proof.
      unfold err_configure. intro H. apply bind_ret in H. destruct H as (c0 & R & H). destruct (opened_run _ _ _ _ _ _ _ err_par R eq_refl eq_refl) as (x & y & R' & X & Y). match type of R' with _ = ?r => change (run (err_table W E) e (err0 W E q) = r) in R' end. rewrite R'. cbn [bind].
      exists (set_e_sx x (set_e_sy y c)). cbv zeta in H |- *.
      cbn [e_x e_y e_xlow e_ylow e_xhigh e_yhigh e_marks set_e_sx set_e_sy] in *.
      repeat match type of H with (if ?c then _ else _) = _ => destruct c; [discriminate|] end. apply bind_ret in H. destruct H as (cs0 & H & K1).
      rewrite H. injection K1 as <- <-. split; [reflexivity|]. exists x, y. auto.
    Qed.
    Lemma labels_conf c b : labels_configure W E p e = Ret (c, b) ->
      exists c', labels_configure W E q e = Ret (c', b) /\ rel C t_sx t_sy set_t_sx set_t_sy c c'.
    Proof.
      unfold labels_configure. intro H. apply bind_ret in H. destruct H as (c0 & R & H). destruct (opened_run _ _ _ _ _ _ _ labels_par R eq_refl eq_refl) as (x & y & R' & X & Y). match type of R' with _ = ?r => change (run (labels_table W E) e (mk_labels src0 (p_sx q) (p_sy q) (lbl0 W E)) = r) in R' end. rewrite R'. cbn [bind].
      apply bind_ret in H. destruct H as (b0 & H & K1). exists (set_t_sx x (set_t_sy y c)).
      change (t_src (set_t_sx x (set_t_sy y c0))) with (t_src c0). rewrite H. cbn [bind].
      destruct (negb _); [discriminate|]. injection K1 as <- <-. split; [reflexivity|]. exists x, y. auto.
    Qed.
    Lemma vectors_conf c b cs zs : vectors_configure W E p e = Ret (c, b, cs, zs) ->
      exists c', vectors_configure W E q e = Ret (c', b, cs, zs) /\ rel C v_sx v_sy set_v_sx set_v_sy c c'.
    Proof.
      unfold vectors_configure. intro H. apply bind_ret in H. destruct H as (c0 & R & H). destruct (opened_run _ _ _ _ _ _ _ vectors_par R eq_refl eq_refl) as (x & y & R' & X & Y).
      match type of R' with _ = ?r => change (run (vectors_table W E) e (mk_vectors src0 empty empty (p_sx q) (p_sy q) (mk_marks (e_fg E) [] None (pt W E 1) [] None)) = r) in R' end. rewrite R'. cbn [bind].
      apply bind_ret in H. destruct H as (b0 & H & K1). exists (set_v_sx x (set_v_sy y c)).
      change (v_src (set_v_sx x (set_v_sy y c0))) with (v_src c0). change (v_marks (set_v_sx x (set_v_sy y c0))) with (v_marks c0). rewrite H. cbn [bind].
      destruct (negb _); [discriminate|]. apply bind_ret in K1. destruct K1 as (cs0 & -> & K1). apply bind_ret in K1. destruct K1 as (z0 & -> & K1). cbn [bind].
      injection K1 as <- <- <- <-. split; [reflexivity|]. exists x, y. auto.
    Qed.
    Lemma rects_conf c b cs : rects_configure W E p e = Ret (c, b, cs) ->
      exists c', rects_configure W E q e = Ret (c', b, cs) /\ rel C r_sx r_sy set_r_sx set_r_sy c c'.
    Proof.
      unfold rects_configure. intro H. apply bind_ret in H. destruct H as (c0 & R & H). destruct (opened_run _ _ _ _ _ _ _ rects_par R eq_refl eq_refl) as (x & y & R' & X & Y).
      match type of R' with _ = ?r => change (run (rects_table W E) e (mk_rects src0 empty empty (Fin 0) (Fin 0) (p_sx q) (p_sy q) (mk_marks (e_fg E) [] None (Fin 0) [] None)) = r) in R' end. rewrite R'. cbn [bind].
      apply bind_ret in H. destruct H as (b0 & H & K1). exists (set_r_sx x (set_r_sy y c)).
      change (r_src (set_r_sx x (set_r_sy y c0))) with (r_src c0). change (r_marks (set_r_sx x (set_r_sy y c0))) with (r_marks c0). rewrite H. cbn [bind].
      destruct (negb _); [discriminate|]. apply bind_ret in K1. destruct K1 as (cs0 & -> & K1). cbn [bind].
      injection K1 as <- <- <-. split; [reflexivity|]. exists x, y. auto.
    Qed.
  End Tables.

  (** Polygons fit the scales of their configuration too. *)
  Lemma polys_conf (C : scale -> scale -> Prop) p q e c p1 : kept C -> (forall s t, C s t -> forall vs us, C (fit_values vs s) (fit_values us t)) ->
    relp C p q -> polys_configure W E p e = Ret (c, p1) ->
    exists c' q1, polys_configure W E q e = Ret (c', q1) /\ rel C g_sx g_sy set_g_sx set_g_sy c c' /\ relp C p1 q1.
  Proof.
    intros K F PQ H. unfold polys_configure in *. apply bind_ret in H. destruct H as (c0 & R & H). injection H as <- <-.
    destruct (opened_run C p q PQ e _ _ _ _ _ _ _ (polys_par C K) R eq_refl eq_refl) as (x & y & R' & X & Y).
    match type of R' with _ = ?r => change (run (polys_table W E) e (polys0 W E q) = r) in R' end.
    rewrite R'. cbn [bind]. do 2 eexists. split; [reflexivity|].
    split.
    - do 2 eexists. split; [reflexivity|]. split; cbn; apply F; assumption.
    - destruct PQ as (X' & Y' & M & S). split; [|split; [|split]]; cbn; auto.
  Qed.
End Elements.
