(** The drawing stage of a plot keeps the fitted scales and only appends. *)
From Coq Require Import Reals Lra.
From Verif Require Import Base Num Num_Facts Sexpr_Model Dispatch_Model Dispatch_Spec Data_Model Data_Spec Data_Proofs Scale_Model Scale_Spec Scale_Proofs Scale_Proofs4
  Units_Model Color_Model Geo_Model Svg_Model Geojson_Model Cmd_Model Cmd_Spec Cmd_Proofs Style_Model Plot_Model Plot_Spec Plot_Proofs Plot_Parts Plot_Loops Axis_Model Eval_Model Range_Spec Range_Proofs.
Local Open Scope R_scope.

(* ---------------- fitting the same values again ---------------- *)
Lemma low_keeps vs : forall o v, match fold_left low vs o with Some m => xlt v m | None => false end = true ->
  match o with Some m => xlt v m | None => true end = true.
Proof.
  induction vs as [|w vs IH]; intros o v H; cbn [fold_left] in H; [destruct o; [exact H|reflexivity]|].
  apply IH in H. destruct o as [m|]; [|reflexivity]. cbn [low] in H. destruct (xlt w m) eqn:L; [|exact H].
  now apply (xlt_trans v w m).
Qed.
Lemma low_seen vs : forall o v, In v vs -> match fold_left low vs o with Some m => xlt v m = false | None => False end.
Proof.
  induction vs as [|w vs IH]; intros o v I; [destruct I|]. cbn [fold_left]. destruct I as [->|I]; [|now apply IH].
  destruct (fold_left low vs (low o v)) as [m|] eqn:Fm.
  - destruct (xlt v m) eqn:L; [|reflexivity]. pose proof (low_keeps vs (low o v) v) as K. rewrite Fm in K. specialize (K L).
    destruct o as [x|]; cbn [low] in K.
    + destruct (xlt v x) eqn:L2; [|congruence]. apply xlt_asym in K as K'. congruence.
    + apply xlt_asym in K as K'. congruence.
  - exfalso. revert Fm. clear. assert (N : low o v <> None) by (destruct o; cbn; [destruct (xlt v x)|]; discriminate).
    revert N. generalize (low o v). induction vs as [|w vs IH]; intros [m|] N; cbn; try congruence.
    apply IH. destruct (xlt w m); discriminate.
Qed.
Lemma high_keeps vs : forall o v, match fold_left high vs o with Some m => xlt m v | None => false end = true ->
  match o with Some m => xlt m v | None => true end = true.
Proof.
  induction vs as [|w vs IH]; intros o v H; cbn [fold_left] in H; [destruct o; [exact H|reflexivity]|].
  apply IH in H. destruct o as [m|]; [|reflexivity]. cbn [high] in H. destruct (xlt m w) eqn:L; [|exact H].
  now apply (xlt_trans m w v).
Qed.
Lemma high_seen vs : forall o v, In v vs -> match fold_left high vs o with Some m => xlt m v = false | None => False end.
Proof.
  induction vs as [|w vs IH]; intros o v I; [destruct I|]. cbn [fold_left]. destruct I as [->|I]; [|now apply IH].
  destruct (fold_left high vs (high o v)) as [m|] eqn:Fm.
  - destruct (xlt m v) eqn:L; [|reflexivity]. pose proof (high_keeps vs (high o v) v) as K. rewrite Fm in K. specialize (K L).
    destruct o as [x|]; cbn [high] in K.
    + destruct (xlt x v) eqn:L2; [|congruence]. apply xlt_asym in K as K'. congruence.
    + apply xlt_asym in K as K'. congruence.
  - exfalso. revert Fm. clear. assert (N : high o v <> None) by (destruct o; cbn; [destruct (xlt x v)|]; discriminate).
    revert N. generalize (high o v). induction vs as [|w vs IH]; intros [m|] N; cbn; try congruence.
    apply IH. destruct (xlt m w); discriminate.
Qed.
Lemma fold_stays (g : option xr -> xr -> option xr) o ws : (forall v, In v ws -> g o v = o) -> fold_left g ws o = o.
Proof. induction ws as [|w ws IH]; intro H; [reflexivity|]. cbn. rewrite (H w) by now left. apply IH. intros v I. apply H. now right. Qed.
Lemma refit_same s vs ws : incl ws vs -> fit_all (fit_all s vs) ws = fit_all s vs.
Proof.
  intro I. rewrite (fit_all_refit (fit_all s vs) ws). rewrite (fit_all_refit s vs). unfold refit. cbn [s_kind s_min s_max s_log_base s_inverted s_padding h_min h_max s_categories s_cmap].
  f_equal; apply fold_stays; intros v J; apply I in J.
  - pose proof (low_seen vs (h_min s) v J) as L. destruct (fold_left low vs (h_min s)); [|easy]. cbn. now rewrite L.
  - pose proof (high_seen vs (h_max s) v J) as L. destruct (fold_left high vs (h_max s)); [|easy]. cbn. now rewrite L.
Qed.

(* ---------------- one command of the drawing stage ---------------- *)
Definition stays (p p' : plot) : Prop := p_sx p' = p_sx p /\ p_sy p' = p_sy p.
Definition entry_draws (W : world) (E : env) (kf : str * cmd (plot * list draw_command)) : Prop := forall a s s', snd kf a s = Ret s' ->
  exists l, snd s' = snd s ++ l /\
    (forall f, assoc (fst kf) (drawings W E) = Some f -> f (fst s) a = Ret l) /\
    (stays (fst s) (fst s') \/
     fst kf = s_ "polygons" /\ exists ps, options [(s_ "data", load_polys W)] a [] = Ret ps /\
       p_sx (fst s') = fit_all (p_sx (fst s)) (map vx (flat_map fst ps)) /\
       p_sy (fst s') = fit_all (p_sy (fst s)) (map vy (flat_map fst ps))).

Section Draw.
  Variables (W : world) (E : env).
  Lemma shows_draws k f : assoc k (drawings W E) = Some f -> entry_draws W E (k, shows f).
  Proof.
    intros A a s s' H. cbn [fst snd] in *. unfold shows in H. inv_bind H. injection H as <-. exists v. cbn [fst snd].
    split; [reflexivity|]. split; [intros g G; congruence|]. left. split; reflexivity.
  Qed.
  Lemma axes_draws : entry_draws W E (s_ "axes", shows_and_moves (plot_axes W E)).
  Proof.
    intros a s s' H. cbn [fst snd] in *. unfold shows_and_moves in H. inv_bind H. destruct v as [p1 l]. injection H as <-. exists l. cbn [fst snd].
    split; [reflexivity|]. split; [intros g G; injection G as <-; now rewrite A|]. left.
    unfold plot_axes in A. inv_bind A. inv_bind A. inv_bind A. injection A as <- _. split; reflexivity.
  Qed.
  Lemma polygons_draws : entry_draws W E (s_ "polygons", shows_and_moves (polygons_draw W E)).
  Proof.
    intros a s s' H. cbn [fst snd] in *. unfold shows_and_moves in H. inv_bind H. destruct v as [p1 l]. injection H as <-. exists l. cbn [fst snd].
    split; [reflexivity|]. split; [intros g G; injection G as <-; now rewrite A|]. right. split; [reflexivity|].
    unfold polygons_draw in A. inv_bind A. destruct v as [c p2]. inv_bind A. injection A as <- _.
    unfold polys_configure in A0. inv_bind A0. apply polys_parts in A as (_ & _ & P & _). injection A0 as _ <-.
    exists (g_polys v0). split; [exact P|]. split; reflexivity.
  Qed.
  Lemma put_draws k st : assoc k (drawings W E) = None ->
    entry_draws W E (k, upd (rd_size W E) (fun v s => (set_margins (st v (p_margins (fst s))) (fst s), snd s))).
  Proof.
    intros N a s s' H. cbn [fst snd] in *. unfold upd in H. inv_bind H. injection H as <-. exists []. cbn [fst snd].
    rewrite app_nil_r. split; [reflexivity|]. split; [intros f; rewrite N; discriminate|]. left. split; reflexivity.
  Qed.
  Lemma draw_entries : Forall (entry_draws W E) (draw_table W E).
  Proof.
    unfold draw_table, margin_entries. cbn [app].
    repeat (apply Forall_cons; [first [apply put_draws; reflexivity | apply axes_draws | apply polygons_draws | apply shows_draws; reflexivity | idtac]|]).
    2: apply Forall_nil.
    intros a s s' H. cbn [fst snd] in *. unfold call_each, upd in H. cbn [map] in H. split_binds. subst. exists []. cbn [fst snd].
    rewrite app_nil_r. split; [reflexivity|]. split; [intro f; discriminate|]. left. split; reflexivity.
  Qed.
End Draw.

Section Stage.
  Variables (W : world) (E : env).
  Lemma plot_data_in ax e : forall vs, plot_data W ax e = Ret vs -> forall x k a g ws, In x e -> option_of x = Some (k, a) ->
    assoc k (element_data W ax) = Some g -> g a = Ret ws -> incl ws vs.
  Proof.
    induction e as [|y e IH]; intros vs H x k a g ws I O A G; [destruct I|]. cbn [plot_data] in H. inv_bind H. inv_bind H. injection H as <-.
    destruct I as [->|I].
    - rewrite O, A, G in A0. injection A0 as ->. apply incl_appl, incl_refl.
    - apply incl_appr. eapply IH; eauto.
  Qed.
  Definition polys_within (ax : axis_) (vs : list xr) (e : list expr) : Prop := forall x a ps, In x e -> option_of x = Some (s_ "polygons", a) ->
    options [(s_ "data", load_polys W)] a [] = Ret ps -> incl (map (fun v => of ax (vx v) (vy v)) (flat_map fst ps)) vs.
  Lemma data_within ax e vs : plot_data W ax e = Ret vs -> polys_within ax vs e.
  Proof.
    intros H x a ps I O L. eapply (plot_data_in ax e vs H x (s_ "polygons") a); eauto; [destruct ax; reflexivity|]. cbv beta. rewrite L. reflexivity.
  Qed.
  Lemma within_app ax vs e1 e2 : polys_within ax vs (e1 ++ e2) -> polys_within ax vs e1 /\ polys_within ax vs e2.
  Proof. intro H. split; intros x a ps I; apply (H x a ps); apply in_or_app; auto. Qed.

  Lemma stage_scale ax s vs e : forall st st', options (draw_table W E) e st = Ret st' -> polys_within ax vs e ->
    scale_of ax (fst st) = fit_all s vs -> scale_of ax (fst st') = fit_all s vs.
  Proof.
    induction e as [|x e IH]; intros st st' H P Q; [injection H as <-; exact Q|].
    rewrite options_cons in H. destruct (option_of x) as [[k a]|] eqn:O; [|discriminate].
    assert (P' : polys_within ax vs e) by (intros y b ps I; apply (P y b ps); now right).
    destruct (assoc k (draw_table W E)) as [f|] eqn:A; [|eapply IH; eauto].
    inv_bind H. pose proof (draw_entries W E) as T. rewrite Forall_forall in T. apply assoc_In in A.
    destruct (T _ A _ _ _ A0) as (l & _ & _ & [(S1 & S2)|(K & ps & L & S1 & S2)]); cbn [fst] in *.
    - eapply IH; eauto. destruct ax; cbn [scale_of of] in *; congruence.
    - subst k. eapply IH; eauto. pose proof (P x a ps (or_introl eq_refl) O L) as I.
      destruct ax; cbn [scale_of of] in *; rewrite ?S1, ?S2, Q; now apply refit_same.
  Qed.
  Lemma stage_appends e : forall st st', options (draw_table W E) e st = Ret st' -> exists l, snd st' = snd st ++ l.
  Proof.
    intros st st'. apply (options_rel (draw_table W E) (fun s s' => exists l, snd s' = snd s ++ l)).
    - intro s. exists []. now rewrite app_nil_r.
    - intros a b c [l1 ->] [l2 ->]. exists (l1 ++ l2). now rewrite app_assoc.
    - intros k f I a s s' H. pose proof (draw_entries W E) as T. rewrite Forall_forall in T.
      destruct (T _ I _ _ _ H) as (l & L & _). eauto.
  Qed.
End Stage.
