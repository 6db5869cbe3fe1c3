(** Commands of a plot with given limits do not influence each other: scales that differ only in
    the range of the data. *)
From Coq Require Import Reals.
From Verif Require Import Base Num Sexpr_Model Dispatch_Model Data_Model Scale_Model Cmd_Model Cmd_Spec Cmd_Proofs Svg_Model Style_Model
  Plot_Model Order_Proofs Axis_Model.
Local Open Scope list_scope.

Definition loose (s t : scale) : Prop := both_of s = both_of t /\ s_min s = s_min t /\ s_max s = s_max t.
Definition bounded (s : scale) : Prop := s_min s <> None /\ s_max s <> None.
Definition close (s t : scale) : Prop := loose s t /\ bounded s.
Lemma loose_refl s : loose s s. Proof. repeat split. Qed.
Lemma loose_sym s t : loose s t -> loose t s. Proof. intros (A & B & C). repeat split; auto. Qed.
Lemma loose_trans s t u : loose s t -> loose t u -> loose s u.
Proof. intros (A & B & C) (A' & B' & C'). repeat split; congruence. Qed.
Lemma close_bounded s t : close s t -> bounded t.
Proof. intros [(A & B & C) [D F]]. split; congruence. Qed.
Lemma close_is s t : close s t -> exists k a b l i p g h g' h' c m,
  s = mk_scale k (Some a) (Some b) l i p g h c m /\ t = mk_scale k (Some a) (Some b) l i p g' h' c m.
Proof.
  destruct s as [k1 a1 b1 l1 i1 p1 g1 j1 c1 m1], t as [k2 a2 b2 l2 i2 p2 g2 j2 c2 m2]. intros [(A & B & C) [D F]].
  unfold both_of, kind_of in A. cbn in *. injection A as -> -> -> -> -> ->. subst. destruct a2; [|congruence]. destruct b2; [|congruence].
  do 12 eexists. split; reflexivity.
Qed.

(** Commands that act alike on states that are related. *)
Definition par {S} (R : S -> S -> Prop) (f : cmd S) : Prop :=
  forall a s t v, R s t -> f a s = Ret v -> exists w, f a t = Ret w /\ R v w.
Section Par.
  Context {S : Type} (R : S -> S -> Prop).
  Lemma par_upd {T} (rd : list expr -> outcome T) put : (forall v s t, R s t -> R (put v s) (put v t)) -> par R (upd rd put).
  Proof. intros P a s t v Rs H. unfold upd in *. apply bind_ret in H. destruct H as (x & H & K). injection K as <-. rewrite H. eexists. split; [reflexivity|auto]. Qed.
  Lemma par_same {T} get (rd : list expr -> T -> outcome T) put : (forall s t, R s t -> get s = get t) ->
    (forall v s t, R s t -> R (put v s) (put v t)) -> par R (updf get rd put).
  Proof.
    intros G P a s t v Rs H. unfold updf in *. apply bind_ret in H. destruct H as (x & H & K). injection K as <-. rewrite <- (G _ _ Rs), H.
    eexists. split; [reflexivity|auto].
  Qed.
  Lemma par_part {T} (Q : T -> T -> Prop) get (rd : list expr -> T -> outcome T) put : par Q rd -> (forall s t, R s t -> Q (get s) (get t)) ->
    (forall v w s t, R s t -> Q v w -> R (put v s) (put w t)) -> par R (updf get rd put).
  Proof.
    intros PQ G P a s t v Rs H. unfold updf in *. apply bind_ret in H. destruct H as (x & H & K). injection K as <-.
    destruct (PQ _ _ _ _ (G _ _ Rs) H) as (y & Hy & K). rewrite Hy. eexists. split; [reflexivity|auto].
  Qed.
  Lemma par_each fs : Forall (par R) fs -> par R (call_each fs).
  Proof.
    induction 1 as [|f fs P _ IH]; intros a s t v Rs H; cbn [call_each] in *.
    - injection H as <-. eauto.
    - apply bind_ret in H. destruct H as (s1 & H1 & H). destruct (P _ _ _ _ Rs H1) as (t1 & T1 & K). rewrite T1. exact (IH _ _ _ _ K H).
  Qed.
  Definition par_table (tbl : list (str * cmd S)) : Prop := Forall (fun e => par R (snd e)) tbl.
  Lemma par_run tbl : par_table tbl -> par R (run tbl).
  Proof.
    intros P. unfold par_table in P. rewrite Forall_forall in P. intro l. induction l as [|x l IH]; intros s t v Rs H.
    - injection H as <-. exists t. auto.
    - rewrite run_cons in H |- *. destruct (option_of x) as [[k a]|]; [|discriminate]. destruct (assoc k tbl) as [f|] eqn:F; [|discriminate].
      apply bind_ret in H. destruct H as (s1 & H1 & H). pose proof (P _ (assoc_In k tbl f F)) as Pf; cbn [snd] in Pf. destruct (Pf _ _ _ _ Rs H1) as (t1 & T1 & K).
      destruct (IH _ _ _ K H) as (w & Hw & Kw). exists w. split; [|exact Kw]. rewrite T1. exact Hw.
  Qed.
  Lemma par_options tbl : par_table tbl -> par R (options tbl).
  Proof.
    intros P. unfold par_table in P. rewrite Forall_forall in P. intro l. induction l as [|x l IH]; intros s t v Rs H.
    - injection H as <-. exists t. auto.
    - rewrite options_cons in H |- *. destruct (option_of x) as [[k a]|]; [|discriminate]. destruct (assoc k tbl) as [f|] eqn:F; [|eauto].
      apply bind_ret in H. destruct H as (s1 & H1 & H). pose proof (P _ (assoc_In k tbl f F)) as Pf; cbn [snd] in Pf. destruct (Pf _ _ _ _ Rs H1) as (t1 & T1 & K).
      destruct (IH _ _ _ K H) as (w & Hw & Kw). exists w. split; [|exact Kw]. rewrite T1. exact Hw.
  Qed.
End Par.

(** ---- scales ---- *)
Section Scales.
  Variable W : world.
  Notation d := (w_d W).
  Lemma loose_limits : par loose (rd_limits W).
  Proof.
    intros a s t v (A & B & C) H. destruct (rd_limits_is W a) as [o X]. rewrite X in *. destruct o as [[lo hi]| | | |]; try discriminate.
    injection H as <-. eexists. split; [reflexivity|]. unfold loose, both_of, kind_of in *. cbn in *. repeat split; congruence.
  Qed.
  Lemma loose_kind : par loose (rd_kind W).
  Proof.
    intros a s t v (A & B & C) H. destruct (rd_kind_on W a s t v A H) as (w & Hw & K). exists w. split; [exact Hw|].
    apply rd_kind_off in H. apply rd_kind_off in Hw. unfold rest_of in *. injection H as H1 H2 H3. injection Hw as K1 K2 K3. repeat split; congruence.
  Qed.
  Lemma loose_float (put : xr -> scale -> scale) : (forall v s t, loose s t -> loose (put v s) (put v t)) -> par loose (fun e s => let* v := rd_float W e in Ret (put v s)).
  Proof. intros P a s t v L H. apply bind_ret in H. destruct H as (x & H & K). injection K as <-. rewrite H. eexists. split; [reflexivity|auto]. Qed.
  Lemma loose_min v s t : loose s t -> loose (with_min v s) (with_min v t).
  Proof. intros (A & B & C). unfold loose, both_of, kind_of in *. cbn in *. repeat split; congruence. Qed.
  Lemma loose_max v s t : loose s t -> loose (with_max v s) (with_max v t).
  Proof. intros (A & B & C). unfold loose, both_of, kind_of in *. cbn in *. repeat split; congruence. Qed.
  Lemma loose_padding v s t : loose s t -> loose (with_padding v s) (with_padding v t).
  Proof. intros (A & B & C). unfold loose, both_of, kind_of in *. cbn in *. repeat split; congruence. Qed.

  (** Limits that are given stay given. *)
  Definition stays (P : scale -> Prop) (rd : cmd scale) : Prop := forall a s v, rd a s = Ret v -> P s -> P v.
  Definition low (s : scale) : Prop := s_min s <> None.
  Definition high (s : scale) : Prop := s_max s <> None.
  Lemma limits_set a s v : rd_limits W a s = Ret v -> bounded v.
  Proof. destruct (rd_limits_is W a) as [o X]. rewrite X. destruct o as [[lo hi]| | | |]; try discriminate. intro H. injection H as <-. split; discriminate. Qed.
  Lemma kind_stays a s v : rd_kind W a s = Ret v -> s_min s = s_min v /\ s_max s = s_max v.
  Proof. intro H. apply rd_kind_off in H. unfold rest_of in H. injection H as H1 H2 H3. auto. Qed.
  Lemma float_set (put : xr -> scale -> scale) a s v : (let* x := rd_float W a in Ret (put x s)) = Ret v -> exists x : xr, v = put x s.
  Proof. intro H. apply bind_ret in H. destruct H as (x & _ & H). injection H as <-. eauto. Qed.

  Lemma close_par rd : par loose rd -> (forall a s v, rd a s = Ret v -> bounded s -> bounded v) -> par close rd.
  Proof. intros P B a s t v [L Bs] H. destruct (P _ _ _ _ L H) as (w & Hw & K). exists w. split; [exact Hw|]. split; [exact K|]. eapply B; eauto. Qed.
  Lemma close_limits : par close (rd_limits W).
  Proof. apply close_par; [apply loose_limits|]. intros a s v H _. eapply limits_set; eauto. Qed.
  Lemma close_kind : par close (rd_kind W).
  Proof. apply close_par; [apply loose_kind|]. intros a s v H [A B]. apply kind_stays in H. destruct H as [H1 H2]. split; congruence. Qed.
  Lemma close_float (put : xr -> scale -> scale) : (forall v s t, loose s t -> loose (put v s) (put v t)) -> (forall v s, bounded s -> bounded (put v s)) ->
    par close (fun e s => let* v := rd_float W e in Ret (put v s)).
  Proof. intros P B. apply close_par; [now apply loose_float|]. intros a s v H K. apply float_set in H. destruct H as (x & ->). auto. Qed.

  (** Fitting changes only the range of the data. *)
  Lemma fit_loose v s : loose s (fit s v).
  Proof. destruct s. unfold fit. repeat split. Qed.
  Lemma fit_all_loose vs : forall s, loose s (fit_all s vs).
  Proof.
    induction vs as [|v vs IH]; intro s; unfold fit_all; cbn [fold_left]; [apply loose_refl|]. eapply loose_trans; [apply (fit_loose v)|]. apply IH.
  Qed.
  Lemma map_loop_loose s t ts : loose s t -> forall vs, map_loop d s ts vs = map_loop d t ts vs.
  Proof.
    intros (A & _). assert (M : s_cmap s = s_cmap t) by (unfold both_of, kind_of in A; congruence).
    induction ts as [|x ts IH]; intro vs; cbn [map_loop]; [reflexivity|]. rewrite M. destruct (assoc x (s_cmap t)); auto.
  Qed.
  Lemma map_categories_loose s t b vs : loose s t -> map_categories d (w_show W) s b vs = map_categories d (w_show W) t b vs.
  Proof. intro L. unfold map_categories. destruct (databuf_to_text _ _ b []); try reflexivity. now apply map_loop_loose. Qed.
  Lemma fit_data_loose s t b v : loose s t -> fit_data W s b = Ret v -> loose s v /\ exists w, fit_data W t b = Ret w /\ loose v w.
  Proof.
    intros L. assert (K : s_kind s = s_kind t) by (destruct L as (A & _); unfold both_of, kind_of in A; congruence).
    unfold fit_data, fit_buf. rewrite <- K, <- (map_categories_loose s t b [] L).
    assert (X : forall vs, loose s (fit_all s vs) /\ exists w, Ret (fit_all t vs) = Ret w /\ loose (fit_all s vs) w).
    { intro vs. split; [apply fit_all_loose|]. eexists. split; [reflexivity|]. eapply loose_trans; [apply loose_sym, fit_all_loose|].
      eapply loose_trans; [exact L|apply fit_all_loose]. }
    destruct (s_kind s).
    1,2: intro H; apply bind_ret in H; destruct H as (vs & H & Q); injection Q as <-; rewrite H; exact (X vs).
    destruct (map_categories _ _ s b []) as [vs [| | | |]]; try discriminate. intro Q. injection Q as <-. exact (X vs).
  Qed.
  Lemma fit_values_loose vs s : loose s (fit_values vs s).
  Proof. exact (fit_all_loose vs s). Qed.

  (** With both limits the range of the data does not matter. *)
  Ltac inside := let H := fresh in intro H; apply close_is in H; destruct H as (? & ? & ? & ? & ? & ? & ? & ? & ? & ? & ? & ? & -> & ->).
  Lemma translate_close s t : close s t -> forall v, scale_translate d (w_f W) s v = scale_translate d (w_f W) t v.
  Proof. inside. intro v. reflexivity. Qed.
  Lemma untranslate_close s t : close s t -> forall v, scale_untranslate d (w_f W) s v = scale_untranslate d (w_f W) t v.
  Proof. inside. intro v. reflexivity. Qed.
  Lemma translatev_close s t vs : close s t -> translatev d (w_f W) s vs = translatev d (w_f W) t vs.
  Proof. intro C. induction vs as [|v vs IH]; cbn [translatev]; [reflexivity|]. now rewrite IH, (translate_close _ _ C). Qed.
  Lemma to_unit_close s t b : close s t -> to_unit W s b = to_unit W t b.
  Proof.
    intro C. unfold to_unit, translatev_buf. rewrite (map_categories_loose s t b [] (proj1 C)).
    assert (K : s_kind s = s_kind t) by (destruct C as [(A & _) _]; unfold both_of, kind_of in A; congruence). rewrite K.
    destruct (s_kind t).
    1,2: destruct (check_numeric _ _ _); try reflexivity; cbn [bind]; destruct (databuf_to_numbers _ _ _ _); try reflexivity; cbn [bind]; now apply translatev_close.
    destruct (map_categories _ _ t b []) as [vs [| | | |]]; try reflexivity. now apply translatev_close.
  Qed.
  Lemma magnitudes_close s t b : close s t -> magnitudes W s b = magnitudes W t b.
  Proof. inside. reflexivity. Qed.

  (** Tick layouts. *)
  Lemma min_close s t : close s t -> scale_min d (w_f W) s = scale_min d (w_f W) t. Proof. inside. reflexivity. Qed.
  Lemma max_close s t : close s t -> scale_max d (w_f W) s = scale_max d (w_f W) t. Proof. inside. reflexivity. Qed.
  Lemma categorical_close s t : close s t -> forall i, translate_categorical d s i = translate_categorical d t i. Proof. inside. reflexivity. Qed.
  Lemma start_close s t : close s t -> start_exp d (w_f W) s = start_exp d (w_f W) t. Proof. inside. reflexivity. Qed.
  Section Layouts.
    Variable s t : scale.
    Hypothesis C : close s t.
    Variable fmt : nat -> str -> str.
    Lemma tick_loop_close fuel skip : forall v e step idx l,
      tick_loop d (w_f W) (w_show W) fmt fuel skip s v e step idx l = tick_loop d (w_f W) (w_show W) fmt fuel skip t v e step idx l.
    Proof.
      induction fuel as [|fuel IH]; intros v e step idx l; cbn [tick_loop]; [reflexivity|]. rewrite (translate_close _ _ C). destruct (xle v e); [|reflexivity].
      destruct (scale_translate _ _ t v); cbn [bind]; try reflexivity. now rewrite !IH.
    Qed.
    Lemma checked_close fuel skip b e step l :
      checked_ticks d (w_f W) (w_show W) fmt fuel skip s b e step l = checked_ticks d (w_f W) (w_show W) fmt fuel skip t b e step l.
    Proof. unfold checked_ticks. now rewrite tick_loop_close. Qed.
    Lemma exp_loop_close fuel base : forall ex idx l,
      exp_loop d (w_f W) (w_show W) fmt fuel s base ex idx l = exp_loop d (w_f W) (w_show W) fmt fuel t base ex idx l.
    Proof.
      induction fuel as [|fuel IH]; intros ex idx l; cbn [exp_loop]; [reflexivity|]. rewrite (translate_close _ _ C), (min_close _ _ C), (max_close _ _ C).
      destruct (scale_translate _ _ t _); cbn [bind]; try reflexivity. now rewrite !IH.
    Qed.
    Lemma inner_close fuel v vn m : forall k idx l,
      inner_steps d (w_f W) (w_show W) fmt fuel s v vn k m idx l = inner_steps d (w_f W) (w_show W) fmt fuel t v vn k m idx l.
    Proof.
      induction fuel as [|fuel IH]; intros k idx l; cbn [inner_steps]; [reflexivity|]. rewrite (translate_close _ _ C), (max_close _ _ C).
      destruct (k <? m)%N; [|reflexivity]. destruct (scale_translate _ _ t _); cbn [bind]; try reflexivity. now rewrite !IH.
    Qed.
    Lemma steps_close fuel base steps : forall ex idx l,
      exp_steps_loop d (w_f W) (w_show W) fmt fuel s base ex steps idx l = exp_steps_loop d (w_f W) (w_show W) fmt fuel t base ex steps idx l.
    Proof.
      induction fuel as [|fuel IH]; intros ex idx l; cbn [exp_steps_loop]; [reflexivity|]. rewrite (min_close _ _ C), (max_close _ _ C), inner_close.
      rewrite IH. destruct (xlt _ _); [reflexivity|]. destruct (xlt _ _); [reflexivity|]. destruct (inner_steps _ _ _ _ _ t _ _ _ _ _ _) as [[l' i']| | | |]; cbn [bind]; try reflexivity. now rewrite IH.
    Qed.
    Lemma categories_close cs : forall i l, categorical_loop d fmt s cs i l = categorical_loop d fmt t cs i l.
    Proof.
      induction cs as [|x cs IH]; intros i l; cbn [categorical_loop]; [reflexivity|]. rewrite (categorical_close _ _ C).
      destruct (translate_categorical _ t i); cbn [bind]; try reflexivity. apply IH.
    Qed.
    Lemma bounds_close n o is : forall l, bounds_loop d s n o is l = bounds_loop d t n o is l.
    Proof.
      induction is as [|i is IH]; intros l; cbn [bounds_loop]; [reflexivity|]. rewrite (categorical_close _ _ C).
      destruct (translate_categorical _ t i); cbn [bind]; try reflexivity. apply IH.
    Qed.
    Lemma placement_close fuel p l :
      run_placement d (w_f W) (w_show W) fmt fuel p s l = run_placement d (w_f W) (w_show W) fmt fuel p t l.
    Proof.
      assert (CT : s_categories s = s_categories t /\ s_padding s = s_padding t) by (destruct C as [(A & _) _]; unfold both_of, kind_of in A; split; congruence).
      destruct CT as [CT PT].
      destruct p; unfold run_placement, layout_linear, layout_align, layout_alignat, layout_interval, layout_exponential, layout_exponential_steps,
        layout_subdivide, layout_categorical, layout_categorical_bounds; rewrite ?(min_close _ _ C), ?(max_close _ _ C), ?(start_close _ _ C), ?CT, ?PT, ?checked_close, ?exp_loop_close,
        ?categories_close, ?bounds_close; try reflexivity.
      - match goal with |- context [to_unsigned 64 ?x] => destruct (to_unsigned 64 x) end; cbn [bind]; try reflexivity. now rewrite steps_close.
      - match goal with |- context [to_unsigned 32 ?x] => destruct (to_unsigned 32 x) as [nd| | | |] end; cbn [bind]; try reflexivity. f_equal. generalize (empty_layout). generalize (seq 0 (S nd)).
        intro q. induction q as [|i q IH]; intro l'; cbn [fold_left]; [reflexivity|]. now rewrite IH, (untranslate_close _ _ C).
    Qed.
  End Layouts.
  Lemma placed_close s t p fm : close s t -> placed W p s fm = placed W p t fm.
  Proof. intro C. unfold placed. now rewrite !(fun f => placement_close s t C f). Qed.
  Lemma call_close s t p fm : close s t -> call_placement W p s fm = call_placement W p t fm.
  Proof. intro C. unfold call_placement. destruct p, fm; try reflexivity. now apply placed_close. Qed.
  Lemma defaults_close s t lab tick : loose s t -> layout_defaults s lab tick = layout_defaults t lab tick.
  Proof.
    intros (A & _). assert (K : s_kind s = s_kind t /\ s_log_base s = s_log_base t) by (unfold both_of, kind_of in A; split; congruence). destruct K as [K L].
    unfold layout_defaults, default_label. now rewrite K, L.
  Qed.
End Scales.
