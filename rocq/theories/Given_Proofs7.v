(** Neighbours that only draw change places, when limits may be missing: the ranges follow the
    same data in another order. *)
From Coq Require Import Reals Permutation.
From Verif Require Import Base Num Sexpr_Model Dispatch_Model Data_Model Scale_Model Scale_Proofs Svg_Model Geo_Model Cmd_Model Cmd_Spec Cmd_Proofs
  Style_Model Plot_Model Plot_Spec Axis_Model Eval_Model Eval_Spec Eval_Proofs Order_Proofs7 Range_Spec Range_Proofs Range_Draw Range_Props
  Given_Spec Given_Proofs Given_Proofs5 Given_Proofs6.
Local Open Scope string_scope.
Local Open Scope list_scope.

Section Free.
  Variable W : world.
  Variable E : env.

  (** What a command draws does not depend on what has been drawn. *)
  Definition adds (f : cmd (plot * list draw_command)) : Prop := forall a p o p1 o1, f a (p, o) = Ret (p1, o1) ->
    exists part, o1 = o ++ part /\ forall o', f a (p, o') = Ret (p1, o' ++ part).
  Lemma shows_adds f : adds (shows f).
  Proof.
    intros a p o p1 o1 H. unfold shows in *. cbn [fst snd] in *. apply bind_ret in H. destruct H as (l & H & K). injection K as <- <-. exists l. split; [reflexivity|].
    intro o'. cbn [fst snd]. now rewrite H.
  Qed.
  Lemma moves_adds f : adds (shows_and_moves f).
  Proof.
    intros a p o p1 o1 H. unfold shows_and_moves in *. cbn [fst snd] in *. apply bind_ret in H. destruct H as ([q l] & H & K). injection K as <- <-. exists l. split; [reflexivity|].
    intro o'. cbn [fst snd]. now rewrite H.
  Qed.
  Lemma upd_adds {A} (rd : list expr -> outcome A) (put : A -> plot -> plot) : adds (upd rd (fun v s => (put v (fst s), snd s))).
  Proof.
    intros a p o p1 o1 H. unfold upd in *. cbn [fst snd] in *. apply bind_ret in H. destruct H as (l & H & K). injection K as <- <-. exists []. split; [now rewrite app_nil_r|].
    intro o'. rewrite app_nil_r, H. reflexivity.
  Qed.
  Lemma call_each_adds fs : Forall adds fs -> adds (call_each fs).
  Proof.
    induction 1 as [|f fs F Fs IH]; intros a p o p1 o1 H; cbn [call_each] in *.
    - injection H as <- <-. exists []. split; [now rewrite app_nil_r|]. intro. now rewrite app_nil_r.
    - apply bind_ret in H. destruct H as ([q o2] & H1 & H). destruct (F _ _ _ _ _ H1) as (l & -> & K). destruct (IH _ _ _ _ _ H) as (m & -> & K').
      exists (l ++ m). split; [now rewrite app_assoc|]. intro o'. rewrite K. cbn [bind]. rewrite K', app_assoc. reflexivity.
  Qed.
  Lemma table_adds : Forall (fun kf => adds (snd kf)) (draw_table W E).
  Proof.
    unfold draw_table, margin_entries. cbn [app].
    repeat (apply Forall_cons; [cbn [snd]; first [apply shows_adds | apply moves_adds | idtac]|]); [..|apply Forall_nil].
    - apply call_each_adds. repeat (apply Forall_cons; [match goal with |- adds (upd ?rd _) => idtac end|]); [..|apply Forall_nil].
      all: match goal with |- adds (upd ?rd (fun v s => (set_margins (?g v _) _, _))) => exact (upd_adds rd (fun v p => set_margins (g v (p_margins p)) p)) end.
    - exact (upd_adds (rd_size W E) (fun v p => set_margins (m_top v (p_margins p)) p)).
    - exact (upd_adds (rd_size W E) (fun v p => set_margins (m_right v (p_margins p)) p)).
    - exact (upd_adds (rd_size W E) (fun v p => set_margins (m_bottom v (p_margins p)) p)).
    - exact (upd_adds (rd_size W E) (fun v p => set_margins (m_left v (p_margins p)) p)).
  Qed.
  Lemma program_adds e : forall p o p1 o1, options (draw_table W E) e (p, o) = Ret (p1, o1) ->
    exists part, o1 = o ++ part /\ forall o', options (draw_table W E) e (p, o') = Ret (p1, o' ++ part).
  Proof.
    induction e as [|x e IH]; intros p o p1 o1 H.
    - rewrite options_nil in H. injection H as <- <-. exists []. split; [now rewrite app_nil_r|]. intro. now rewrite options_nil, app_nil_r.
    - rewrite options_cons in H. destruct (option_of x) as [[k a]|] eqn:O; [|discriminate]. destruct (assoc k (draw_table W E)) as [f|] eqn:A.
      + apply bind_ret in H. destruct H as ([q o2] & H1 & H). pose proof table_adds as T. rewrite Forall_forall in T.
        destruct (T _ (assoc_In k _ f A) _ _ _ _ _ H1) as (l & -> & K). destruct (IH _ _ _ _ H) as (m & -> & K').
        exists (l ++ m). split; [now rewrite app_assoc|]. intro o'. cbn [snd] in K. rewrite options_cons, O, A, K. cbn [bind]. rewrite K', app_assoc. reflexivity.
      + destruct (IH _ _ _ _ H) as (m & -> & K'). exists m. split; [reflexivity|]. intro o'. now rewrite options_cons, O, A.
  Qed.
  (** A command that only draws leaves the room as it is. *)
  Lemma drawing_room x p o q o1 : drawing x -> options (draw_table W E) [x] (p, o) = Ret (q, o1) -> p_margins q = p_margins p /\ p_stack q = p_stack p.
  Proof.
    intros (w & a & I & O) H. rewrite options_cons, O in H. destruct (assoc (s_ w) (draw_table W E)) as [f|] eqn:A; [|rewrite options_nil in H; injection H as <- <-; auto].
    apply bind_ret in H. destruct H as ([p1 o2] & H & K). rewrite options_nil in K. injection K as -> ->.
    assert (S : forall g, assoc (s_ w) (draw_table W E) = Some (shows g) -> p_margins q = p_margins p /\ p_stack q = p_stack p).
    { intros g Q. rewrite A in Q. injection Q as ->. unfold shows in H. apply bind_ret in H. destruct H as (l & _ & H). injection H as <- _. auto. }
    unfold drawing_words in I. cbn [In] in I. repeat (destruct I as [<-|I]; [first [exact (S _ eq_refl)|idtac]|]); [|contradiction].
    change (assoc (s_ "polygons") (draw_table W E)) with (Some (shows_and_moves (polygons_draw W E))) in A. injection A as <-.
    unfold shows_and_moves in H. apply bind_ret in H. destruct H as ([q' l] & H & K). injection K as -> _. cbn [fst] in H.
    unfold polygons_draw in H. apply bind_ret in H. destruct H as ([c p2] & H & K). apply bind_ret in K. destruct K as (ps & _ & K). injection K as <- _.
    unfold polys_configure in H. apply bind_ret in H. destruct H as (v & _ & K). injection K as _ <-. auto.
  Qed.

  (** The same data in another order. *)
  Lemma fit_all_perm s vs vs' : Permutation vs vs' -> Forall (fun v => v <> NaN) vs -> h_min s = None -> h_max s = None -> fit_all s vs = fit_all s vs'.
  Proof.
    intros P F A B. rewrite !fit_all_refit, A, B. rewrite (fold_perm Scale_Proofs.low vs vs'), (fold_perm Scale_Proofs.high vs vs'); auto using low_ok, high_ok, low_comm, high_comm; exact I.
  Qed.
  Lemma data_perm ax e e' : Permutation e e' -> forall vs, plot_data W ax e = Ret vs -> exists vs', plot_data W ax e' = Ret vs' /\ Permutation vs vs'.
  Proof.
    induction 1 as [|x e e' P IH|x y e|e e1 e2 P1 IH1 P2 IH2]; intros vs H.
    - exists vs. split; [exact H|apply Permutation_refl].
    - cbn [plot_data] in *. apply bind_ret in H. destruct H as (v & H1 & H). apply bind_ret in H. destruct H as (w & H2 & H). injection H as <-.
      destruct (IH _ H2) as (w' & K & Q). exists (v ++ w'). rewrite H1, K. split; [reflexivity|]. now apply Permutation_app_head.
    - cbn [plot_data] in *. apply bind_ret in H. destruct H as (v & H1 & H). apply bind_ret in H. destruct H as (u & H2 & H). injection H as <-.
      apply bind_ret in H2. destruct H2 as (w & H2 & H3). apply bind_ret in H3. destruct H3 as (t & H3 & K). injection K as <-.
      exists (w ++ v ++ t). rewrite H1, H2, H3. split; [reflexivity|]. rewrite !app_assoc. apply Permutation_app_tail, Permutation_app_comm.
    - destruct (IH1 _ H) as (w & H1 & Q1). destruct (IH2 _ H1) as (u & H2 & Q2). exists u. split; [exact H2|]. eapply Permutation_trans; eauto.
  Qed.
  Lemma drawing_no_scale ax x : drawing x -> forall l s, element_scale W (name ax) (x :: l) s = element_scale W (name ax) l s.
  Proof.
    intros (w & a & I & O) l s. unfold element_scale. rewrite options_cons, O.
    assert (N : assoc (s_ w) (scale_options W (name ax)) = None).
    { unfold drawing_words in I. cbn [In] in I. destruct ax; repeat (destruct I as [<-|I]; [reflexivity|]); contradiction. }
    now rewrite N.
  Qed.
  Lemma swapped_scale ax x y l r s : drawing x -> drawing y -> element_scale W (name ax) (l ++ y :: x :: r) s = element_scale W (name ax) (l ++ x :: y :: r) s.
  Proof.
    intros Dx Dy. unfold element_scale. rewrite !options_app. destruct (options (scale_options W (name ax)) l s) as [t| | | |]; try reflexivity. cbn [bind].
    change (element_scale W (name ax) (y :: x :: r) t = element_scale W (name ax) (x :: y :: r) t). now rewrite !drawing_no_scale.
  Qed.
  Lemma swapped_numeric ax x y l r s : drawing x -> drawing y -> numeric_axis W ax (l ++ x :: y :: r) s -> numeric_axis W ax (l ++ y :: x :: r) s.
  Proof.
    intros Dx Dy N pre post t Q S.
    assert (Z : exists pre' post', l ++ x :: y :: r = pre' ++ post' /\ element_scale W (name ax) pre' s = Ret t).
    { apply app_eq_app in Q. destruct Q as (m & [[-> Q]|[-> Q]]).
      - (* pre is a prefix of l *) exists pre, (m ++ x :: y :: r). split; [now rewrite app_assoc|exact S].
      - destruct m as [|z m]; [exists l, (x :: y :: r); rewrite app_nil_r in S; auto|]. cbn [app] in Q. injection Q as <- Q. destruct m as [|z m].
        + exists l, (x :: y :: r). split; [reflexivity|]. unfold element_scale in *. rewrite options_app in S.
          destruct (options (scale_options W (name ax)) l s) as [u| | | |]; try discriminate. cbn [bind] in S. rewrite <- S.
          symmetry. exact (drawing_no_scale ax y Dy [] u).
        + cbn [app] in Q. injection Q as <- Q. exists (l ++ x :: y :: m), post. split; [rewrite <- app_assoc; cbn [app]; now rewrite Q|].
          now rewrite <- swapped_scale. }
    destruct Z as (pre' & post' & Z & S'). exact (N pre' post' t Z S').
  Qed.
  Lemma plot_eq p q : scale_of X p = scale_of X q -> scale_of Y p = scale_of Y q -> p_margins p = p_margins q -> p_stack p = p_stack q -> p = q.
  Proof. destruct p, q. unfold scale_of, of. cbn. congruence. Qed.
End Free.

Lemma eval_swapped_free W E e1 x y e2 E' out : class_of (e1 ++ x :: y :: e2) (s_ "plot") -> drawing x -> drawing y ->
  (forall ax, numeric_axis W ax (e1 ++ x :: y :: e2) scale0) ->
  (forall ax vs, plot_data W ax (e1 ++ x :: y :: e2) = Ret vs -> Forall (fun v => v <> NaN) vs) ->
  eval_exprs W E (e1 ++ x :: y :: e2) = Ret (E', out) ->
  exists a px py b, out = a ++ px ++ py ++ b /\ eval_exprs W E (e1 ++ y :: x :: e2) = Ret (E', a ++ py ++ px ++ b).
Proof.
  intros Cl Dx Dy Nu Ok H. destruct (eval_plot _ _ _ _ _ Cl H) as (Wf & S & p & q & P & D).
  destruct (prepare_swapped W E' _ _ _ _ _ _ Dx Dy P) as (p' & P' & R).
  assert (K : forall ax, exists s vs, plot_data W ax (e1 ++ x :: y :: e2) = Ret vs /\ scale_of ax p = fit_all s vs /\ scale_of ax p' = fit_all s vs).
  { intro ax. destruct (prepare_data W E' ax _ _ _ scale0 [] P ltac:(destruct ax; reflexivity) (Nu ax)) as (_ & _ & s & vs & B1 & B2 & B3).
    destruct (prepare_data W E' ax _ _ _ scale0 [] P' ltac:(destruct ax; reflexivity) (swapped_numeric W ax x y e1 e2 scale0 Dx Dy (Nu ax))) as (_ & _ & s' & vs' & C1 & C2 & C3).
    rewrite swapped_scale, B1 in C1 by assumption. injection C1 as <-. exists s, vs. split; [exact B2|]. split; [exact B3|]. rewrite C3. cbn [app].
    assert (Pm : Permutation (e1 ++ x :: y :: e2) (e1 ++ y :: x :: e2)) by (apply Permutation_app_head; constructor).
    destruct (data_perm W ax _ _ Pm _ B2) as (w & C & Q). rewrite C2 in C. injection C as <-. symmetry. destruct (option_scale W ax _ _ _ B1) as [U V]. cbn in U, V. apply fit_all_perm; [exact Q|exact (Ok ax vs B2)|exact U|exact V]. }
  destruct (K X) as (sx & vx & DX & FX & FX'), (K Y) as (sy & vy & DY & FY & FY').
  assert (p = p') by (destruct R as (_ & _ & RM & RS); apply plot_eq; congruence). subst p'.
  rewrite options_app in D. apply bind_ret in D. destruct D as ([p1 o1] & D1 & D). change (x :: y :: e2) with ([x] ++ [y] ++ e2) in D.
  rewrite options_app in D. apply bind_ret in D. destruct D as ([p2 o2] & D2 & D). rewrite options_app in D. apply bind_ret in D. destruct D as ([p3 o3] & D3 & D).
  pose proof (data_within W X _ _ DX) as WX. pose proof (data_within W Y _ _ DY) as WY. change (x :: y :: e2) with ([x] ++ [y] ++ e2) in WX, WY.
  apply within_app in WX, WY. destruct WX as [WX1 WX], WY as [WY1 WY]. apply within_app in WX, WY. destruct WX as [WX2 WX], WY as [WY2 WY].
  apply within_app in WX, WY. destruct WX as [WX3 _], WY as [WY3 _].
  pose proof (stage_scale W E' X _ _ _ _ _ D1 WX1 FX) as X1. pose proof (stage_scale W E' Y _ _ _ _ _ D1 WY1 FY) as Y1.
  pose proof (stage_scale W E' X _ _ _ _ _ D2 WX2 X1) as X2. pose proof (stage_scale W E' Y _ _ _ _ _ D2 WY2 Y1) as Y2.
  pose proof (stage_scale W E' X _ _ _ _ _ D3 WX3 X2) as X3. pose proof (stage_scale W E' Y _ _ _ _ _ D3 WY3 Y2) as Y3. cbn [fst] in *.
  destruct (drawing_room W E' x p1 o1 p2 o2 Dx D2) as [M2 S2]. destruct (drawing_room W E' y p2 o2 p3 o3 Dy D3) as [M3 S3].
  assert (p2 = p1) by (apply plot_eq; congruence). assert (p3 = p1) by (apply plot_eq; congruence). subst p2 p3.
  destruct (program_adds W E' _ _ _ _ _ D1) as (a & -> & _). destruct (program_adds W E' _ _ _ _ _ D2) as (px & -> & KX).
  destruct (program_adds W E' _ _ _ _ _ D3) as (py & -> & KY). destruct (program_adds W E' _ _ _ _ _ D) as (b & -> & KB).
  exists a, px, py, b. split; [cbn [app]; now rewrite <- !app_assoc|]. apply (eval_back W _ E E' _ p q).
  - now apply swap_wf.
  - intro C. assert (J : In x (content (e1 ++ y :: x :: e2))).
    { unfold content. apply filter_In. split; [rewrite in_app_iff; cbn [In]; tauto|]. now rewrite (drawing_not_setting x Dx). }
    rewrite C in J. exact J.
  - rewrite !filter_app in *. cbn [filter] in *. rewrite (drawing_not_setting x Dx), (drawing_not_setting y Dy) in *. exact S.
  - exact P'.
  - rewrite options_app, D1. cbn [bind]. change (y :: x :: e2) with ([y] ++ [x] ++ e2). rewrite options_app, KY. cbn [bind]. rewrite options_app, KX. cbn [bind].
    rewrite KB. cbn [app]. now rewrite <- !app_assoc.
Qed.
