(** Proofs about axes. *)
From Coq Require Import Reals Lra.
From Verif Require Import Base Num Num_Facts Sexpr_Model Dispatch_Model Dispatch_Spec Data_Model Data_Spec Data_Proofs Scale_Model Scale_Spec Scale_Proofs Scale_Proofs2 Scale_Proofs4 Scale_Props
  Units_Model Color_Model Geo_Model Svg_Model Geojson_Model Format_Model Cmd_Model Cmd_Spec Cmd_Proofs Style_Model Plot_Model Plot_Spec Plot_Proofs Plot_Parts Plot_Loops Axis_Model Axis_Spec.
Local Open Scope R_scope.

Section Marks.
  Variables (W : world) (E : env) (p : plot) (a : axis) (x0 y0 w h : R).
  Hypotheses (X : exact_world W) (C : plot_clip W E p = rect x0 y0 w h).

  Definition length_of : xr := nonzero_or (a_ticklen a) (m_value (from_pt_dpi (w_d W) (Fin 4) (dpi E))).

  Lemma draw_axis_ok horizontal across c0 c1 out : draw_axis W E horizontal a across c0 c1 = Ret out ->
    exists ticks lab texts title lsize,
      call_placement W (a_tickplace a) (a_scale a) (a_lformat a) = Ret ticks /\
      call_placement W (a_lplace a) (a_scale a) (a_lformat a) = Ret lab /\
      axis_layout_labels W E a = Ret lsize /\
      out = draw_line_ (xy horizontal c0 across) (xy horizontal c1 across) (a_border a) ++
            flat_map (fun t => let q := xadd (w_d W) (xsub (w_d W) across length_of)
                 (xdiv (w_d W) (xmul (w_d W) length_of (xadd (w_d W) (clamp11 (a_tickoff a)) (Fin 1))) (Fin 2)) in
                draw_line_ (xy horizontal (along W c0 c1 t) q) (xy horizontal (along W c0 c1 t) (xadd (w_d W) q length_of)) (a_border a)) (positions ticks) ++
            texts ++ title /\
      (exists parts, Forall2 (fun it part => draw_text_ W E (a_lfont a) (a_lsize a) (a_lcolor a) (snd it)
                      (xy horizontal (along W c0 c1 (fst it)) (xadd (w_d W) across (xmul (w_d W) (label_pad W a) (clamp11 (a_loff a)))))
                      (fst (attach_align (a_attach a))) (snd (attach_align (a_attach a))) (a_lrotate a) = Ret part) (ticks_of lab) parts /\ texts = concat parts) /\
      (a_title a = [] -> title = []).
  Proof.
    intro H. unfold draw_axis in H. inv_bind H. inv_bind H. inv_bind H.
    destruct (attach_align (a_attach a)) as [hx vy] eqn:At. inv_bind H. inv_bind H. injection H as <-.
    apply draw_each_ok in A2 as (parts & P & ->).
    exists v, v0, (concat parts), v3, v1. do 3 (split; [assumption|]). split; [reflexivity|]. cbn [fst snd]. split; [eauto|].
    intro T. rewrite T in A3. now injection A3 as <-.
  Qed.
  Lemma along_exact u t len : along W (Fin u) (xadd (w_d W) (Fin u) (Fin len)) (Fin t) = Fin (u + t * len).
  Proof. unfold along. destruct X as [-> _]. unfold xsub, xneg, xadd, xmul, exact. f_equal. ring. Qed.
  Lemma half_exact v : half_ W (Fin v) = Fin (v / 2).
  Proof. unfold half_. destruct X as [-> _]. cbn. unfold exact. f_equal. field. Qed.
  Lemma tick_exact s len o : xadd (w_d W) (xsub (w_d W) (Fin s) (Fin len)) (xdiv (w_d W) (xmul (w_d W) (Fin len) (xadd (w_d W) (Fin o) (Fin 1))) (Fin 2)) =
    Fin (s + tick_start len o).
  Proof.
    destruct X as [-> _]. unfold xsub, xneg, xadd, xmul, xdiv, exact. destruct Req_EM_T; [lra|]. f_equal. unfold tick_start. field.
  Qed.
  Lemma off_exact s u : xadd (w_d W) (Fin s) (Fin u) = Fin (s + u).
  Proof. destruct X as [-> _]. reflexivity. Qed.
  Lemma mul_exact s u : xmul (w_d W) (Fin s) (Fin u) = Fin (s * u).
  Proof. destruct X as [-> _]. reflexivity. Qed.

  Lemma marks_exact out len o lp lo ts us : draw_aligned W E p a = Ret out ->
    length_of = Fin len -> clamp11 (a_tickoff a) = Fin o -> label_pad W a = Fin lp -> clamp11 (a_loff a) = Fin lo ->
    forall ticks lab, call_placement W (a_tickplace a) (a_scale a) (a_lformat a) = Ret ticks ->
    call_placement W (a_lplace a) (a_scale a) (a_lformat a) = Ret lab ->
    positions ticks = map Fin ts -> positions lab = map Fin us ->
    let at_ := on_axis (a_align a) x0 y0 w h in
    exists texts title,
      out = stroke_line (at_ 0 0) (at_ 1 0) (a_border a) ::
            map (fun t => stroke_line (at_ t (tick_start len o)) (at_ t (tick_start len o + len)) (a_border a)) ts ++ texts ++ title /\
      (exists parts, Forall2 (fun it part => draw_text_ W E (a_lfont a) (a_lsize a) (a_lcolor a) (snd it) (at_ (fst it) (lp * lo))
                      (fst (attach_align (a_attach a))) (snd (attach_align (a_attach a))) (a_lrotate a) = Ret part) (combine us (labels lab)) parts /\ texts = concat parts) /\
      (a_title a = [] -> title = []).
  Proof.
    intros H Ln Ov Lp Lo ticks lab T B Pt Pl at_.
    assert (G : forall horizontal across u v, draw_axis W E horizontal a (Fin across) (Fin u) (xadd (w_d W) (Fin u) (Fin v)) = Ret out ->
      (forall t off, at_ t off = xy horizontal (Fin (u + t * v)) (Fin (across + off))) ->
      exists texts title,
      out = stroke_line (at_ 0 0) (at_ 1 0) (a_border a) ::
            map (fun t => stroke_line (at_ t (tick_start len o)) (at_ t (tick_start len o + len)) (a_border a)) ts ++ texts ++ title /\
      (exists parts, Forall2 (fun it part => draw_text_ W E (a_lfont a) (a_lsize a) (a_lcolor a) (snd it) (at_ (fst it) (lp * lo))
                      (fst (attach_align (a_attach a))) (snd (attach_align (a_attach a))) (a_lrotate a) = Ret part) (combine us (labels lab)) parts /\ texts = concat parts) /\
      (a_title a = [] -> title = [])).
    { intros hz across u v D Q. apply draw_axis_ok in D as (ticks' & lab' & texts & title & ls & T' & B' & _ & O & (parts & P1 & P2) & N).
      rewrite T in T'. injection T' as <-. rewrite B in B'. injection B' as <-. rewrite Pt, Ln, Ov in O.
      exists texts, title. split; [|split; [|exact N]].
      - rewrite O. unfold draw_line_ at 1. cbn [app]. f_equal.
        + rewrite !Q. unfold stroke_line. rewrite off_exact. cbn [add_line app]. replace (u + 0 * v) with u by ring. replace (u + 1 * v) with (u + v) by ring. replace (across + 0) with across by ring. reflexivity.
        + f_equal. clear - X Q. induction ts as [|t r IH]; [reflexivity|]. cbn [map flat_map]. rewrite IH, tick_exact, along_exact, off_exact, !Q, Rplus_assoc. reflexivity.
      - exists parts. split; [|exact P2]. unfold ticks_of in P1. rewrite Pl in P1. revert P1. generalize (labels lab) as ls'. clear - Lp Lo Q X.
        intros ls'. revert parts ls'. induction us as [|t r IH]; intros parts [|l ls'] F; cbn [combine map] in *; try (inversion F; constructor; fail).
        inversion F as [|? ? ? ? F1 F2]; subst. constructor; [|now apply IH]. cbn [fst snd] in *. rewrite Lp, Lo, along_exact, mul_exact, off_exact in F1. now rewrite Q. }
    unfold draw_aligned in H. rewrite C in H. cbn [rx ry rw rh rect] in H.
    destruct (a_align a) eqn:Al; rewrite ?half_exact, ?off_exact in H.
    - rewrite <- (off_exact x0 w) in H. apply (G true (y0 + h / 2) x0 w H). unfold at_. intros t off. cbn [on_axis xy]. reflexivity.
    - rewrite <- (off_exact y0 h) in H. apply (G false (x0 + w / 2) y0 h H). reflexivity.
    - rewrite <- (off_exact x0 w) in H. apply (G true (y0 + h) x0 w H). reflexivity.
    - rewrite <- (off_exact y0 h) in H. apply (G false (x0 + w) y0 h H). reflexivity.
    - rewrite <- (off_exact x0 w) in H. apply (G true y0 x0 w H). reflexivity.
    - rewrite <- (off_exact y0 h) in H. apply (G false x0 y0 h H). reflexivity.
  Qed.
End Marks.
