(** Commands of a plot with given limits do not influence each other: both passes. *)
From Coq Require Import Reals.
From Verif Require Import Base Num Sexpr_Model Dispatch_Model Data_Model Scale_Model Svg_Model Cmd_Model Cmd_Spec Cmd_Proofs
  Style_Model Geo_Model Format_Model Plot_Model Axis_Model Eval_Model Given_Spec Given_Proofs Given_Proofs2 Given_Proofs3 Given_Proofs4.
Local Open Scope string_scope.
Local Open Scope list_scope.

Section Passes.
  Variable W : world.
  Variable E : env.
  Notation d := (w_d W).

  (** ---- the first pass ---- *)
  Lemma on_x (rd : cmd scale) : par loose rd -> par (relp loose) (updf p_sx rd set_sx).
  Proof. intro P. apply (par_part _ loose); [exact P|intros s t H; apply H|]. intros v w s t (A & B & C & D) H. repeat split; cbn; auto; try apply H; apply B. Qed.
  Lemma on_y (rd : cmd scale) : par loose rd -> par (relp loose) (updf p_sy rd set_sy).
  Proof. intro P. apply (par_part _ loose); [exact P|intros s t H; apply H|]. intros v w s t (A & B & C & D) H. repeat split; cbn; auto; try apply H; apply A. Qed.
  Lemma fitted_par f : fitted_kept f -> par (relp loose) (ranges f).
  Proof. intros F a s t v R H. destruct (F _ _ _ _ R H) as (_ & w & Hw & K). eauto. Qed.
  Definition range_words : list (str * (plot -> list expr -> outcome plot)) :=
    [(s_ "areas", areas_autorange W E); (s_ "bars", bars_autorange W E); (s_ "errorbars", errorbars_autorange W E);
     (s_ "labels", labels_autorange W E); (s_ "lines", lines_autorange W E); (s_ "points", points_autorange W E);
     (s_ "polygons", polygons_autorange W E); (s_ "rectangles", rectangles_autorange W E); (s_ "vectors", vectors_autorange W E)].
  Lemma ranges_fit : Forall (fun e => fitted_kept (snd e)) range_words.
  Proof.
    unfold range_words.
    apply Forall_cons; [apply areas_fit|]. apply Forall_cons; [apply bars_fit|]. apply Forall_cons; [apply errorbars_fit|].
    apply Forall_cons; [apply labels_fit|]. apply Forall_cons; [apply lines_fit|]. apply Forall_cons; [apply points_fit|].
    apply Forall_cons; [apply polygons_fit|]. apply Forall_cons; [apply rectangles_fit|]. apply Forall_cons; [apply vectors_fit|]. apply Forall_nil.
  Qed.
  Lemma prepare_is : prepare_table W E = scale_entries W p_sx p_sy set_sx set_sy ++ map (fun e => (fst e, ranges (snd e))) range_words.
  Proof. reflexivity. Qed.
  Lemma prepare_par : par_table (relp loose) (prepare_table W E).
  Proof.
    rewrite prepare_is. apply Forall_app. split.
    - unfold scale_entries. pose proof (kept_loose W) as K.
      repeat (apply Forall_cons; [cbn [snd]; first [apply on_x|apply on_y]; first [apply (k_limits W _ K)|apply (k_kind W _ K)|apply (k_min W _ K)|apply (k_max W _ K)|apply (k_padding W _ K)]|]).
      apply Forall_nil.
    - apply Forall_map. eapply Forall_impl; [|exact ranges_fit]. intros e H. cbn [snd]. now apply fitted_par.
  Qed.
  (** A command that only draws changes nothing but the ranges. *)
  Lemma prepare_drop x k a p q : drawing x -> option_of x = Some (k, a) ->
    (match assoc k (prepare_table W E) with Some f => f a p | None => Ret p end) = Ret q -> relp loose p q.
  Proof.
    intros (w & b & I & O) O' H. rewrite O in O'. injection O' as <- <-.
    assert (F : forall f, fitted_kept f -> f p b = Ret q -> relp loose p q) by (intros f F Q; exact (proj1 (F p p b q (relp_refl p) Q))).
    unfold drawing_words in I. cbn [In] in I.
    destruct I as [<-|I]; [exact (F _ (areas_fit W E) H)|]. destruct I as [<-|I]; [exact (F _ (bars_fit W E) H)|].
    destruct I as [<-|I]; [exact (F _ (errorbars_fit W E) H)|]. destruct I as [<-|I]; [exact (F _ (labels_fit W E) H)|].
    destruct I as [<-|I]; [exact (F _ (lines_fit W E) H)|]. destruct I as [<-|I]; [exact (F _ (points_fit W E) H)|].
    destruct I as [<-|I]; [exact (F _ (polygons_fit W E) H)|]. destruct I as [<-|I]; [exact (F _ (rectangles_fit W E) H)|].
    destruct I as [<-|I]; [exact (F _ (vectors_fit W E) H)|].
    repeat (destruct I as [<-|I]; [injection H as <-; apply relp_refl|]). contradiction.
  Qed.

  (** ---- limits that are given stay given ---- *)
  Definition saves (P : plot -> Prop) (f : cmd plot) : Prop := forall a s v, f a s = Ret v -> P s -> P v.
  Lemma saves_options P tbl e : Forall (fun x => saves P (snd x)) tbl -> forall s v, options tbl e s = Ret v -> P s -> P v.
  Proof.
    intro T. rewrite Forall_forall in T. induction e as [|x e IH]; intros s v H Ps.
    - rewrite options_nil in H. now injection H as <-.
    - rewrite options_cons in H. destruct (option_of x) as [[k a]|]; [|discriminate]. destruct (assoc k tbl) as [f|] eqn:F; [|eauto].
      apply bind_ret in H. destruct H as (s1 & H1 & H). apply (IH s1 v H). exact (T _ (assoc_In k tbl f F) _ _ _ H1 Ps).
  Qed.
  Lemma sets_options P tbl k f e : Forall (fun x => saves P (snd x)) tbl -> assoc (s_ k) tbl = Some f -> (forall a s v, f a s = Ret v -> P v) ->
    gives k e -> forall s v, options tbl e s = Ret v -> P v.
  Proof.
    intros T A F (x & a & I & O) s v H. apply in_split in I. destruct I as (e1 & e2 & ->). rewrite options_app in H. apply bind_ret in H. destruct H as (s1 & _ & H).
    rewrite options_cons, O, A in H. apply bind_ret in H. destruct H as (s2 & H1 & H). exact (saves_options P tbl e2 T _ _ H (F _ _ _ H1)).
  Qed.
  Lemma limits_bounded a s v : rd_limits W a s = Ret v -> s_min v <> None /\ s_max v <> None.
  Proof. apply limits_set. Qed.
  Lemma prepare_saves (P : plot -> Prop) : (forall p q, relp loose p q -> P p -> P q) ->
    (forall rd : cmd scale, In rd [rd_limits W; rd_kind W; (fun e s => let* v := rd_float W e in Ret (with_min v s));
       (fun e s => let* v := rd_float W e in Ret (with_max v s)); (fun e s => let* v := rd_float W e in Ret (with_padding v s))] ->
       saves P (updf p_sx rd set_sx) /\ saves P (updf p_sy rd set_sy)) ->
    Forall (fun x => saves P (snd x)) (prepare_table W E).
  Proof.
    intros L S. rewrite prepare_is. apply Forall_app. split.
    - unfold scale_entries. repeat (apply Forall_cons; [cbn [snd]; apply S; cbn [In]; tauto|]). apply Forall_nil.
    - apply Forall_map. eapply Forall_impl; [|exact ranges_fit]. intros [n f] F a s v H. cbn [snd] in *. apply L. exact (proj1 (F s s a v (relp_refl s) H)).
  Qed.
  Definition lowx (p : plot) : Prop := s_min (p_sx p) <> None.
  Definition highx (p : plot) : Prop := s_max (p_sx p) <> None.
  Definition lowy (p : plot) : Prop := s_min (p_sy p) <> None.
  Definition highy (p : plot) : Prop := s_max (p_sy p) <> None.
  Ltac readers := intros rd I; cbn [In] in I; split; intros a s v H; unfold updf in H; apply bind_ret in H; destruct H as (w & H & Q); injection Q as <-;
    unfold lowx, highx, lowy, highy; cbn [p_sx p_sy set_sx set_sy]; let Y := fresh in intro Y; first [assumption|
    destruct I as [<-|[<-|[<-|[<-|[<-|[]]]]]];
    [ apply limits_set in H; apply H | apply kind_stays in H; destruct H as [H1 H2]; congruence
    | apply float_set in H; destruct H as (z & ->); cbn; first [discriminate|assumption]
    | apply float_set in H; destruct H as (z & ->); cbn; first [discriminate|assumption]
    | apply float_set in H; destruct H as (z & ->); cbn; assumption ]].
  Lemma saves_lowx : Forall (fun x => saves lowx (snd x)) (prepare_table W E).
  Proof. apply prepare_saves; [intros p q ((_ & A & _) & _); unfold lowx; now rewrite A|readers]. Qed.
  Lemma saves_highx : Forall (fun x => saves highx (snd x)) (prepare_table W E).
  Proof. apply prepare_saves; [intros p q ((_ & _ & A) & _); unfold highx; now rewrite A|readers]. Qed.
  Lemma saves_lowy : Forall (fun x => saves lowy (snd x)) (prepare_table W E).
  Proof. apply prepare_saves; [intros p q (_ & (_ & A & _) & _); unfold lowy; now rewrite A|readers]. Qed.
  Lemma saves_highy : Forall (fun x => saves highy (snd x)) (prepare_table W E).
  Proof. apply prepare_saves; [intros p q (_ & (_ & _ & A) & _); unfold highy; now rewrite A|readers]. Qed.
  Ltac opened H := unfold updf in H; apply bind_ret in H; let w := fresh "w" in let Q := fresh "Q" in destruct H as (w & H & Q); injection Q as <-.
  Lemma prepare_bounded e p : limits_given e -> options (prepare_table W E) e plot0 = Ret p -> relp close p p.
  Proof.
    intros [GX GY] H.
    assert (X : lowx p /\ highx p).
    { destruct GX as [G|[G1 G2]].
      - split; (eapply (sets_options _ _ "limit-x"); [first [exact saves_lowx|exact saves_highx]|reflexivity| |exact G|exact H]);
          intros a s v Q; opened Q; apply limits_set in Q; apply Q.
      - split; [apply (sets_options _ _ "limit-x-min" _ e saves_lowx eq_refl) with (s := plot0); [|exact G1|exact H]
               |apply (sets_options _ _ "limit-x-max" _ e saves_highx eq_refl) with (s := plot0); [|exact G2|exact H]];
          intros a s v Q; opened Q; apply float_set in Q; destruct Q as (z & ->); discriminate. }
    assert (Y : lowy p /\ highy p).
    { destruct GY as [G|[G1 G2]].
      - split; (eapply (sets_options _ _ "limit-y"); [first [exact saves_lowy|exact saves_highy]|reflexivity| |exact G|exact H]);
          intros a s v Q; opened Q; apply limits_set in Q; apply Q.
      - split; [apply (sets_options _ _ "limit-y-min" _ e saves_lowy eq_refl) with (s := plot0); [|exact G1|exact H]
               |apply (sets_options _ _ "limit-y-max" _ e saves_highy eq_refl) with (s := plot0); [|exact G2|exact H]];
          intros a s v Q; opened Q; apply float_set in Q; destruct Q as (z & ->); discriminate. }
    split; [split; [apply loose_refl|exact X]|]. split; [split; [apply loose_refl|exact Y]|]. split; reflexivity.
  Qed.

  (** ---- the second pass ---- *)
  Definition steps (f : cmd (plot * list draw_command)) : Prop :=
    forall a p o q o1, relp close p p -> f a (p, o) = Ret (q, o1) ->
    exists part, o1 = o ++ part /\ forall p' o', relp close p p' -> exists q', f a (p', o') = Ret (q', o' ++ part) /\ relp close q q'.
  Definition stays_put (f : cmd (plot * list draw_command)) : Prop :=
    forall a p o q o1, relp close p p -> f a (p, o) = Ret (q, o1) -> relp close p q.
  Lemma shows_steps f : kept_shown f -> steps (shows f) /\ stays_put (shows f).
  Proof.
    intro K. split; intros a p o q o1 PP H; unfold shows in H; cbn [fst snd] in H; apply bind_ret in H; destruct H as (l & H & Q); injection Q as <- <-; [|exact PP].
    exists l. split; [reflexivity|]. intros p' o' PQ. exists p'. split; [|exact PQ]. unfold shows. cbn [fst snd]. now rewrite (K _ _ _ _ PQ H).
  Qed.
  Lemma clip_kept (f : plot -> list expr -> outcome (list draw_command)) :
    (forall p q e, plot_clip W E p = plot_clip W E q -> f p e = f q e) -> kept_shown f.
  Proof. intros K p q e v PQ H. now rewrite <- (K p q e (same_clip W E _ _ _ PQ)). Qed.
  Lemma axis_steps : kept_shown (plot_axis W E).
  Proof. apply clip_kept. intros p q e K. unfold plot_axis, draw_aligned. now rewrite K. Qed.
  Lemma background_steps : kept_shown (set_background W E).
  Proof. apply clip_kept. intros p q e K. unfold set_background. now rewrite K. Qed.
  Lemma legend_steps : kept_shown (legend_cmd W E).
  Proof. apply clip_kept. intros p q e K. unfold legend_cmd. now rewrite K. Qed.
  Lemma polygons_steps : steps (shows_and_moves (polygons_draw W E)) /\ stays_put (shows_and_moves (polygons_draw W E)).
  Proof.
    split; intros a p o q o1 PP H; unfold shows_and_moves in H; cbn [fst snd] in H; apply bind_ret in H; destruct H as ([p1 l] & H & Q); injection Q as <- <-.
    - exists l. split; [reflexivity|]. intros p' o' PQ. destruct (polygons_shown W E p p' a p1 l PQ H) as (_ & q1 & H' & PQ1).
      exists q1. split; [|exact PQ1]. unfold shows_and_moves. cbn [fst snd]. now rewrite H'.
    - exact (proj1 (polygons_shown W E p p a p1 l PP H)).
  Qed.
  Lemma axes_steps : steps (shows_and_moves (plot_axes W E)).
  Proof.
    intros a p o q o1 PP H; unfold shows_and_moves in H; cbn [fst snd] in H; apply bind_ret in H; destruct H as ([p1 l] & H & Q); injection Q as <- <-.
    exists l. split; [reflexivity|]. intros p' o' PQ. destruct (axes_shown W E p p' a p1 l PQ H) as (_ & q1 & H' & PQ1).
    exists q1. split; [|exact PQ1]. unfold shows_and_moves. cbn [fst snd]. now rewrite H'.
  Qed.
  Definition plot_rel (s t : plot * list draw_command) : Prop := relp close (fst s) (fst t).
  Lemma margin_part st : forall a p o q o1, upd (rd_size W E) (fun v (s : plot * list draw_command) => (set_margins (st v (p_margins (fst s))) (fst s), snd s)) a (p, o) = Ret (q, o1) ->
    o1 = o /\ forall p' o', relp close p p' -> exists q', upd (rd_size W E) (fun v (s : plot * list draw_command) => (set_margins (st v (p_margins (fst s))) (fst s), snd s)) a (p', o') = Ret (q', o') /\ relp close q q'.
  Proof.
    intros a p o q o1 H. unfold upd in *. apply bind_ret in H. destruct H as (v & H & Q). injection Q as <- <-. split; [reflexivity|].
    intros p' o' PQ. rewrite H. cbn [bind fst snd]. eexists. split; [reflexivity|]. destruct PQ as (A & B & C & D). split; [exact A|]. split; [exact B|]. split; [cbn; now rewrite C|exact D].
  Qed.
  Definition quiet (f : cmd (plot * list draw_command)) : Prop :=
    forall a p o q o1, f a (p, o) = Ret (q, o1) -> o1 = o /\ forall p' o', relp close p p' -> exists q', f a (p', o') = Ret (q', o') /\ relp close q q'.
  Lemma quiet_steps f : quiet f -> steps f.
  Proof.
    intros Q a p o q o1 PP H. destruct (Q _ _ _ _ _ H) as [-> K]. exists []. split; [now rewrite app_nil_r|]. intros p' o' PQ. rewrite app_nil_r. auto.
  Qed.
  Lemma quiet_each fs : Forall quiet fs -> quiet (call_each fs).
  Proof.
    induction 1 as [|f fs Q F IH]; intros a p o q o1 H; cbn [call_each] in *.
    - injection H as <- <-. split; [reflexivity|]. eauto.
    - apply bind_ret in H. destruct H as ([p1 o2] & H1 & H). destruct (Q _ _ _ _ _ H1) as [-> K1]. destruct (IH _ _ _ _ _ H) as [-> K2]. split; [reflexivity|].
      intros p' o' PQ. destruct (K1 p' o' PQ) as (p2 & R1 & PQ1). destruct (K2 p2 o' PQ1) as (q2 & R2 & PQ2). exists q2. rewrite R1. cbn [bind]. auto.
  Qed.
  Lemma draw_steps : Forall (fun e => steps (snd e)) (draw_table W E).
  Proof.
    unfold draw_table. apply Forall_app. split.
    - unfold margin_entries. cbv zeta.
      apply Forall_cons; [cbn [snd]; apply quiet_steps, quiet_each; repeat (apply Forall_cons; [exact (margin_part _)|]); apply Forall_nil|].
      repeat (apply Forall_cons; [cbn [snd]; apply quiet_steps; exact (margin_part _)|]). apply Forall_nil.
    - apply Forall_cons; [exact axes_steps|].
      apply Forall_cons; [exact (proj1 (shows_steps _ axis_steps))|]. apply Forall_cons; [exact (proj1 (shows_steps _ (grid_shown W E)))|].
      apply Forall_cons; [exact (proj1 (shows_steps _ background_steps))|]. apply Forall_cons; [exact (proj1 (shows_steps _ legend_steps))|].
      apply Forall_cons; [exact (proj1 (shows_steps _ (areas_shown W E)))|]. apply Forall_cons; [exact (proj1 (shows_steps _ (bars_shown W E)))|].
      apply Forall_cons; [exact (proj1 (shows_steps _ (errorbars_shown W E)))|]. apply Forall_cons; [exact (proj1 (shows_steps _ (labels_shown W E)))|].
      apply Forall_cons; [exact (proj1 (shows_steps _ (lines_shown W E)))|]. apply Forall_cons; [exact (proj1 (shows_steps _ (points_shown W E)))|].
      apply Forall_cons; [exact (proj1 polygons_steps)|]. apply Forall_cons; [exact (proj1 (shows_steps _ (rectangles_shown W E)))|].
      apply Forall_cons; [exact (proj1 (shows_steps _ (vectors_shown W E)))|]. apply Forall_nil.
  Qed.
  Lemma draw_drop x k a f : drawing x -> option_of x = Some (k, a) -> assoc k (draw_table W E) = Some f -> stays_put f.
  Proof.
    intros (w & b & I & O) O' H. rewrite O in O'. injection O' as <- <-. unfold drawing_words in I. cbn [In] in I.
    assert (K : forall g, assoc (s_ w) (draw_table W E) = Some g -> stays_put g -> stays_put f) by (intros g Q S; rewrite H in Q; now injection Q as ->).
    destruct I as [<-|I]; [exact (K _ eq_refl (proj2 (shows_steps _ (areas_shown W E))))|].
    destruct I as [<-|I]; [exact (K _ eq_refl (proj2 (shows_steps _ (bars_shown W E))))|].
    destruct I as [<-|I]; [exact (K _ eq_refl (proj2 (shows_steps _ (errorbars_shown W E))))|].
    destruct I as [<-|I]; [exact (K _ eq_refl (proj2 (shows_steps _ (labels_shown W E))))|].
    destruct I as [<-|I]; [exact (K _ eq_refl (proj2 (shows_steps _ (lines_shown W E))))|].
    destruct I as [<-|I]; [exact (K _ eq_refl (proj2 (shows_steps _ (points_shown W E))))|].
    destruct I as [<-|I]; [exact (K _ eq_refl (proj2 polygons_steps))|].
    destruct I as [<-|I]; [exact (K _ eq_refl (proj2 (shows_steps _ (rectangles_shown W E))))|].
    destruct I as [<-|I]; [exact (K _ eq_refl (proj2 (shows_steps _ (vectors_shown W E))))|].
    destruct I as [<-|I]; [exact (K _ eq_refl (proj2 (shows_steps _ axis_steps)))|].
    destruct I as [<-|I]; [exact (K _ eq_refl (proj2 (shows_steps _ (grid_shown W E))))|].
    destruct I as [<-|I]; [exact (K _ eq_refl (proj2 (shows_steps _ background_steps)))|].
    destruct I as [<-|I]; [exact (K _ eq_refl (proj2 (shows_steps _ legend_steps)))|]. contradiction.
  Qed.
End Passes.
