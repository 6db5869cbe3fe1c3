(** Properties of whole plots: automatic ranges (C71), painting order (C83). *)
From Coq Require Import Reals Lra.
From Verif Require Import Base Num Num_Facts Sexpr_Model Dispatch_Model Dispatch_Spec Data_Model Data_Spec Data_Proofs Scale_Model Scale_Spec Scale_Proofs Scale_Proofs2 Scale_Proofs4
  Units_Model Color_Model Geo_Model Svg_Model Geojson_Model Cmd_Model Cmd_Spec Cmd_Proofs Style_Model Plot_Model Plot_Spec Plot_Proofs Plot_Parts Plot_Loops Plot_Props Plot_Inline Axis_Model Eval_Model
  Range_Spec Range_Proofs Range_Draw Demo.
Local Open Scope R_scope.

(* ------------------------------------------------------------------ C83 *)
(** C83. A plot paints its commands in the order they are written: what a command draws stands
    between what the commands before it and those behind it draw, and nothing drawn is changed
    later. *)
Theorem C83_painted_in_order : forall (W : world) (E : env) (pre post : list expr) (x : expr) (k : str) (a : list expr)
    (f : plot -> list expr -> outcome (list draw_command)) (out : list draw_command),
  plot_eval W E (pre ++ x :: post) = Ret out ->
  option_of x = Some (k, a) -> assoc k (drawings W E) = Some f ->
  exists p0 p before own after,
    plot_prepare W E (pre ++ x :: post) plot0 = Ret p0 /\
    plot_draw W E pre (p0, []) = Ret (p, before) /\ f p a = Ret own /\
    out = before ++ own ++ after.
Proof.
  intros W E pre post x k a f out H O F. unfold plot_eval in H. inv_bind H. inv_bind H. injection H as <-.
  exists v. change (plot_draw W E) with (options (draw_table W E)) in *. rewrite options_app in A0. inv_bind A0. rewrite options_cons, O in A0.
  assert (exists g, assoc k (draw_table W E) = Some g) as (g & G).
  { destruct (assoc k (draw_table W E)) eqn:Q; [eauto|]. exfalso. apply assoc_none_keys in Q. apply Q.
    apply assoc_In in F. apply (in_map fst) in F. cbn in F |- *. tauto. }
  rewrite G in A0. inv_bind A0. destruct v1 as [p before]. pose proof (draw_entries W E) as T. rewrite Forall_forall in T. apply assoc_In in G.
  destruct (T _ G _ _ _ A2) as (l & L & D & _). cbn [fst snd] in *. apply stage_appends in A0 as (after & A0).
  exists p, before, l, after. split; [exact A|]. split; [exact A1|]. split; [now apply D|]. now rewrite A0, L, app_assoc.
Qed.
Print Assumptions C83_painted_in_order.

(* ------------------------------------------------------------------ C71 *)
(** C71. The range of an axis of a plot covers all data: the scale of the axis, in the drawing of
    every command, is the scale that the plot's own options give, fitted to the values of all
    elements, also of those that come later. *)
Theorem C71_ranges : forall (W : world) (E : env) (ax : axis_) (pre post : list expr) (out : list draw_command),
  plot_eval W E (pre ++ post) = Ret out -> numeric_axis W ax (pre ++ post) scale0 ->
  exists p0 p before s vs,
    plot_prepare W E (pre ++ post) plot0 = Ret p0 /\ plot_draw W E pre (p0, []) = Ret (p, before) /\
    element_scale W (name ax) (pre ++ post) scale0 = Ret s /\ plot_data W ax (pre ++ post) = Ret vs /\
    scale_of ax p0 = fit_all s vs /\ scale_of ax p = fit_all s vs.
Proof.
  intros W E ax pre post out H N. unfold plot_eval in H. inv_bind H. inv_bind H.
  change (plot_prepare W E) with (options (prepare_table W E)) in A.
  destruct (prepare_data W E ax _ _ _ scale0 [] A ltac:(destruct ax; reflexivity) N) as (_ & _ & s & vs & B1 & B2 & B3).
  cbn [app] in B3. change (plot_draw W E) with (options (draw_table W E)) in *. rewrite options_app in A0. inv_bind A0. destruct v1 as [p before].
  exists v, p, before, s, vs. split; [exact A|]. split; [exact A1|]. split; [exact B1|]. split; [exact B2|]. split; [exact B3|].
  change p with (fst (p, before)). apply (stage_scale W E ax s vs pre (v, []) _ A1); [|exact B3].
  now apply (within_app W ax vs pre post), data_within.
Qed.
Print Assumptions C71_ranges.

(** Without rounding: on a linear axis without limits every value of the data lies between the
    ends of the axis, and, unless all values are equal, at a place of the axis between 0 and 1. *)
Lemma option_scale W ax e s s' : element_scale W (name ax) e s = Ret s' -> h_min s' = h_min s /\ h_max s' = h_max s.
Proof.
  apply (options_rel (scale_options W (name ax)) (fun s s' => h_min s' = h_min s /\ h_max s' = h_max s)); [tauto|intros a b c [] []; split; congruence|].
  intros k f I a t t' H. unfold scale_options in I. cbn [In] in I.
  destruct I as [I|[I|[I|[I|[I|[]]]]]]; injection I as <- <-.
  - now apply (limits_keeps W) in H. - inv_bind H. now injection H as <-. - inv_bind H. now injection H as <-.
  - now apply (kind_keeps W) in H. - inv_bind H. now injection H as <-.
Qed.
Lemma fitted_linear W ax e s pad vs : element_scale W (name ax) e scale0 = Ret s -> free_axis s pad -> 0 <= pad ->
  (exists u v, In u vs /\ In v vs /\ u < v) ->
  exists lo hi, linear_over (fit_all s (map Fin vs)) lo hi /\ Forall (fun v => lo <= v <= hi) vs.
Proof.
  intros S (K & A & B & P) N (u & v & I & J & L). apply option_scale in S as [S1 S2].
  assert (U : unfitted s pad) by (repeat split; assumption).
  destruct (fit_bounds exact exact s pad vs U ltac:(intro; subst; destruct I)) as (lo & hi & (_ & Lo) & (_ & Hi) & E1 & E2).
  unfold exact in E1, E2. exists (lo - pad), (hi + pad). split.
  - split; [now rewrite fit_kind|]. split; [exact E1|]. split; [exact E2|]. specialize (Lo _ I). specialize (Hi _ J). lra.
  - apply Forall_forall. intros w Iw. specialize (Lo _ Iw). specialize (Hi _ Iw). lra.
Qed.
Theorem C71_covers_exact : forall (W : world) (E : env) (ax : axis_) (e : list expr) (p : plot) (s : scale) (pad : R) (vs : list R),
  plot_prepare W E e plot0 = Ret p -> numeric_axis W ax e scale0 ->
  element_scale W (name ax) e scale0 = Ret s -> free_axis s pad -> 0 <= pad ->
  plot_data W ax e = Ret (map Fin vs) -> (exists u v, In u vs /\ In v vs /\ u < v) ->
  exists lo hi, scale_min exact exact (scale_of ax p) = Fin lo /\ scale_max exact exact (scale_of ax p) = Fin hi /\ lo < hi /\
    Forall (fun v => lo <= v <= hi /\ exists q, scale_translate exact exact (scale_of ax p) (Fin v) = Ret (Fin q) /\ 0 <= q <= 1) vs.
Proof.
  intros W E ax e p s pad vs H N S F P D M. change (plot_prepare W E) with (options (prepare_table W E)) in H.
  destruct (prepare_data W E ax e plot0 p scale0 [] H ltac:(destruct ax; reflexivity) N) as (_ & _ & s' & vs' & B1 & B2 & B3).
  rewrite S in B1. injection B1 as <-. rewrite D in B2. injection B2 as <-. cbn [app] in B3. rewrite B3.
  destruct (fitted_linear W ax e s pad vs S F P M) as (lo & hi & L & C). pose proof (linear_translate _ lo hi L) as T.
  destruct L as (K & L1 & L2 & L3). exists lo, hi. split; [exact L1|]. split; [exact L2|]. split; [exact L3|].
  apply Forall_forall. intros v I. rewrite Forall_forall in C. specialize (C v I). split; [exact C|].
  exists (unit_pos (s_inverted (fit_all s (map Fin vs))) lo hi v). split; [apply T|]. apply unit_pos_range; assumption.
Qed.
Print Assumptions C71_covers_exact.

(** In binary arithmetic: every value of the data that is a float lies between the ends. *)
Theorem C71_covers_binary64 : forall (W : world) (E : env) (ax : axis_) (e : list expr) (p : plot) (s : scale) (pad : R) (vs : list R),
  plot_prepare W E e plot0 = Ret p -> numeric_axis W ax e scale0 ->
  element_scale W (name ax) e scale0 = Ret s -> s_min s = None -> s_max s = None -> s_padding s = Fin pad -> 0 <= pad ->
  plot_data W ax e = Ret (map Fin vs) -> Forall is32 vs ->
  forall v, In v vs -> exists lo hi, scale_min rnd64 rnd32 (scale_of ax p) = Fin lo /\ scale_max rnd64 rnd32 (scale_of ax p) = Fin hi /\ lo <= v <= hi.
Proof.
  intros W E ax e p s pad vs H N S A B C P D F v I. change (plot_prepare W E) with (options (prepare_table W E)) in H.
  destruct (prepare_data W E ax e plot0 p scale0 [] H ltac:(destruct ax; reflexivity) N) as (_ & _ & s' & vs' & B1 & B2 & B3).
  rewrite S in B1. injection B1 as <-. rewrite D in B2. injection B2 as <-. cbn [app] in B3. rewrite B3.
  apply option_scale in S as [S1 S2]. apply (fit_covers s pad vs v); auto. repeat split; assumption.
Qed.
Print Assumptions C71_covers_binary64.
