(** Theorems about unknown commands and options: C85. *)
From Coq Require Import Reals.
From Verif Require Import Base Num Sexpr_Model Dispatch_Model Dispatch_Spec Data_Model Scale_Model Units_Model Color_Model
  Geo_Model Svg_Model Legend_Model Plist_Model Cmd_Model Cmd_Spec Cmd_Proofs Style_Model Plot_Model Axis_Model Eval_Model Eval_Spec Eval_Proofs Eval_Props.
Local Open Scope R_scope.

Lemma run_words {S} (tbl : list (str * cmd S)) (ws : list string) e s s' :
  forallb (fun k => existsb (str_eqb k) (map s_ ws)) (map fst tbl) = true ->
  run tbl e s = Ret s' -> only_words (map s_ ws) e.
Proof.
  intros Q H. unfold only_words. apply run_known in H. eapply Forall_impl; [|exact H]. cbv beta. intros x (k & a & f & O & F). exists k, a. split; [exact O|].
  rewrite forallb_forall in Q. specialize (Q k). apply assoc_In in F. apply (in_map fst) in F. cbn [fst] in F. specialize (Q F).
  apply existsb_exists in Q as (w & I & K). now destruct (str_eqb_spec k w) as [->|].
Qed.
Ltac by_run := match goal with H : run ?t ?e _ = Ret _ |- only_words _ ?e => eapply (run_words t); [vm_compute; reflexivity|exact H] end.

(** C85. Commands with an option that they do not know fail: all elements, axes, grid, legend and
    background. *)
Theorem C85_options : forall (W : world) (E : env) (name : string) (ws : list string) (f : cmd (plot * list draw_command)),
  In (name, ws) option_words -> assoc (s_ name) (draw_table W E) = Some f ->
  forall e s s', f e s = Ret s' -> only_words (map s_ ws) e.
Proof.
  intros W E name ws f I A e s s' H. unfold option_words in I. cbn [In] in I.
  repeat (destruct I as [I|I]; [injection I as <- <-; injection A as <-; unfold shows, shows_and_moves in H; inv_bind H|]); [..|destruct I].
  - unfold lines_draw in A. inv_bind A. unfold lines_configure in A0. inv_bind A0. by_run.
  - unfold points_draw in A. inv_bind A. unfold points_configure in A0. inv_bind A0. by_run.
  - unfold bars_draw in A. inv_bind A. unfold bars_configure in A0. inv_bind A0. by_run.
  - unfold areas_draw in A. inv_bind A. unfold areas_configure in A0. inv_bind A0. by_run.
  - unfold errorbars_draw in A. inv_bind A. unfold err_configure in A0. inv_bind A0. by_run.
  - unfold labels_draw in A. inv_bind A. unfold labels_configure in A0. inv_bind A0. by_run.
  - unfold vectors_draw in A. inv_bind A. unfold vectors_configure in A0. inv_bind A0. by_run.
  - unfold rectangles_draw in A. inv_bind A. unfold rects_configure in A0. inv_bind A0. by_run.
  - unfold polygons_draw in A. inv_bind A. destruct v0 as [c p2]. unfold polys_configure in A0. inv_bind A0. by_run.
  - unfold plot_grid in A. inv_bind A. by_run.
  - unfold legend_cmd in A. inv_bind A. by_run.
  - unfold set_background in A. inv_bind A. by_run.
  - unfold plot_axes in A. inv_bind A. by_run.
Qed.
Print Assumptions C85_options.

(** C85. The same for a whole plot: every command with options in [option_words] has only these. *)
Theorem C85_plot : forall (W : world) (E E' : env) (e : list expr) (out : list draw_command) (x : expr) (name : string) (a : list expr) (ws : list string),
  eval_exprs W E e = Ret (E', out) -> class_of e (s_ "plot") -> In x e -> option_of x = Some (s_ name, a) -> In (name, ws) option_words ->
  only_words (map s_ ws) a.
Proof.
  intros W E E' e out x name a ws H C I O J. destruct (C84_page W E E' e out H) as [_ [[_ P]|[C' _]]].
  2:{ exfalso. unfold class_of, last_or in *. destruct (last_args (s_ "class") e); [rewrite C in C'; discriminate|discriminate]. }
  unfold plot_eval in P. inv_bind P. inv_bind P. clear P A. change (plot_draw W E') with (options (draw_table W E')) in A0.
  assert (D : exists f, assoc (s_ name) (draw_table W E') = Some f).
  { unfold option_words in J. cbn [In] in J. repeat (destruct J as [J|J]; [injection J as <- <-; eexists; reflexivity|]). destruct J. }
  destruct D as [f D]. apply in_split in I as (l1 & l2 & ->). rewrite options_app in A0. inv_bind A0. rewrite options_cons, O, D in A0. inv_bind A0.
  eapply C85_options; eauto.
Qed.
Print Assumptions C85_plot.

(** C85. Items of a legend. *)
Theorem C85_legend_items : forall (W : world) (E : env) (p : plot) (e : list expr) (out : list draw_command) (x : expr) (a : list expr),
  legend_cmd W E p e = Ret out -> In x e -> option_of x = Some (s_ "item", a) -> only_words (map s_ item_words) a.
Proof.
  intros W E p e out x a H I O. unfold legend_cmd in H. inv_bind H. apply in_split in I as (l1 & l2 & ->). rewrite run_app in A. inv_bind A.
  rewrite run_cons, O in A. change (assoc (s_ "item") (legend_table W E)) with (Some (fun e c => let* i := item_configure W E e in Ret (set_k_items (k_items c ++ [i]) c))) in A.
  cbv iota in A. inv_bind A. inv_bind A1. unfold item_configure in A2. by_run.
Qed.
Print Assumptions C85_legend_items.

(** C85. Class draw: only text and rectangle, apart from the settings. *)
Theorem C85_draw : forall (W : world) (E E' : env) (e : list expr) (out : list draw_command),
  eval_exprs W E e = Ret (E', out) -> class_of e (s_ "draw") -> only_words (setting_words ++ [s_ "text"; s_ "rectangle"]) e.
Proof.
  intros W E E' e out H C. destruct (C84_page W E E' e out H) as [_ [[C' _]|(_ & args & D & F)]].
  { exfalso. unfold class_of, last_or in *. destruct (last_args (s_ "class") e); [rewrite C in C'; discriminate|discriminate]. }
  unfold draw_eval in D. apply (run_words _ ["text"; "rectangle"]%string) in D; [|vm_compute; reflexivity].
  rewrite eval_is in H. inv_bind H. inv_bind A. pose proof (options_wf _ _ _ _ A0) as Wf. clear - D F Wf.
  unfold only_words in *. rewrite Forall_forall in *. intros x I. destruct (is_setting x) eqn:S.
  - unfold is_setting in S. destruct (option_of x) as [[k a]|] eqn:O; [|discriminate]. exists k, a. split; [reflexivity|].
    apply existsb_exists in S as (w & J & K). destruct (str_eqb_spec k w) as [->|]; [|discriminate]. apply in_or_app. now left.
  - assert (J : In x (filter (fun x => negb (is_setting x)) e)) by (apply filter_In; split; [exact I|now rewrite S]).
    rewrite <- F in J. apply filter_In in J as [J _]. destruct (D x J) as (k & a & O & K). exists k, a. split; [exact O|]. apply in_or_app. now right.
Qed.
Print Assumptions C85_draw.

(** C85 fails for the commands of a plot: one that is not known is skipped, wherever it stands,
    with everything in it. *)
Lemma options_unknown {S} (tbl : list (str * cmd S)) e1 x e2 k a s : option_of x = Some (k, a) -> assoc k tbl = None ->
  options tbl (e1 ++ x :: e2) s = options tbl (e1 ++ e2) s.
Proof.
  intros O N. rewrite !options_app. destruct (options tbl e1 s); try reflexivity. cbn [bind]. now rewrite options_cons, O, N.
Qed.
Lemma plot_word_unknown W E k : ~ In k (map s_ plot_words) -> assoc k (prepare_table W E) = None /\ assoc k (draw_table W E) = None.
Proof.
  intro N.
  assert (Q : forall T (tbl : list (str * T)), forallb (fun k => existsb (str_eqb k) (map s_ plot_words)) (map fst tbl) = true -> assoc k tbl = None).
  { intros T tbl Q. apply assoc_none_keys. intro I. apply N. rewrite forallb_forall in Q. specialize (Q k I). apply existsb_exists in Q as (w & J & K).
    now destruct (str_eqb_spec k w) as [->|]. }
  split; apply Q; vm_compute; reflexivity.
Qed.
Theorem C85_plot_command_refuted : forall (W : world) (E : env) (e1 e2 : list expr) (x y : expr) (k : str) (a : list expr),
  option_of x = Some (k, a) -> ~ In k (setting_words ++ map s_ plot_words) ->
  (forall z b, In z (e1 ++ e2) -> option_of z = Some (s_ "class", b) -> expr_to_string b = Ret (s_ "plot")) ->
  In y (e1 ++ e2) -> is_setting y = false ->
  eval_exprs W E (e1 ++ x :: e2) = eval_exprs W E (e1 ++ e2).
Proof.
  intros W E e1 e2 x y k a O N C Iy Sy.
  assert (Nk : assoc k (eval_table W) = None) by (apply assoc_none_keys; intro I; apply N, in_or_app; left; exact I).
  assert (Np : ~ In k (map s_ plot_words)) by (intro I; apply N, in_or_app; now right).
  rewrite !eval_is, (options_unknown _ e1 x e2 k a _ O Nk).
  destruct (options (eval_table W) (e1 ++ e2) (E, s_ "plot")) as [[E1 name]| | | |] eqn:Q; try reflexivity. cbn [bind].
  pose proof (options_wf _ _ _ _ Q) as Wf.
  assert (Wf' : well_formed (e1 ++ x :: e2)).
  { unfold well_formed in *. apply Forall_app in Wf as [F1 F2]. apply Forall_app. split; [exact F1|]. constructor; [congruence|exact F2]. }
  assert (Nm : name = s_ "plot").
  { destruct (settings_ok W E _ E1 name Q) as [_ Cl]. unfold class_of, last_or in Cl. destruct (last_args (s_ "class") (e1 ++ e2)) as [b|] eqn:L; [|exact Cl].
    assert (exists z, In z (e1 ++ e2) /\ option_of z = Some (s_ "class", b)) as (z & I & Oz).
    { clear - L. induction (e1 ++ e2) as [|z l IH]; [discriminate|]. cbn [last_args] in L. destruct (last_args (s_ "class") l).
      - destruct (IH L) as (w & I & O). exists w. split; [now right|exact O].
      - exists z. split; [now left|]. destruct (option_of z) as [[k b0]|]; [|discriminate]. destruct (str_eqb_spec k (s_ "class")) as [->|]; [congruence|discriminate]. }
    rewrite (C z b I Oz) in Cl. congruence. }
  subst name. change (assoc (s_ "plot") (modules W)) with (Some (plot_eval W)). change (s_ "plot") with ("p"%char :: s_ "lot"). cbv iota.
  assert (NE : forall l, In y l -> rest (eval_table W) l [] [] <> []).
  { intros l I R. apply rest_nil in R as [_ R]. rewrite filter_ext_knows in R. assert (J : In y (content l)) by (apply filter_In; split; [exact I|now rewrite Sy]). rewrite R in J. destruct J. }
  assert (P : plot_eval W E1 (rest (eval_table W) (e1 ++ x :: e2) [] []) = plot_eval W E1 (rest (eval_table W) (e1 ++ e2) [] [])).
  { rewrite !plot_rest by assumption. destruct (plot_word_unknown W E1 k Np) as [N1 N2]. unfold plot_eval.
    change (plot_prepare W E1) with (options (prepare_table W E1)). change (plot_draw W E1) with (options (draw_table W E1)).
    rewrite (options_unknown _ e1 x e2 k a _ O N1). destruct (options (prepare_table W E1) (e1 ++ e2) plot0); try reflexivity. cbn [bind].
    now rewrite (options_unknown _ e1 x e2 k a _ O N2). }
  pose proof (NE (e1 ++ x :: e2) ltac:(apply in_app_or in Iy; apply in_or_app; cbn [In]; tauto)) as R1. pose proof (NE (e1 ++ e2) Iy) as R2.
  destruct (rest (eval_table W) (e1 ++ x :: e2) [] []) as [|u1 v1]; [congruence|]. destruct (rest (eval_table W) (e1 ++ e2) [] []) as [|u2 v2]; [congruence|].
  now rewrite P.
Qed.
Print Assumptions C85_plot_command_refuted.

(** C85 fails for the command axis: an unknown option is skipped. *)
Theorem C85_axis_refuted : forall (W : world) (E : env) (p : plot) (x : expr) (e : list expr) (k : str) (a : list expr),
  option_of x = Some (k, a) -> k <> s_ "align" -> ~ In k (map fst (axis_table W E)) -> e <> [] ->
  plot_axis W E p (x :: e) = plot_axis W E p e.
Proof.
  intros W E p x e k a O N1 N2 Ne. unfold plot_axis, axis_configure. destruct e as [|y e]; [congruence|].
  assert (Q : forall T (tbl : list (str * cmd T)) s, assoc k tbl = None ->
    (forall U (g : T -> outcome U), (let* (v, _) := run_collect tbl (x :: y :: e) s in g v) = (let* (v, _) := run_collect tbl (y :: e) s in g v))).
  { intros T tbl s K U g. assert (X := options_unknown tbl [] x (y :: e) k a s O K). cbn [app] in X. unfold options in X.
    destruct (run_collect tbl (x :: y :: e) s) as [[v1 u1]| | | |], (run_collect tbl (y :: e) s) as [[v2 u2]| | | |]; cbn [bind] in *; try discriminate; try reflexivity. now injection X as ->. }
  rewrite (Q axis_align [(s_ "align", upd (expr_to_enum align_enum) (fun v _ => v))] AX).
  - destruct (run_collect [(s_ "align", _)] (y :: e) AX) as [[g u]| | | |]; try reflexivity. cbn [bind].
    rewrite (Q axis (axis_table W E) (axis0 W E g scale0)); [reflexivity|]. now apply assoc_none_keys.
  - cbn [assoc]. destruct (str_eqb_spec k (s_ "align")); [congruence|reflexivity].
Qed.
Print Assumptions C85_axis_refuted.

(** The command axis without options throws. *)
Theorem C85_axis_empty_refuted : forall (W : world) (E : env) (p : plot), plot_axis W E p [] = Throw.
Proof. reflexivity. Qed.
Print Assumptions C85_axis_empty_refuted.
