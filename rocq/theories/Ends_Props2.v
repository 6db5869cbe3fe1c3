(** C114: cases, and what happens outside its conditions. *)
From Coq Require Import Reals Lra Lia.
From Verif Require Import Base Num Sexpr_Model Dispatch_Model Data_Model Scale_Model Scale_Proofs Scale_Props
  Units_Model Color_Model Geo_Model Svg_Model Plist_Model Cmd_Model Cmd_Spec Cmd_Proofs Style_Model Plot_Model
  Axis_Model Eval_Model Eval_Spec Eval_Proofs Plot_Spec Safe_Spec Safe_Proofs Ends_Spec Ends_Props Demo Safe_Props2.
Local Open Scope R_scope.

(** A chart with an axis, a grid, bars over named categories and a legend. *)
Definition chart : str :=
  s_ "size: 1024px 512px; axes { label-placement-x: subdivide(4); label-format-y: fixed(2); tick-placement-left: none; limit-x: 0 10; } grid { tick-placement-x: subdivide(8); } bars { scale-x: categorical(a b); data-x: a b; data-y: 3 4; } legend { item { label: one; color: red; } }".
Definition chart_program : list expr :=
  Eval vm_compute in match plist_parse chart with Ret e => e | _ => [] end.
Lemma chart_parsed : plist_parse chart = Ret chart_program.
Proof. vm_compute. reflexivity. Qed.

Ltac each_of I := cbn [In] in I; repeat (destruct I as [<-|I]); [..|destruct I].
Ltac not_start := let r := fresh in intros [[r D]|[r D]]; discriminate D.
Lemma chart_modest : modest demo chart_program.
Proof.
  split.
  - intros w I L. apply in_map_iff in L. destruct L as (x & <- & L).
    assert (N : existsb (fun a => existsb (fun b => str_eqb (s_ b) a) ["labels"; "gradient"; "vectors"; "log"; "logarithmic"]%string)
      (flat_map atoms chart_program) = false) by (vm_compute; reflexivity).
    assert (Y : existsb (fun a => existsb (fun b => str_eqb (s_ b) a) ["labels"; "gradient"; "vectors"; "log"; "logarithmic"]%string)
      (flat_map atoms chart_program) = true); [|congruence].
    apply existsb_exists. exists (s_ x). split; [exact I|]. apply existsb_exists. exists x. split; [exact L|]. now destruct (str_eqb_spec (s_ x) (s_ x)).
  - repeat (apply Forall_cons; [cbv; repeat split; try discriminate|]). apply Forall_nil.
  - intros l k args I O. vm_compute in I. each_of I; cbn in O; injection O as <- <-; (split; [intros [[r D]|[r D]]; try discriminate D|intros [r D]; try discriminate D]).
    all: try (right; right; eexists _, _; split; [reflexivity|]; split; [left; reflexivity|]; exists 4, 1%nat; split; [reflexivity|lra]).
    all: try (right; right; eexists _, _; split; [reflexivity|]; split; [left; reflexivity|]; exists 8, 1%nat; split; [reflexivity|lra]).
    all: try (left; eexists; split; [reflexivity|left; reflexivity]).
    right. right. left. eexists _, _; split; [reflexivity|]; split; [left; reflexivity|]; exists 2, 1%nat; split; [reflexivity|lra].
  - intros S. exfalso. unfold says in S. vm_compute in S. repeat (destruct S as [S|S]; [discriminate S|]). exact S.
  - intros path I. vm_compute in I. each_of I; split; discriminate.
Qed.
Theorem C114_text_case : defined (eval_text demo demo_env chart).
Proof.
  apply C114_text; [exact demo_tame|exact demo_counts|]. intros e Q. rewrite chart_parsed in Q. injection Q as <-.
  split; [exact chart_modest|]. eexists. split; [right; left; reflexivity|reflexivity].
Qed.
Print Assumptions C114_text_case.

(** ---- what is left out ---- *)
(** A program of settings alone has undefined behaviour: a null pointer is dereferenced. *)
Theorem C114_settings_only_refuted : forall (W : world) (E E' : env) (e : list expr) (class : string),
  Forall (fun x => is_setting x = true) e -> In class ["plot"; "draw"]%string ->
  options (eval_table W) e (E, s_ "plot") = Ret (E', s_ class) ->
  eval_exprs W E e = UB.
Proof.
  intros W E E' e class F C O. rewrite eval_is, O. cbn [bind].
  assert (N : rest (eval_table W) e [] [] = []).
  { apply rest_none. apply forallb_forall. intros x I. rewrite eval_knows. rewrite Forall_forall in F. now apply F. }
  rewrite N. destruct C as [<-|[<-|[]]]; reflexivity.
Qed.
Print Assumptions C114_settings_only_refuted.
Theorem C114_settings_case : forall (W : world) (E : env), eval_text W E (s_ "class: plot;") = UB.
Proof. reflexivity. Qed.
Print Assumptions C114_settings_case.

(** The same world with any bound on the steps of a loop. *)
Definition bounded (n : nat) : world :=
  mk_world exact exact demo_stod (fun _ => []) demo_is_number demo_files (fun _ _ => []) (fun l => l) (fun l => l)
    (fun _ f => Ret f) (fun _ _ _ _ pos _ _ _ => Ret [[MoveTo pos]]) (fun _ _ _ _ => Ret (rect 0 0 10 10)) n.
(** Ticks with the step 0 are never all placed. *)
Definition stuck : str := s_ "grid { limit-x: 0 10; tick-placement-x: linear-interval(0 5 5); }".
Theorem C114_ticks_refuted : forall (n : nat) (E : env), eval_text (bounded n) E stuck = Diverge.
Proof.
  intros n E. unfold eval_text.
  let r := eval vm_compute in (plist_parse stuck) in change (plist_parse stuck) with r. cbn [bind].
  unfold eval_exprs, run_collect. rewrite collect_is.
  match goal with |- context [options ?t ?e ?s] => let r := eval hnf in (options t e s) in change (options t e s) with r end. cbn [bind].
  match goal with |- context [rest ?t ?e ?s ?u] => let r := eval hnf in (rest t e s u) in change (rest t e s u) with r end. cbn [app].
  match goal with |- match _ with [] => _ | _ :: _ => match _ with Some m => let* l := m E ?e in _ | None => _ end end = _ =>
    change (bind (plot_eval (bounded n) E e) (fun l => Ret (E, l)) = Diverge);
    assert (P : plot_eval (bounded n) E e = Diverge); [|rewrite P; reflexivity] end.
  unfold plot_eval, plot_prepare, run_collect. rewrite collect_is.
  match goal with |- context [options ?t ?e ?s] => change (options t e s) with (Ret s) end. cbn [bind].
  unfold plot_draw, run_collect. rewrite collect_is. rewrite options_cons. cbn [option_of].
  match goal with |- context [assoc ?k ?t] => change (assoc k t) with (Some (shows (plot_grid (bounded n) E))) end. cbn iota.
  unfold shows. cbn [fst].
  match goal with |- context [plot_grid ?w ?e ?p ?a] => assert (G : plot_grid w e p a = Diverge); [|rewrite G; reflexivity] end.
  unfold plot_grid.
  match goal with |- context [run ?t ?e ?s] => let r := eval hnf in (run t e s) in change (run t e s) with r end. cbn [bind].
  set (s := with_max (Fin 10) (with_min (Fin 0) scale0)).
  match goal with |- context [call_placement ?w ?o ?sc ?f] => change (call_placement w o sc f) with (placed w (PInterval (Fin 0) (Fin 5) (Fin 5)) s Format_Model.format_noop) end.
  unfold placed. rewrite (C25_zero_step_refuted _ _ s 0 10 5); [reflexivity|discriminate|..].
  - unfold scale_min, s. cbn. unfold exact. f_equal; lra.
  - unfold scale_max, s. cbn. unfold exact. f_equal; lra.
  - lra.
Qed.
Print Assumptions C114_ticks_refuted.
