(** Concrete cases for C119. *)
From Coq Require Import Reals Lra.
From Verif Require Import Base Num Sexpr_Model Dispatch_Model Data_Model Scale_Model Units_Model Color_Model Svg_Model Geo_Model Cmd_Model Cmd_Spec Cmd_Proofs
  Style_Model Plot_Model Plot_Spec Axis_Model Eval_Model Eval_Spec Eval_Proofs Eval_Props Demo Eval_Examples Given_Demo Short_Spec Short_Proofs Short_Proofs2 Short_Props.
Local Open Scope string_scope.
Local Open Scope list_scope.

(** (limit-x 0 10) and (limit-x-min 0) (limit-x-max 10), before a background: both accepted. *)
Definition lx : expr := EList [EVal (s_ "limit-x"); EVal (s_ "0"); EVal (s_ "10")].
Definition lxs : list expr := [EList [EVal (s_ "limit-x-min"); EVal (s_ "0")]; EList [EVal (s_ "limit-x-max"); EVal (s_ "10")]].
Example C119_plot_case : exists out, eval_exprs demo demo_env ([] ++ [lx] ++ [back]) = Ret (demo_env, out) /\
  eval_exprs demo demo_env ([] ++ lxs ++ [back]) = Ret (demo_env, out) /\ length out = 1%nat.
Proof.
  assert (A : exists out, eval_exprs demo demo_env ([] ++ [lx] ++ [back]) = Ret (demo_env, out) /\ length out = 1%nat) by (eexists; split; reflexivity).
  destruct A as (out & A & L). exists out. split; [exact A|]. split; [|exact L].
  apply (C119_plot demo demo_env demo_env lx lxs [] [back] out (sf_limit_x "plot" (EVal (s_ "0")) (EVal (s_ "10")) (or_introl eq_refl)) eq_refl), A.
Qed.
(** (margin 10) and the four margins. *)
Definition mg : expr := EList [EVal (s_ "margin"); EVal (s_ "10")].
Definition mgs : list expr := map (fun k => EList [EVal (s_ k); EVal (s_ "10")]) ["margin-top"; "margin-right"; "margin-bottom"; "margin-left"].
Example C119_margin_case : forall E' out, eval_exprs demo demo_env ([] ++ [mg] ++ [back]) = Ret (E', out) <-> eval_exprs demo demo_env ([] ++ mgs ++ [back]) = Ret (E', out).
Proof. intros E' out. apply C119_plot; [|reflexivity]. refine (sf_short "plot" "margin" _ _ _). unfold shorthands. cbn. tauto. Qed.
(** (lines (color "#ff0000") ...) and (lines (stroke-color "#ff0000") (marker-color "#ff0000") ...). *)
Definition red : expr := EList [EVal (s_ "color"); ELit (s_ "#ff0000")].
Definition reds : list expr := map (fun k => EList [EVal (s_ k); ELit (s_ "#ff0000")]) ["stroke-color"; "marker-color"].
Lemma red_stands : stands_for "lines" red reds.
Proof. refine (sf_short "lines" "color" _ _ _). unfold shorthands. cbn. tauto. Qed.
Definition red_dot (o : list expr) : list expr := [lx] ++ EList (EVal (s_ "lines") :: dot_at "1" "1" ++ o ++ []) :: [back].
Example C119_element_case : forall E' out, eval_exprs demo demo_env (red_dot [red]) = Ret (E', out) <-> eval_exprs demo demo_env (red_dot reds) = Ret (E', out).
Proof. intros E' out. apply (C119_element demo demo_env E' "lines" red reds [lx] [back] (dot_at "1" "1") [] out); [unfold drawing_commands; cbn; tauto|exact red_stands|reflexivity]. Qed.
(** Both programs are accepted by lines, and the line and its marker are red. *)
Example C119_red_case : forall o, In o [[red]; reds] -> exists c b g, lines_configure demo demo_env demo_plot (dot_at "1" "1" ++ o) = Ret (c, b, g) /\
  s_color (l_stroke c) = l_mcolor c /\ l_mcolor c <> l_mcolor (lines0 demo demo_env demo_plot).
Proof.
  intros o [<-|[<-|[]]]; do 3 eexists; (split; [reflexivity|]); (split; [reflexivity|]); intro H; apply (f_equal c_r) in H; revert H; cbn; unfold exact, xdiv, xsign_inf; repeat match goal with |- context [Req_EM_T ?a ?b] => destruct (Req_EM_T a b); try lra end; intro H; injection H as H; lra.
Qed.
(** (background (color "#ff0000")) and (background (stroke-color "#ff0000") (fill "#ff0000")): both accepted, the same picture. *)
Definition bg (o : list expr) : list expr := [] ++ EList (EVal (s_ "background") :: [] ++ o ++ []) :: [].
Definition stroke_fill : list expr := map (fun k => EList [EVal (s_ k); ELit (s_ "#ff0000")]) ["stroke-color"; "fill"].
Example C119_background_case : exists out, eval_exprs demo demo_env (bg [red]) = Ret (demo_env, out) /\
  eval_exprs demo demo_env (bg stroke_fill) = Ret (demo_env, out) /\ length out = 1%nat.
Proof.
  assert (A : exists out, eval_exprs demo demo_env (bg [red]) = Ret (demo_env, out) /\ length out = 1%nat) by (eexists; split; reflexivity).
  destruct A as (out & A & L). exists out. split; [exact A|]. split; [|exact L].
  refine (proj1 (C119_element demo demo_env demo_env "background" red stroke_fill [] [] [] [] out _ _ eq_refl) A); [unfold drawing_commands; cbn; tauto|].
  refine (sf_short "background" "color" ["stroke-color"; "fill"] [ELit (s_ "#ff0000")] _). unfold shorthands. cbn. tauto.
Qed.
(** (axes (label-color-x "#ff0000")) and (axes (label-color-top "#ff0000") (label-color-bottom "#ff0000")). *)
Definition lcx : expr := EList [EVal (s_ "label-color-x"); ELit (s_ "#ff0000")].
Definition lcxs : list expr := map (fun k => EList [EVal (s_ k); ELit (s_ "#ff0000")]) ["label-color-top"; "label-color-bottom"].
Definition axed (o : list expr) : list expr := [lx] ++ EList (EVal (s_ "axes") :: [] ++ o ++ []) :: [back].
Lemma lcx_stands : stands_for "axes" lcx lcxs.
Proof. refine (sf_short "axes" "label-color-x" ["label-color-top"; "label-color-bottom"] [ELit (s_ "#ff0000")] _). unfold shorthands. cbn. tauto. Qed.
Example C119_axes_case : forall E' out, eval_exprs demo demo_env (axed [lcx]) = Ret (E', out) <-> eval_exprs demo demo_env (axed lcxs) = Ret (E', out).
Proof. intros E' out. apply (C119_element demo demo_env E' "axes" lcx lcxs [lx] [back] [] [] out); [unfold drawing_commands; cbn; tauto|exact lcx_stands|reflexivity]. Qed.
Example C119_axes_accepted_case : forall o, In o [[lcx]; lcxs] -> exists c, run (axes_table demo demo_env) o (axes0 demo demo_env demo_plot) = Ret c /\
  exists t r b l, x_axes c = [t; r; b; l] /\ a_lcolor t = a_lcolor b /\ a_lcolor r = e_text_color demo_env.
Proof. intros o [<-|[<-|[]]]; eexists; (split; [reflexivity|]); do 4 eexists; repeat split; reflexivity. Qed.
