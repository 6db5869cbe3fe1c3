(** C119: options that stand for several others. *)
From Coq Require Import Reals.
From Verif Require Import Base Num Sexpr_Model Dispatch_Model Data_Model Scale_Model Svg_Model Cmd_Model Cmd_Spec Cmd_Proofs
  Style_Model Plot_Model Axis_Model Eval_Model Eval_Spec Short_Spec Short_Proofs Short_Proofs2.
Local Open Scope string_scope.
Local Open Scope list_scope.

(** C119. In an element of a plot, an option that stands for several others can be replaced, where
    it stands, by those with the same arguments: if one of the two programs is accepted, so is the
    other, with the same page and the same drawing. *)
Theorem C119_element : forall (W : world) (E E' : env) (elem : string) (x : expr) (xs e1 e2 o1 o2 : list expr) (out : list draw_command),
  let program o := e1 ++ EList (EVal (s_ elem) :: o1 ++ o ++ o2) :: e2 in
  In elem drawing_commands -> stands_for elem x xs -> class_of (program [x]) (s_ "plot") ->
  eval_exprs W E (program [x]) = Ret (E', out) <-> eval_exprs W E (program xs) = Ret (E', out).
Proof. intros W E E' elem x xs e1 e2 o1 o2 out program I R Cl. exact (eval_short W E E' elem x xs e1 e2 o1 o2 out Cl I R). Qed.
Print Assumptions C119_element.

(** The same for the options of the plot itself: margin, limit-x and limit-y. *)
Theorem C119_plot : forall (W : world) (E E' : env) (x : expr) (xs e1 e2 : list expr) (out : list draw_command),
  stands_for "plot" x xs -> class_of (e1 ++ [x] ++ e2) (s_ "plot") ->
  eval_exprs W E (e1 ++ [x] ++ e2) = Ret (E', out) <-> eval_exprs W E (e1 ++ xs ++ e2) = Ret (E', out).
Proof. intros W E E' x xs e1 e2 out R Cl. exact (eval_plot_short W E E' x xs e1 e2 out Cl R). Qed.
Print Assumptions C119_plot.
