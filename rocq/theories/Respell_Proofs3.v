(** How the values of a data column are written does not matter: whole programs. *)
From Coq Require Import Reals.
From Verif Require Import Base Num Sexpr_Model Dispatch_Model Data_Model Scale_Model Svg_Model Cmd_Model Cmd_Spec Cmd_Proofs
  Style_Model Plot_Model Axis_Model Eval_Model Eval_Spec Eval_Proofs Eval_Props Source_Spec Given_Spec Given_Proofs6 Respell_Spec Respell_Proofs Respell_Proofs2.
Local Open Scope string_scope.
Local Open Scope list_scope.

Section Whole.
  Variable W : world.
  Hypothesis PF : plain_files W.

  Lemma options_respelled {S} (tbl : list (str * cmd S)) :
    (forall k f, In k element_words -> assoc (s_ k) tbl = Some f -> forall o o' s, Forall2 (same_option W) o o' -> f o s = f o' s) ->
    forall e e', respelled W e e' -> forall s, options tbl e s = options tbl e' s.
  Proof.
    intros F e e' R. induction R as [|x x' e e' C R IH]; intro s; [reflexivity|]. rewrite !options_cons.
    destruct C as [->|(k & o & o' & I & -> & -> & O)].
    - destruct (option_of x') as [[k a]|]; [|reflexivity]. destruct (assoc k tbl) as [f|]; [|apply IH]. destruct (f a s); cbn [bind]; auto.
    - destruct (assoc (s_ k) tbl) as [f|] eqn:A; [|apply IH]. rewrite (F k f I A o o' s O). destruct (f o' s); cbn [bind]; auto.
  Qed.
  Lemma prepare_respelled E e e' : respelled W e e' -> forall s, options (prepare_table W E) e s = options (prepare_table W E) e' s.
  Proof.
    apply options_respelled. intros k f I A o o' s O. cbn [element_words In] in I.
    repeat destruct I as [<-|I]; try contradiction; injection A as <-; unfold ranges;
      [apply areas_auto|apply bars_auto|apply err_auto|apply labels_auto|apply lines_auto|apply points_auto|apply rects_auto|apply vectors_auto]; assumption.
  Qed.
  Lemma draw_respelled E e e' : respelled W e e' -> forall s, options (draw_table W E) e s = options (draw_table W E) e' s.
  Proof.
    apply options_respelled. intros k f I A o o' s O. cbn [element_words In] in I.
    repeat destruct I as [<-|I]; try contradiction; injection A as <-; unfold shows;
      [rewrite (areas_draws W E _ o o' PF O)|rewrite (bars_draws W E _ o o' PF O)|rewrite (err_draws W E _ o o' PF O)|rewrite (labels_draws W E _ o o' PF O)
      |rewrite (lines_draws W E _ o o' PF O)|rewrite (points_draws W E _ o o' PF O)|rewrite (rects_draws W E _ o o' PF O)|rewrite (vectors_draws W E _ o o' PF O)]; reflexivity.
  Qed.
  Lemma respelled_shape e e' : respelled W e e' ->
    (well_formed e -> well_formed e') /\ filter is_setting e' = filter is_setting e /\ (e' = e \/ content e' <> []).
  Proof.
    unfold well_formed. induction 1 as [|x x' e e' C R (A & B & D)]; [auto|].
    assert (K : x' = x \/ drawing x /\ drawing x').
    { destruct C as [->|(k & o & o' & I & X & X' & _)]; [now left|right]. assert (J : In k drawing_words) by (cbn [element_words In] in I; cbn [drawing_words In]; tauto).
      split; exists k; eauto. }
    split; [|split].
    - intro F. inversion F; subst. constructor; [|auto]. destruct K as [->|[_ (k & a & _ & ->)]]; [assumption|discriminate].
    - cbn [filter]. destruct K as [->|[X X']]; [now rewrite B|]. now rewrite !drawing_not_setting, B.
    - unfold content in *. destruct K as [->|[X X']].
      + destruct D as [->|D]; [now left|right]. cbn [filter]. destruct (negb (is_setting x)); [discriminate|exact D].
      + right. cbn [filter]. now rewrite drawing_not_setting.
  Qed.
  Lemma eval_respelled E E' e e' out : class_of e (s_ "plot") -> respelled W e e' -> eval_exprs W E e = Ret (E', out) -> eval_exprs W E e' = Ret (E', out).
  Proof.
    intros Cl R H. destruct (respelled_shape e e' R) as (A & B & [->|D]); [exact H|]. destruct (eval_plot W e E E' out Cl H) as (Wf & S & p & q & P & Q).
    apply (eval_back W e' E E' out p q); [auto|exact D|now rewrite B|now rewrite <- (prepare_respelled E' e e' R)|now rewrite <- (draw_respelled E' e e' R)].
  Qed.
End Whole.

Lemma column_sym W a a' : same_column W a a' -> same_column W a' a.
Proof. intros (l & l' & vs & A & B & C & D). exists l', l, vs. auto. Qed.
Lemma option_sym W x x' : same_option W x x' -> same_option W x' x.
Proof. intros [->|(k & a & a' & I & A & B & C)]; [now left|right]. exists k, a', a. auto using column_sym. Qed.
Lemma options_sym W o o' : Forall2 (same_option W) o o' -> Forall2 (same_option W) o' o.
Proof. induction 1; constructor; auto using option_sym. Qed.
Lemma respelled_sym W e e' : respelled W e e' -> respelled W e' e.
Proof.
  induction 1 as [|x x' e e' C R IH]; constructor; [|exact IH]. destruct C as [->|(k & o & o' & I & A & B & O)]; [now left|right].
  exists k, o', o. auto using options_sym.
Qed.
Lemma respelled_class W e e' n : respelled W e e' -> class_of e n -> class_of e' n.
Proof.
  intro R. unfold class_of, last_or. replace (last_args (s_ "class") e') with (last_args (s_ "class") e); [auto|].
  induction R as [|x x' e e' C R IH]; [reflexivity|]. cbn [last_args]. rewrite IH. destruct (last_args (s_ "class") e'); [reflexivity|].
  destruct C as [->|(k & o & o' & I & -> & -> & _)]; [reflexivity|]. cbn [element_words In] in I. repeat (destruct I as [<-|I]; [reflexivity|]). contradiction.
Qed.
Lemma respelled_refl W e : respelled W e e.
Proof. induction e; constructor; auto. now left. Qed.
Lemma respelled_one W e1 x x' e2 : same_command W x x' -> respelled W (e1 ++ x :: e2) (e1 ++ x' :: e2).
Proof. intro C. apply Forall2_app; [apply respelled_refl|]. constructor; [exact C|apply respelled_refl]. Qed.
Lemma options_refl W o : Forall2 (same_option W) o o.
Proof. induction o; constructor; auto. now left. Qed.
