(** Commands of a plot with given limits do not influence each other: any order. *)
From Coq Require Import Reals Permutation.
From Verif Require Import Base Num Sexpr_Model Dispatch_Model Data_Model Scale_Model Svg_Model Cmd_Model Cmd_Spec Cmd_Proofs
  Style_Model Plot_Model Axis_Model Eval_Model Eval_Spec Eval_Proofs Eval_Props Order_Proofs7 Given_Spec Given_Proofs Given_Proofs2 Given_Proofs3 Given_Proofs4 Given_Proofs5 Given_Proofs6.
Local Open Scope string_scope.
Local Open Scope list_scope.

Section Order.
  Variable W : world.
  Section At.
  Variable E : env.
  Lemma prepare_permuted l l' : Permutation l l' -> Forall drawing l -> forall e1 e2 p q, options (prepare_table W E) (e1 ++ l ++ e2) p = Ret q ->
    exists q', options (prepare_table W E) (e1 ++ l' ++ e2) p = Ret q' /\ relp loose q q'.
  Proof.
    induction 1 as [|x l l' P IH|x y l|l l' l'' P IH P' IH']; intros D e1 e2 p q H.
    - exists q. split; [exact H|apply relp_refl].
    - inversion D; subst. cbn [app] in *. replace (e1 ++ x :: l ++ e2) with ((e1 ++ [x]) ++ l ++ e2) in H by now rewrite <- app_assoc.
      destruct (IH ltac:(assumption) _ _ _ _ H) as (q' & H' & R). rewrite <- app_assoc in H'. exists q'. auto.
    - inversion D as [|? ? Dy D']; subst. inversion D'; subst. cbn [app] in *. now apply (prepare_swapped W E e1 y x (l ++ e2)).
    - destruct (IH D _ _ _ _ H) as (q' & H' & R). assert (D' : Forall drawing l') by (eapply Permutation_Forall; eauto).
      destruct (IH' D' _ _ _ _ H') as (q'' & H'' & R'). exists q''. split; [exact H''|]. eapply relp_trans; eauto.
  Qed.

  (** What a command draws in every plot like [p]. *)
  Definition good (p : plot) (x : expr) (part : list draw_command) : Prop := forall p' o', relp close p p' ->
    exists q', options (draw_table W E) [x] (p', o') = Ret (q', o' ++ part) /\ relp close p q'.
  Lemma good_close p p1 x part : relp close p p1 -> good p1 x part -> good p x part.
  Proof.
    intros C G p' o' R. destruct (G p' o') as (q' & H & R'); [eapply rel_trans; [apply rel_sym, C|exact R]|]. exists q'. split; [exact H|]. exact (rel_trans _ _ _ C R').
  Qed.
  Lemma first_part x e p o q o1 : drawing x -> relp close p p -> options (draw_table W E) (x :: e) (p, o) = Ret (q, o1) ->
    exists p1 part, relp close p p1 /\ options (draw_table W E) e (p1, o ++ part) = Ret (q, o1) /\ good p x part.
  Proof.
    intros D PP H. change (x :: e) with ([x] ++ e) in H. rewrite options_app in H. apply bind_ret in H. destruct H as ([p1 o2] & H1 & H).
    destruct (draw_masked W E [x] p o p1 o2 PP H1) as (parts & L & -> & M). destruct parts as [|part [|]]; try discriminate L.
    assert (Yes : leaves_drawings [true] [x]) by (constructor; [now left|constructor]). assert (No : leaves_drawings [false] [x]) by (constructor; [now right|constructor]).
    assert (C : relp close p p1).
    { destruct (M [false] No p o PP) as (q' & K & R). cbn [select] in K. rewrite options_nil in K. injection K as <- _. apply rel_sym, R. }
    exists p1, part. cbn [concat] in H. rewrite app_nil_r in H. split; [exact C|]. split; [exact H|].
    intros p' o' R. destruct (M [true] Yes p' o' R) as (q' & K & R'). cbn [select concat] in K. rewrite app_nil_r in K. exists q'. split; [exact K|].
    exact (rel_trans _ _ _ C R').
  Qed.
  Lemma parts_good l : Forall drawing l -> forall e p o q o1, relp close p p -> options (draw_table W E) (l ++ e) (p, o) = Ret (q, o1) ->
    exists p1 parts, relp close p p1 /\ Forall2 (good p) l parts /\ options (draw_table W E) e (p1, o ++ concat parts) = Ret (q, o1).
  Proof.
    induction 1 as [|x l D F IH]; intros e p o q o1 PP H.
    - exists p, []. cbn [concat]. rewrite app_nil_r. split; [exact PP|]. split; [constructor|exact H].
    - cbn [app] in H. destruct (first_part _ _ _ _ _ _ D PP H) as (p1 & part & C & H1 & G).
      assert (P1 : relp close p1 p1) by (eapply rel_trans; [apply rel_sym, C|exact C]). destruct (IH _ _ _ _ _ P1 H1) as (p2 & parts & C2 & G2 & H2).
      exists p2, (part :: parts). cbn [concat]. rewrite app_assoc. split; [exact (rel_trans _ _ _ C C2)|]. split; [|exact H2]. constructor; [exact G|].
      clear - C G2. induction G2; constructor; eauto using good_close.
  Qed.
  Lemma run_good p ps : Forall (fun xp => good p (fst xp) (snd xp)) ps -> forall p' o', relp close p p' ->
    exists q', options (draw_table W E) (map fst ps) (p', o') = Ret (q', o' ++ concat (map snd ps)) /\ relp close p q'.
  Proof.
    induction 1 as [|[x part] ps G F IH]; intros p' o' R; cbn [map fst snd concat].
    - exists p'. rewrite options_nil, app_nil_r. auto.
    - change (x :: map fst ps) with ([x] ++ map fst ps). rewrite options_app. destruct (G p' o' R) as (q' & H & R'). cbn [fst snd] in H. rewrite H. cbn [bind].
      rewrite app_assoc. apply IH, R'.
  Qed.
  Lemma whole_mask e : leaves_drawings (map (fun _ => true) e) e /\ forall A (l : list A), length l = length e -> select (map (fun _ => true) e) l = l.
  Proof.
    split; [induction e; constructor; auto|]. induction e as [|x e IH]; intros A [|a l] L; try discriminate; [reflexivity|]. cbn [map select]. now rewrite IH by (injection L; auto).
  Qed.
  Lemma draw_close e p o q o1 : relp close p p -> options (draw_table W E) e (p, o) = Ret (q, o1) ->
    exists b, o1 = o ++ b /\ forall p' o', relp close p p' -> exists q', options (draw_table W E) e (p', o') = Ret (q', o' ++ b) /\ relp close q q'.
  Proof.
    intros PP H. destruct (draw_masked W E e p o q o1 PP H) as (parts & L & -> & M). exists (concat parts). split; [reflexivity|]. intros p' o' R.
    destruct (whole_mask e) as [Wm S]. destruct (M _ Wm p' o' R) as (q' & K & R'). rewrite !S in K by auto. eauto.
  Qed.
  End At.

  Lemma drawings_settings l : Forall drawing l -> filter is_setting l = [].
  Proof. induction 1; [reflexivity|]. cbn [filter]. now rewrite drawing_not_setting. Qed.
  Lemma eval_permuted E E' e1 l e2 out : class_of (e1 ++ l ++ e2) (s_ "plot") -> limits_given (e1 ++ l ++ e2) -> Forall drawing l ->
    eval_exprs W E (e1 ++ l ++ e2) = Ret (E', out) ->
    exists a parts b, length parts = length l /\ out = a ++ concat parts ++ b /\
    forall ps, Permutation (combine l parts) ps -> eval_exprs W E (e1 ++ map fst ps ++ e2) = Ret (E', a ++ concat (map snd ps) ++ b).
  Proof.
    intros Cl G D H. destruct (eval_plot W _ _ _ _ Cl H) as (Wf & S & p & q & P & Dr).
    pose proof (prepare_bounded W E' _ p G P) as PP. rewrite options_app in Dr. apply bind_ret in Dr. destruct Dr as ([p1 a] & D1 & Dr).
    destruct (draw_close E' e1 p [] p1 a PP D1) as (a' & -> & K1). cbn [app] in Dr.
    assert (P1 : relp close p1 p1) by (destruct (K1 p [] PP) as (q' & Q1 & R); rewrite D1 in Q1; injection Q1 as <-; exact R).
    destruct (parts_good E' l D e2 p1 a' q out P1 Dr) as (p2 & parts & C2 & G2 & D2).
    assert (P2 : relp close p2 p2) by (eapply rel_trans; [apply rel_sym, C2|exact C2]). destruct (draw_close E' e2 p2 _ q out P2 D2) as (b & -> & K2).
    assert (L : length parts = length l) by (clear - G2; induction G2; cbn; auto).
    exists a', parts, b. split; [exact L|]. split; [now rewrite app_assoc|]. intros ps Pm.
    assert (Pl : Permutation l (map fst ps)).
    { eapply Permutation_trans; [|exact (Permutation_map fst Pm)]. clear - L. revert parts L. induction l as [|x l IH]; intros [|y ps] L; try discriminate; [constructor|]. cbn. constructor. apply IH. now injection L. }
    assert (Gp : Forall (fun xp => good E' p1 (fst xp) (snd xp)) ps).
    { eapply Permutation_Forall; [exact Pm|]. clear - G2. induction G2; constructor; auto. }
    assert (D' : Forall drawing (map fst ps)) by (eapply Permutation_Forall; eauto).
    destruct (prepare_permuted E' l _ Pl D e1 e2 plot0 p P) as (p' & P' & R').
    destruct (K1 p' [] (lo_close _ _ PP R')) as (q1 & Q1 & R1). destruct (run_good E' p1 ps Gp q1 a' R1) as (q2 & Q2 & R2).
    destruct (K2 q2 (a' ++ concat (map snd ps))) as (q3 & Q3 & R3); [eapply rel_trans; [apply rel_sym, C2|exact R2]|].
    assert (I : forall x, In x (e1 ++ l ++ e2) <-> In x (e1 ++ map fst ps ++ e2)).
    { intro x. rewrite !in_app_iff. assert (In x l <-> In x (map fst ps)) by (split; apply Permutation_in; [exact Pl|apply Permutation_sym, Pl]). tauto. }
    apply (eval_back W _ E E' _ p' q3).
    - unfold well_formed in *. rewrite Forall_forall in *. intros x J. apply Wf. now apply I.
    - apply given_content. assert (Gi : forall k, gives k (e1 ++ l ++ e2) -> gives k (e1 ++ map fst ps ++ e2)) by (intros k (x & u & J & O); exists x, u; split; [now apply I|exact O]).
      destruct G as [GX GY]. split; [destruct GX as [GX|[GX GX']]|destruct GY as [GY|[GY GY']]]; auto.
    - rewrite !filter_app in S |- *. rewrite (drawings_settings l D) in S. rewrite (drawings_settings _ D'). exact S.
    - exact P'.
    - rewrite options_app, Q1. cbn [bind app]. rewrite options_app, Q2. cbn [bind]. rewrite Q3. now rewrite app_assoc.
  Qed.
End Order.
