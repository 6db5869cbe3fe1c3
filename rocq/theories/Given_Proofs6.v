(** Commands of a plot with given limits do not influence each other: whole programs. *)
From Coq Require Import Reals Lia.
From Verif Require Import Base Num Sexpr_Model Dispatch_Model Data_Model Scale_Model Svg_Model Cmd_Model Cmd_Spec Cmd_Proofs
  Style_Model Plot_Model Axis_Model Eval_Model Eval_Spec Eval_Proofs Eval_Props Order_Proofs7 Given_Spec Given_Proofs Given_Proofs2 Given_Proofs3 Given_Proofs4 Given_Proofs5.
Local Open Scope string_scope.
Local Open Scope list_scope.

Lemma close_sym s t : close s t -> close t s.
Proof. intro C. split; [apply loose_sym, C|exact (close_bounded _ _ C)]. Qed.
Lemma close_trans s t u : close s t -> close t u -> close s u.
Proof. intros [L B] [L' B']. split; [eapply loose_trans; eauto|exact B]. Qed.
Lemma rel_sym p q : relp close p q -> relp close q p.
Proof. intros (A & B & C & D). split; [now apply close_sym|]. split; [now apply close_sym|]. split; congruence. Qed.
Lemma rel_trans p q r : relp close p q -> relp close q r -> relp close p r.
Proof. intros (A & B & C & D) (A' & B' & C' & D'). split; [eapply close_trans; eauto|]. split; [eapply close_trans; eauto|]. split; congruence. Qed.
Lemma lo_sym p q : relp loose p q -> relp loose q p.
Proof. intros (A & B & C & D). split; [now apply loose_sym|]. split; [now apply loose_sym|]. split; congruence. Qed.
Lemma lo_close p q : relp close p p -> relp loose p q -> relp close p q.
Proof. intros ([_ BX] & [_ BY] & _) (A & B & C & D). split; [now split|]. split; [now split|]. split; congruence. Qed.

Section Whole.
  Variable W : world.
  Section Layer.
  Variable E : env.

  Lemma prepare_masked e mask : leaves_drawings mask e -> forall p q p', relp loose p p' -> options (prepare_table W E) e p = Ret q ->
    exists q', options (prepare_table W E) (select mask e) p' = Ret q' /\ relp loose q q'.
  Proof.
    unfold leaves_drawings. induction 1 as [|b x mask e D F IH]; intros p q p' R H.
    - rewrite options_nil in H. injection H as <-. exists p'. split; [apply options_nil|exact R].
    - rewrite options_cons in H. destruct (option_of x) as [[k a]|] eqn:O; [|discriminate]. destruct b; cbn [select].
      + rewrite options_cons, O. destruct (assoc k (prepare_table W E)) as [f|] eqn:A; [|exact (IH _ _ _ R H)].
        apply bind_ret in H. destruct H as (p1 & H1 & H). pose proof (prepare_par W E) as P. unfold par_table in P. rewrite Forall_forall in P.
        pose proof (P _ (assoc_In k _ f A)) as Pf; cbn [snd] in Pf. destruct (Pf _ _ _ _ R H1) as (p2 & R1 & R2). rewrite R1. cbn [bind]. exact (IH _ _ _ R2 H).
      + destruct D as [D|D]; [discriminate|]. pose proof (prepare_drop W E x k a p) as Q.
        destruct (assoc k (prepare_table W E)) as [f|] eqn:A; [|exact (IH _ _ _ R H)]. apply bind_ret in H. destruct H as (p1 & H1 & H).
        apply (IH p1 q p'); [|exact H]. eapply relp_trans; [apply lo_sym, (Q p1 D O H1)|exact R].
  Qed.
  Lemma draw_masked e : forall p o q o1, relp close p p -> options (draw_table W E) e (p, o) = Ret (q, o1) ->
    exists parts, length parts = length e /\ o1 = o ++ concat parts /\
    forall mask, leaves_drawings mask e -> forall p' o', relp close p p' ->
    exists q', options (draw_table W E) (select mask e) (p', o') = Ret (q', o' ++ concat (select mask parts)) /\ relp close q q'.
  Proof.
    induction e as [|x e IH]; intros p o q o1 PP H.
    - rewrite options_nil in H. injection H as <- <-. exists []. split; [reflexivity|]. split; [now rewrite app_nil_r|]. intros mask M p' o' R. inversion M; subst.
      exists p'. cbn. rewrite app_nil_r. split; [reflexivity|exact R].
    - rewrite options_cons in H. destruct (option_of x) as [[k a]|] eqn:O; [|discriminate].
      assert (Step : exists p1 part, relp close p1 p1 /\ options (draw_table W E) e (p1, o ++ part) = Ret (q, o1) /\ (drawing x -> relp close p p1) /\
        forall p' o', relp close p p' -> exists p2, match assoc k (draw_table W E) with Some f => f a (p', o') | None => Ret (p', o') end = Ret (p2, o' ++ part) /\ relp close p1 p2).
      { destruct (assoc k (draw_table W E)) as [f|] eqn:A.
        - apply bind_ret in H. destruct H as ([p1 o2] & H1 & H). pose proof (draw_steps W E) as S. rewrite Forall_forall in S.
          pose proof (S _ (assoc_In k _ f A)) as Sf; cbn [snd] in Sf. destruct (Sf _ _ _ _ _ PP H1) as (part & -> & K). exists p1, part.
          split; [|split; [exact H|split; [|exact K]]].
          + destruct (K p o PP) as (p2 & H2 & R2). rewrite H1 in H2. pose proof (f_equal (fun v => match v with Ret s => fst s | _ => p1 end) H2) as Z. cbn [fst] in Z. now rewrite <- Z in R2.
          + intro D. exact (draw_drop W E x k a f D O A a p o p1 (o ++ part) PP H1).
        - exists p, []. rewrite app_nil_r. split; [exact PP|]. split; [exact H|]. split; [intros _; exact PP|]. intros p' o' R. exists p'. rewrite app_nil_r. auto. }
      destruct Step as (p1 & part & P1 & H1 & D & K). destruct (IH _ _ _ _ P1 H1) as (parts & L & -> & M). exists (part :: parts).
      split; [cbn; now rewrite L|]. split; [cbn [concat]; now rewrite app_assoc|]. intros mask Ms p' o' R. inversion Ms as [|b y m l Hb Hm]; subst. destruct b; cbn [select concat].
      + rewrite options_cons, O. destruct (K p' o' R) as (p2 & H2 & R2). destruct (M m Hm p2 (o' ++ part) R2) as (q' & H3 & R3).
        exists q'. split; [|exact R3]. rewrite app_assoc. destruct (assoc k (draw_table W E)) as [f|]; [rewrite H2; exact H3|]. injection H2 as -> H2. rewrite <- H2 in H3. rewrite <- H2. exact H3.
      + destruct Hb as [Hb|Hb]; [discriminate|]. apply (M m Hm p' o'). eapply rel_trans; [apply rel_sym, D, Hb|exact R].
  Qed.
  End Layer.

  (** Whole programs. *)
  Lemma eval_plot e E E' out : class_of e (s_ "plot") -> eval_exprs W E e = Ret (E', out) ->
    well_formed e /\ options (eval_table W) (filter is_setting e) (E, s_ "plot") = Ret (E', s_ "plot") /\
    exists p q, options (prepare_table W E') e plot0 = Ret p /\ options (draw_table W E') e (p, []) = Ret (q, out).
  Proof.
    intros Cl. rewrite eval_is. intro H. apply bind_ret in H. destruct H as ([[E1 name] args] & H1 & H). apply bind_ret in H1. destruct H1 as ([E2 n2] & H1 & H2).
    injection H2 as <- <- <-. pose proof (options_wf _ _ _ _ H1) as Wf. pose proof (class_plots W E e Cl _ _ H1) as ->. cbv beta iota in H.
    change (assoc (s_ "plot") (modules W)) with (Some (plot_eval W)) in H. cbv iota beta in H. change (s_ "plot") with ("p"%char :: s_ "lot") in H. cbv iota beta in H.
    destruct (rest (eval_table W) e [] []) as [|x a] eqn:Re; [discriminate|]. apply bind_ret in H. destruct H as (l & H & K). injection K as -> ->.
    rewrite <- Re in H. rewrite plot_rest in H by exact Wf. split; [exact Wf|]. split; [now rewrite <- options_settings|].
    unfold plot_eval in H. change (plot_prepare W E') with (options (prepare_table W E')) in H. change (plot_draw W E') with (options (draw_table W E')) in H.
    apply bind_ret in H. destruct H as (p & H & K). apply bind_ret in K. destruct K as ([q o] & K & Z). injection Z as ->. eauto.
  Qed.
  Lemma eval_back e E E' out p q : well_formed e -> content e <> [] -> options (eval_table W) (filter is_setting e) (E, s_ "plot") = Ret (E', s_ "plot") ->
    options (prepare_table W E') e plot0 = Ret p -> options (draw_table W E') e (p, []) = Ret (q, out) -> eval_exprs W E e = Ret (E', out).
  Proof.
    intros Wf Ne S P D. rewrite eval_is, options_settings, S by exact Wf. cbn [bind]. cbv beta iota.
    change (assoc (s_ "plot") (modules W)) with (Some (plot_eval W)). change (s_ "plot") with ("p"%char :: s_ "lot"). cbv iota beta.
    destruct (rest (eval_table W) e [] []) as [|x a] eqn:Re; [exfalso; apply Ne; now apply rest_empty with (W := W)|]. rewrite <- Re, plot_rest by exact Wf.
    unfold plot_eval. change (plot_prepare W E') with (options (prepare_table W E')). change (plot_draw W E') with (options (draw_table W E')). rewrite P. cbn [bind]. rewrite D. reflexivity.
  Qed.
  Lemma drawing_not_setting x : drawing x -> is_setting x = false.
  Proof.
    intros (k & a & I & O). unfold is_setting. rewrite O. unfold drawing_words in I. cbn [In] in I. repeat (destruct I as [<-|I]; [reflexivity|]). contradiction.
  Qed.
  Lemma masked_in mask e x : leaves_drawings mask e -> In x e -> ~ drawing x -> In x (select mask e).
  Proof.
    intros M I N. unfold leaves_drawings in M. induction M as [|b y mask e D F IH]; [contradiction|]. cbn [In] in I. destruct b; cbn [select In].
    - destruct I as [->|I]; auto.
    - destruct D as [D|D]; [discriminate|]. destruct I as [->|I]; [contradiction|auto].
  Qed.
  Lemma select_in mask : forall (e : list expr) x, In x (select mask e) -> In x e.
  Proof. induction mask as [|[] m IH]; intros [|y e] x I; cbn [select In] in *; try contradiction; try tauto; destruct I as [->|I] || idtac; auto. Qed.
  Lemma masked_settings mask e : leaves_drawings mask e -> filter is_setting (select mask e) = filter is_setting e.
  Proof.
    unfold leaves_drawings. induction 1 as [|b x mask e D F IH]; [reflexivity|]. destruct b; cbn [select filter]; [now rewrite IH|].
    destruct D as [D|D]; [discriminate|]. now rewrite (drawing_not_setting x D).
  Qed.
  Lemma given_content e : limits_given e -> content e <> [].
  Proof.
    intros [G _] C. assert (X : exists w x a, (w = "limit-x" \/ w = "limit-x-min") /\ In x e /\ option_of x = Some (s_ w, a)).
    { destruct G as [(x & a & I & O)|[(x & a & I & O) _]]; eauto 8. }
    destruct X as (w & x & a & K & I & O). assert (J : In x (content e)).
    { unfold content. apply filter_In. split; [exact I|]. unfold is_setting. rewrite O. destruct K as [-> | ->]; reflexivity. }
    rewrite C in J. exact J.
  Qed.
  Lemma given_masked mask e : leaves_drawings mask e -> limits_given e -> limits_given (select mask e).
  Proof.
    intros M. assert (K : forall w, existsb (String.eqb w) drawing_words = false -> gives w e -> gives w (select mask e)).
    { intros w N (x & a & I & O). exists x, a. split; [|exact O]. apply masked_in; [exact M|exact I|]. intros (k & b & J & O').
      rewrite O in O'. injection O' as Q _. assert (w = k).
      { apply (f_equal string_of_list_ascii) in Q. unfold s_ in Q. now rewrite !string_of_list_ascii_of_string in Q. }
      subst k. rewrite <- Bool.not_true_iff_false in N. apply N. apply existsb_exists. exists w. split; [exact J|apply String.eqb_refl]. }
    intros [[GX|[GX GX']] [GY|[GY GY']]]; split; first [left; apply K; [reflexivity|assumption]|right; split; apply K; first [reflexivity|assumption]].
  Qed.
  Lemma eval_masked e E E' out : class_of e (s_ "plot") -> limits_given e -> eval_exprs W E e = Ret (E', out) ->
    exists parts, length parts = length e /\ out = concat parts /\
    forall mask, leaves_drawings mask e -> eval_exprs W E (select mask e) = Ret (E', concat (select mask parts)).
  Proof.
    intros Cl G H. destruct (eval_plot _ _ _ _ Cl H) as (Wf & S & p & q & P & D).
    pose proof (prepare_bounded W E' e p G P) as PP. destruct (draw_masked E' e p [] q out PP D) as (parts & L & -> & M). exists parts. split; [exact L|]. split; [reflexivity|].
    intros mask Mk. destruct (prepare_masked E' e mask Mk plot0 p plot0 (relp_refl plot0) P) as (p' & P' & R).
    destruct (M mask Mk p' [] (lo_close _ _ PP R)) as (q' & D' & _). apply (eval_back (select mask e) E E' _ p' q'); [|apply given_content, given_masked; assumption|now rewrite masked_settings|exact P'|exact D'].
    unfold well_formed in *. rewrite Forall_forall in *. intros x I. apply Wf. eapply select_in; eauto.
  Qed.

  (** Neighbours change places. *)
  Lemma prepare_swapped E e1 x y e2 p q : drawing x -> drawing y -> options (prepare_table W E) (e1 ++ x :: y :: e2) p = Ret q ->
    exists q', options (prepare_table W E) (e1 ++ y :: x :: e2) p = Ret q' /\ relp loose q q'.
  Proof.
    intros Dx Dy H. rewrite options_app in H. apply bind_ret in H. destruct H as (p1 & H1 & H). rewrite options_app, H1. cbn [bind].
    assert (One : forall z p r l, drawing z -> options (prepare_table W E) (z :: l) p = Ret r -> exists p2, relp loose p p2 /\ options (prepare_table W E) l p2 = Ret r /\
      forall p', relp loose p p' -> exists p2', relp loose p' p2' /\ forall l', options (prepare_table W E) (z :: l') p' = options (prepare_table W E) l' p2').
    { clear. intros z p r l D H. rewrite options_cons in H. destruct (option_of z) as [[k a]|] eqn:O; [|discriminate]. pose proof (prepare_drop W E z k a) as Q.
      destruct (assoc k (prepare_table W E)) as [f|] eqn:A.
      - apply bind_ret in H. destruct H as (p2 & H1 & H). exists p2. split; [exact (Q p p2 D O H1)|]. split; [exact H|]. intros p' R.
        pose proof (prepare_par W E) as P. unfold par_table in P. rewrite Forall_forall in P. pose proof (P _ (assoc_In k _ f A)) as Pf; cbn [snd] in Pf.
        destruct (Pf _ _ _ _ R H1) as (p2' & R1 & R2). exists p2'. split; [exact (Q p' p2' D O R1)|]. intro l'. rewrite options_cons, O, A, R1. reflexivity.
      - exists p. split; [apply relp_refl|]. split; [exact H|]. intros p' R. exists p'. split; [apply relp_refl|]. intro l'. now rewrite options_cons, O, A. }
    destruct (One x p1 q _ Dx H) as (p2 & R2 & H2 & Kx). destruct (One y p2 q _ Dy H2) as (p3 & R3 & H3 & Ky).
    destruct (Ky p1 (lo_sym _ _ R2)) as (p4 & R4 & K4). rewrite K4. destruct (Kx p4 R4) as (p5 & R5 & K5). rewrite K5.
    assert (M : leaves_drawings (map (fun _ => true) e2) e2) by (unfold leaves_drawings; clear; induction e2; cbn [map]; constructor; auto).
    assert (Sel : select (map (fun _ => true) e2) e2 = e2) by (clear; induction e2 as [|z l IH]; cbn [map select]; congruence).
    destruct (prepare_masked E e2 _ M p3 q p5) as (q' & H' & R'); [|exact H3|rewrite Sel in H'; eauto].
    eapply relp_trans; [apply lo_sym, R3|]. eapply relp_trans; [apply lo_sym, R2|]. eapply relp_trans; [exact R4|exact R5].
  Qed.
  Lemma all_masked {A} (l : list A) : select (map (fun _ => true) l) l = l.
  Proof. induction l as [|z l IH]; cbn [map select]; congruence. Qed.
  Lemma all_leaves e : leaves_drawings (map (fun _ => true) e) e.
  Proof. unfold leaves_drawings. induction e; cbn [map]; constructor; auto. Qed.
  Lemma draw_again E e p o q o1 : relp close p p -> options (draw_table W E) e (p, o) = Ret (q, o1) ->
    exists part, o1 = o ++ part /\ forall p' o', relp close p p' -> exists q', options (draw_table W E) e (p', o') = Ret (q', o' ++ part) /\ relp close q q'.
  Proof.
    intros PP H. destruct (draw_masked E e p o q o1 PP H) as (parts & L & -> & M). exists (concat parts). split; [reflexivity|]. intros p' o' R.
    destruct (M _ (all_leaves e) p' o' R) as (q' & D & R'). rewrite all_masked in D. assert (Sel : select (map (fun _ => true) e) parts = parts).
    { clear -L. revert e L. induction parts as [|z l IH]; intros [|x e] L; cbn [length map select] in *; try discriminate; [reflexivity|]. f_equal. apply IH. now injection L. }
    rewrite Sel in D. eauto.
  Qed.
  Lemma draw_stays E x p o q o1 : drawing x -> relp close p p -> options (draw_table W E) [x] (p, o) = Ret (q, o1) -> relp close p q.
  Proof.
    intros D PP H. rewrite options_cons in H. destruct (option_of x) as [[k a]|] eqn:O; [|discriminate]. destruct (assoc k (draw_table W E)) as [f|] eqn:A.
    - apply bind_ret in H. destruct H as ([p1 o2] & H1 & H). rewrite options_nil in H. injection H as <- <-. exact (draw_drop W E x k a f D O A a p o p1 o2 PP H1).
    - rewrite options_nil in H. injection H as <- <-. exact PP.
  Qed.
  Lemma eval_swapped e1 x y e2 E E' out : class_of (e1 ++ x :: y :: e2) (s_ "plot") -> limits_given (e1 ++ x :: y :: e2) -> drawing x -> drawing y ->
    eval_exprs W E (e1 ++ x :: y :: e2) = Ret (E', out) ->
    exists a px py b, out = a ++ px ++ py ++ b /\ eval_exprs W E (e1 ++ y :: x :: e2) = Ret (E', a ++ py ++ px ++ b).
  Proof.
    intros Cl G Dx Dy H. destruct (eval_plot _ _ _ _ Cl H) as (Wf & S & p & q & P & D).
    pose proof (prepare_bounded W E' _ p G P) as PP. destruct (prepare_swapped E' _ _ _ _ _ _ Dx Dy P) as (p' & P' & R). pose proof (lo_close _ _ PP R) as PR.
    rewrite options_app in D. apply bind_ret in D. destruct D as ([p1 o1] & D1 & D). change (x :: y :: e2) with ([x] ++ [y] ++ e2) in D.
    rewrite options_app in D. apply bind_ret in D. destruct D as ([p2 o2] & D2 & D). rewrite options_app in D. apply bind_ret in D. destruct D as ([p3 o3] & D3 & D).
    destruct (draw_again E' e1 p [] p1 o1 PP D1) as (a & -> & K1). destruct (K1 p [] PP) as (z & Z & P11). rewrite D1 in Z. injection Z as <-.
    destruct (draw_again E' [x] p1 _ p2 o2 P11 D2) as (px & -> & K2). pose proof (draw_stays E' x p1 _ p2 _ Dx P11 D2) as R12.
    assert (P22 : relp close p2 p2) by (eapply rel_trans; [apply rel_sym, R12|exact R12]).
    destruct (draw_again E' [y] p2 _ p3 o3 P22 D3) as (py & -> & K3). pose proof (draw_stays E' y p2 _ p3 _ Dy P22 D3) as R23.
    assert (P33 : relp close p3 p3) by (eapply rel_trans; [apply rel_sym, R23|exact R23]).
    destruct (draw_again E' e2 p3 _ q out P33 D) as (b & -> & K4). exists a, px, py, b. split; [cbn [app]; now rewrite <- !app_assoc|].
    destruct (K1 p' [] PR) as (q1 & Q1 & RQ1). destruct (K3 q1 ([] ++ a) (rel_trans _ _ _ (rel_sym _ _ R12) RQ1)) as (q2 & Q2 & RQ2).
    pose proof (draw_stays E' y q1 _ q2 _ Dy ltac:(eapply rel_trans; [apply rel_sym, RQ1|exact RQ1]) Q2) as S12.
    destruct (K2 q2 (([] ++ a) ++ py) (rel_trans _ _ _ RQ1 S12)) as (q3 & Q3 & RQ3).
    pose proof (draw_stays E' x q2 _ q3 _ Dx ltac:(eapply rel_trans; [apply rel_sym, S12|exact S12]) Q3) as S23.
    destruct (K4 q3 ((([] ++ a) ++ py) ++ px)) as (q4 & Q4 & _).
    { eapply rel_trans; [apply rel_sym, R23|]. eapply rel_trans; [apply rel_sym, R12|]. eapply rel_trans; [exact RQ1|]. eapply rel_trans; [exact S12|exact S23]. }
    apply (eval_back _ E E' _ p' q4).
    - now apply swap_wf.
    - intro C. apply (given_content _ G). unfold content in *. apply (swap_empty (fun x => negb (is_setting x)) e1 x y e2). exact C.
    - rewrite !filter_app in *. cbn [filter] in *. rewrite (drawing_not_setting x Dx), (drawing_not_setting y Dy) in *. exact S.
    - exact P'.
    - rewrite options_app, Q1. cbn [bind]. change (y :: x :: e2) with ([y] ++ [x] ++ e2). rewrite options_app, Q2. cbn [bind]. rewrite options_app, Q3. cbn [bind].
      rewrite Q4. cbn [app]. now rewrite <- !app_assoc.
  Qed.

  (** Any command that only draws, put at a given place. *)
  Lemma eval_inserted e1 e2 E E' out : class_of (e1 ++ e2) (s_ "plot") -> limits_given (e1 ++ e2) -> eval_exprs W E (e1 ++ e2) = Ret (E', out) ->
    exists a b, out = a ++ b /\ forall x E1 o1, drawing x -> class_of (e1 ++ x :: e2) (s_ "plot") -> eval_exprs W E (e1 ++ x :: e2) = Ret (E1, o1) ->
    E1 = E' /\ exists part, o1 = a ++ part ++ b.
  Proof.
    intros Cl G H. destruct (eval_plot _ _ _ _ Cl H) as (Wf & S & p & q & P & D). pose proof (prepare_bounded W E' _ p G P) as PP.
    rewrite options_app in D. apply bind_ret in D. destruct D as ([p1 o0] & D1 & D).
    destruct (draw_again E' e1 p [] p1 o0 PP D1) as (a & -> & K1). destruct (K1 p [] PP) as (z & Z & P11). rewrite D1 in Z. injection Z as <-.
    destruct (draw_again E' e2 p1 _ q out P11 D) as (b & -> & K2). exists a, b. split; [reflexivity|]. intros x E1 o1 Dx Cx Hx.
    destruct (eval_plot _ _ _ _ Cx Hx) as (Wx & Sx & p' & q' & Px & Dr). set (mask := map (fun _ : expr => true) e1 ++ false :: map (fun _ => true) e2).
    assert (Mk : leaves_drawings mask (e1 ++ x :: e2)).
    { unfold leaves_drawings, mask. apply Forall2_app; [apply all_leaves|]. constructor; [now right|apply all_leaves]. }
    assert (Sel : select mask (e1 ++ x :: e2) = e1 ++ e2).
    { unfold mask. clear. induction e1 as [|y e IH]; cbn [map app select]; [apply all_masked|now f_equal]. }
    pose proof (masked_settings _ _ Mk) as Q. rewrite Sel in Q. rewrite <- Q, S in Sx. injection Sx as <-. split; [reflexivity|].
    destruct (prepare_masked E' _ mask Mk plot0 p' plot0 (relp_refl plot0) Px) as (p'' & P'' & R). rewrite Sel, P in P''. injection P'' as <-.
    pose proof (lo_close _ _ PP (lo_sym _ _ R)) as PR. destruct (K1 p' [] PR) as (q1 & Q1 & RQ1).
    rewrite options_app, Q1 in Dr. cbn [bind] in Dr. change (x :: e2) with ([x] ++ e2) in Dr. rewrite options_app in Dr. apply bind_ret in Dr. destruct Dr as ([q2 o2] & Q2 & Dr).
    assert (R11 : relp close q1 q1) by (eapply rel_trans; [apply rel_sym, RQ1|exact RQ1]).
    destruct (draw_again E' [x] q1 _ q2 o2 R11 Q2) as (part & -> & _). pose proof (draw_stays E' x q1 _ q2 _ Dx R11 Q2) as R12.
    destruct (K2 q2 (([] ++ a) ++ part) (rel_trans _ _ _ RQ1 R12)) as (q3 & Q3 & _). rewrite Q3 in Dr. injection Dr as _ <-.
    exists part. cbn [app]. now rewrite <- app_assoc.
  Qed.
End Whole.
