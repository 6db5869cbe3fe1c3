(** Options about different things can be exchanged: whole programs. *)
From Coq Require Import Reals Permutation.
From Verif Require Import Base Num Sexpr_Model Dispatch_Model Data_Model Scale_Model Units_Model Svg_Model Legend_Model Cmd_Model Cmd_Spec Cmd_Proofs
  Style_Model Plot_Model Axis_Model Eval_Model Eval_Spec Eval_Proofs Eval_Props Order_Spec Order_Proofs Order_Proofs2 Order_Proofs3 Order_Proofs4 Order_Proofs5 Order_Proofs6.
Local Open Scope string_scope.
Local Open Scope list_scope.

Section Programs.
  Variable W : world.

  (** Two commands that do the same to every state. *)
  Definition alike {S} (tbl : list (str * cmd S)) (x x' : expr) : Prop :=
    exists k a a', option_of x = Some (k, a) /\ option_of x' = Some (k, a') /\
      match assoc k tbl with Some f => forall s v, f a s = Ret v <-> f a' s = Ret v | None => True end.
  Lemma options_alike {S} (tbl : list (str * cmd S)) l x x' r s v : alike tbl x x' ->
    options tbl (l ++ x :: r) s = Ret v <-> options tbl (l ++ x' :: r) s = Ret v.
  Proof.
    intros (k & a & a' & O & O' & H). rewrite !options_app. apply bind_iff2. intro t. rewrite !options_cons, O, O'.
    destruct (assoc k tbl) as [f|]; [|tauto]. apply bind_iff. intro u. apply H.
  Qed.
  Lemma shows_iff f p e e' : (forall p v, f p e = Ret v <-> f p e' = Ret v) -> forall v, shows f e p = Ret v <-> shows f e' p = Ret v.
  Proof. intros H v. unfold shows. apply bind_iff. intro. apply H. Qed.
  Lemma moves_iff f p e e' : (forall p v, f p e = Ret v <-> f p e' = Ret v) -> forall v, shows_and_moves f e p = Ret v <-> shows_and_moves f e' p = Ret v.
  Proof. intros H v. unfold shows_and_moves. apply bind_iff. intro. apply H. Qed.

  Definition same_here E (c : string) (o o' : list expr) : Prop :=
    match assoc (s_ c) (prepare_table W E) with Some f => forall s v, f o s = Ret v <-> f o' s = Ret v | None => True end /\
    match assoc (s_ c) (draw_table W E) with Some f => forall s v, f o s = Ret v <-> f o' s = Ret v | None => True end.
  Lemma here E c o o' f g : assoc (s_ c) (prepare_table W E) = f -> assoc (s_ c) (draw_table W E) = g ->
    match f with Some f => forall s v, f o s = Ret v <-> f o' s = Ret v | None => True end ->
    match g with Some f => forall s v, f o s = Ret v <-> f o' s = Ret v | None => True end -> same_here E c o o'.
  Proof. intros F G Hf Hg. unfold same_here. rewrite F, G. auto. Qed.
  Lemma in_commands E c T o o' : In (c, T) commands -> reordered T o o' -> same_here E c o o'.
  Proof.
    intros I R. unfold commands in I. cbn [In] in I.
    destruct I as [I|I].
    { injection I as <- <-. apply (here E _ _ _ (Some (ranges (lines_autorange W E))) (Some (shows (lines_draw W E)))); [reflexivity|reflexivity| |].
      - intros s v. apply (lines_cmd W E s _ _ R).
      - intros s v. apply shows_iff. intros p u. apply (lines_cmd W E p _ _ R). }
    destruct I as [I|I].
    { injection I as <- <-. apply (here E _ _ _ (Some (ranges (points_autorange W E))) (Some (shows (points_draw W E)))); [reflexivity|reflexivity| |].
      - intros s v. apply (points_cmd W E s _ _ R).
      - intros s v. apply shows_iff. intros p u. apply (points_cmd W E p _ _ R). }
    destruct I as [I|I].
    { injection I as <- <-. apply (here E _ _ _ (Some (ranges (bars_autorange W E))) (Some (shows (bars_draw W E)))); [reflexivity|reflexivity| |].
      - intros s v. apply (bars_cmd W E s _ _ R).
      - intros s v. apply shows_iff. intros p u. apply (bars_cmd W E p _ _ R). }
    destruct I as [I|I].
    { injection I as <- <-. apply (here E _ _ _ (Some (ranges (areas_autorange W E))) (Some (shows (areas_draw W E)))); [reflexivity|reflexivity| |].
      - intros s v. apply (areas_cmd W E s _ _ R).
      - intros s v. apply shows_iff. intros p u. apply (areas_cmd W E p _ _ R). }
    destruct I as [I|I].
    { injection I as <- <-. apply (here E _ _ _ (Some (ranges (errorbars_autorange W E))) (Some (shows (errorbars_draw W E)))); [reflexivity|reflexivity| |].
      - intros s v. apply (errorbars_cmd W E s _ _ R).
      - intros s v. apply shows_iff. intros p u. apply (errorbars_cmd W E p _ _ R). }
    destruct I as [I|I].
    { injection I as <- <-. apply (here E _ _ _ (Some (ranges (labels_autorange W E))) (Some (shows (labels_draw W E)))); [reflexivity|reflexivity| |].
      - intros s v. apply (labels_cmd W E s _ _ R).
      - intros s v. apply shows_iff. intros p u. apply (labels_cmd W E p _ _ R). }
    destruct I as [I|I].
    { injection I as <- <-. apply (here E _ _ _ (Some (ranges (vectors_autorange W E))) (Some (shows (vectors_draw W E)))); [reflexivity|reflexivity| |].
      - intros s v. apply (vectors_cmd W E s _ _ R).
      - intros s v. apply shows_iff. intros p u. apply (vectors_cmd W E p _ _ R). }
    destruct I as [I|I].
    { injection I as <- <-. apply (here E _ _ _ (Some (ranges (rectangles_autorange W E))) (Some (shows (rectangles_draw W E)))); [reflexivity|reflexivity| |].
      - intros s v. apply (rectangles_cmd W E s _ _ R).
      - intros s v. apply shows_iff. intros p u. apply (rectangles_cmd W E p _ _ R). }
    destruct I as [I|I].
    { injection I as <- <-. apply (here E _ _ _ (Some (ranges (polygons_autorange W E))) (Some (shows_and_moves (polygons_draw W E)))); [reflexivity|reflexivity| |].
      - intros s v. apply (polygons_cmd W E s _ _ R).
      - intros s v. apply moves_iff. intros p u. apply (polygons_cmd W E p _ _ R). }
    destruct I as [I|I].
    { injection I as <- <-. apply (here E _ _ _ None (Some (shows (plot_grid W E)))); [reflexivity|reflexivity|exact Logic.I|].
      intros s v. apply shows_iff. intros p u. apply (grid_cmd W E p _ _ R). }
    destruct I as [I|I].
    { injection I as <- <-. apply (here E _ _ _ None (Some (shows (plot_axis W E)))); [reflexivity|reflexivity|exact Logic.I|].
      intros s v. apply shows_iff. intros p u. apply (axis_cmd W E p _ _ R). }
    destruct I as [I|I].
    { injection I as <- <-. apply (here E _ _ _ None (Some (shows_and_moves (plot_axes W E)))); [reflexivity|reflexivity|exact Logic.I|].
      intros s v. apply moves_iff. intros p u. apply (axes_cmd W E p _ _ R). }
    destruct I as [I|I].
    { injection I as <- <-. apply (here E _ _ _ None (Some (shows (set_background W E)))); [reflexivity|reflexivity|exact Logic.I|].
      intros s v. apply shows_iff. intros p u. apply (background_cmd W E p _ _ R). }
    destruct I as [I|I].
    { injection I as <- <-. apply (here E _ _ _ None (Some (shows (legend_cmd W E)))); [reflexivity|reflexivity|exact Logic.I|].
      intros s v. apply shows_iff. intros p u. apply (legend_cmd_ W E p _ _ R). }
    contradiction.
  Qed.
  Lemma legend_item E l r i i' o o' : option_of i = Some (s_ "item", o) -> option_of i' = Some (s_ "item", o') -> reordered about_item o o' ->
    same_here E "legend" (l ++ i :: r) (l ++ i' :: r).
  Proof.
    intros O O' R. apply (here E _ _ _ None (Some (shows (legend_cmd W E)))); [reflexivity|reflexivity|exact Logic.I|].
    intros s v. apply shows_iff. intros p u. unfold legend_cmd. apply bind_iff. intro c. rewrite !run_app. apply bind_iff2. intro t.
    rewrite !run_cons, O, O'.
    change (assoc (s_ "item") (legend_table W E)) with (Some (fun e c => let* i := item_configure W E e in Ret (set_k_items (k_items c ++ [i]) c))).
    cbv beta iota. apply bind_iff; intro. apply bind_iff; intro. apply (item_cmd W E _ _ R).
  Qed.
  Lemma is_plot_word c T : In (c, T) commands -> existsb (str_eqb (s_ c)) setting_words = false.
  Proof.
    intro I. unfold commands in I. cbn [In] in I.
    repeat (destruct I as [I|I]; [injection I as <- _; reflexivity|]). contradiction.
  Qed.
  Lemma same_command_is x x' : same_command x x' -> is_setting x = false /\ is_setting x' = false /\
    forall E, alike (prepare_table W E) x x' /\ alike (draw_table W E) x x'.
  Proof.
    intros [y y' c T o o' O O' I R|y y' i i' l r o o' O O' Oi Oi' R].
    - unfold is_setting. rewrite O, O'. pose proof (is_plot_word _ _ I) as N. repeat split; auto; destruct (in_commands E c T o o' I R) as [H1 H2]; exists (s_ c), o, o'; auto.
    - unfold is_setting. rewrite O, O'. split; [reflexivity|]. split; [reflexivity|]. intro E. destruct (legend_item E l r i i' o o' Oi Oi' R) as [H1 H2].
      split; exists (s_ "legend"), (l ++ i :: r), (l ++ i' :: r); auto.
  Qed.

  Lemma of_page_is x : of_page x <-> is_setting x = true.
  Proof.
    unfold of_page, is_setting. split.
    - intros (k & a & t & -> & H). unfold about_page in H. cbn [topics_of] in H. unfold setting_words. cbn [existsb].
      repeat match type of H with (if ?c then _ else _) = _ => destruct c; cbn [orb]; [reflexivity|] end. discriminate.
    - destruct (option_of x) as [[k a]|] eqn:O; [|discriminate]. intro H. unfold setting_words in H. cbn [existsb] in H. exists k, a.
      unfold about_page. cbn [topics_of].
      repeat match type of H with orb ?c _ = true => destruct c; cbn [orb] in H; [eexists; split; reflexivity|] end. discriminate.
  Qed.
  Lemma plot_not_setting x k a t : option_of x = Some (k, a) -> topics_of about_plot k = Some t -> is_setting x = false.
  Proof.
    intros O H. unfold is_setting. rewrite O. destruct (existsb _ _) eqn:Ex; [|reflexivity]. exfalso. apply existsb_exists in Ex. destruct Ex as (w & I & K).
    destruct (str_eqb_spec k w) as [->|]; [|discriminate]. unfold setting_words in I. cbn [In] in I.
    repeat (destruct I as [<-|I]; [discriminate H|]). contradiction.
  Qed.

  (** What it takes for two programs to be the same. *)
  Record same (e e' : list expr) : Prop := mk_same {
    s_wf : well_formed e <-> well_formed e';
    s_set : forall s v, options (eval_table W) (filter is_setting e) s = Ret v <-> options (eval_table W) (filter is_setting e') s = Ret v;
    s_empty : content e = [] <-> content e' = [];
    s_prep : forall E s v, options (prepare_table W E) (content e) s = Ret v <-> options (prepare_table W E) (content e') s = Ret v;
    s_draw : forall E s v, options (draw_table W E) (content e) s = Ret v <-> options (draw_table W E) (content e') s = Ret v }.
  Lemma wf_perm e e' : Permutation e e' -> well_formed e -> well_formed e'.
  Proof. unfold well_formed. intros P F. eapply Permutation_Forall; eauto. Qed.
  Lemma swap_wf l x y r : well_formed (l ++ x :: y :: r) <-> well_formed (l ++ y :: x :: r).
  Proof. split; apply wf_perm, Permutation_app_head; constructor. Qed.
  Lemma swap_empty (f : expr -> bool) l x y r : filter f (l ++ x :: y :: r) = [] <-> filter f (l ++ y :: x :: r) = [].
  Proof.
    rewrite !filter_app. cbn [filter]. destruct (f x), (f y); try tauto; split; intro H; apply app_eq_nil in H; destruct H; discriminate.
  Qed.
  Lemma same_refl e : same e e.
  Proof. split; intros; tauto. Qed.
  Lemma same_sym e e' : same e e' -> same e' e.
  Proof. intros [A B C D F]. split; intros; symmetry; auto. Qed.
  Lemma same_trans a b c : same a b -> same b c -> same a c.
  Proof.
    intros [A B C D F] [A' B' C' D' F']. split; intros.
    - now rewrite A. - now rewrite B. - now rewrite C. - now rewrite D. - now rewrite F.
  Qed.
  Lemma program_is e e' : same_program e e' -> same e e'.
  Proof.
    induction 1 as [l|l x y r P N|l x y r Ap|l x y r Ap|l x x' r C|a b _ IH|a b c _ IH1 _ IH2].
    - apply same_refl.
    - apply of_page_is in P. assert (N' : is_setting y = false) by (destruct (is_setting y) eqn:Y; [exfalso; apply N, of_page_is, Y|reflexivity]).
      assert (F1 : filter is_setting (l ++ x :: y :: r) = filter is_setting (l ++ y :: x :: r)).
      { rewrite !filter_app. cbn [filter]. now rewrite P, N'. }
      assert (F2 : content (l ++ x :: y :: r) = content (l ++ y :: x :: r)).
      { unfold content. rewrite !filter_app. cbn [filter]. now rewrite P, N'. }
      split; [apply swap_wf|rewrite F1; tauto|rewrite F2; tauto|rewrite F2; tauto|rewrite F2; tauto].
    - destruct Ap as (kx & ax & ky & ay & tx & ty & O1 & O2 & T1 & T2 & D).
      assert (P : is_setting x = true) by (apply of_page_is; exists kx, ax, tx; auto).
      assert (P' : is_setting y = true) by (apply of_page_is; exists ky, ay, ty; auto).
      assert (F2 : content (l ++ x :: y :: r) = content (l ++ y :: x :: r)).
      { unfold content. rewrite !filter_app. cbn [filter]. now rewrite P, P'. }
      split; [apply swap_wf| |rewrite F2; tauto|rewrite F2; tauto|rewrite F2; tauto].
      rewrite !filter_app. cbn [filter]. rewrite P, P'. apply (options_reordered page_views about_page _ page_whole (page_owned W)). apply ro_swap. exists kx, ax, ky, ay, tx, ty. auto.
    - assert (Ap' := Ap). destruct Ap' as (kx & ax & ky & ay & tx & ty & O1 & O2 & T1 & T2 & D).
      pose proof (plot_not_setting _ _ _ _ O1 T1) as P. pose proof (plot_not_setting _ _ _ _ O2 T2) as P'.
      assert (F1 : filter is_setting (l ++ x :: y :: r) = filter is_setting (l ++ y :: x :: r)).
      { rewrite !filter_app. cbn [filter]. now rewrite P, P'. }
      split; [apply swap_wf|rewrite F1; tauto|apply swap_empty| |];
      intro E; unfold content; rewrite !filter_app; cbn [filter]; rewrite P, P'; cbn [negb].
      + apply (options_reordered plot_views about_plot _ prepare_whole (prepare_owned W E)). now apply ro_swap.
      + apply (options_reordered draw_views about_plot _ draw_whole (draw_owned W E)). now apply ro_swap.
    - destruct (same_command_is x x' C) as (P & P' & AL).
      assert (F1 : filter is_setting (l ++ x :: r) = filter is_setting (l ++ x' :: r)).
      { rewrite !filter_app. cbn [filter]. now rewrite P, P'. }
      split; [|rewrite F1; tauto| | |].
      + assert (X : (option_of x <> None) /\ (option_of x' <> None)).
        { destruct C as [? ? ? ? ? ? O O' _ _|? ? ? ? ? ? ? ? O O' _ _ _]; rewrite O, O'; split; discriminate. }
        unfold well_formed. rewrite !Forall_app, !Forall_cons_iff. tauto.
      + unfold content. rewrite !filter_app. cbn [filter]. rewrite P, P'. cbn [negb]. split; intro H; apply app_eq_nil in H; destruct H; discriminate.
      + intros E s v. unfold content. rewrite !filter_app. cbn [filter]. rewrite P, P'. cbn [negb]. apply options_alike, AL.
      + intros E s v. unfold content. rewrite !filter_app. cbn [filter]. rewrite P, P'. cbn [negb]. apply options_alike, AL.
    - now apply same_sym.
    - eapply same_trans; eauto.
  Qed.
  Lemma plot_eval_same e e' : same e e' -> well_formed e -> forall E l, plot_eval W E e = Ret l -> plot_eval W E e' = Ret l.
  Proof.
    intros Sm Wf E l H. rewrite plot_skip in H by exact Wf. rewrite plot_skip by now apply (s_wf _ _ Sm). revert H. unfold plot_eval.
    change (plot_prepare W E) with (options (prepare_table W E)). change (plot_draw W E) with (options (draw_table W E)).
    intro H. apply bind_ret in H. destruct H as (p & H1 & H). apply bind_ret in H. destruct H as (s & H2 & H).
    apply (s_prep _ _ Sm) in H1. rewrite H1. cbn [bind]. apply (s_draw _ _ Sm) in H2. rewrite H2. exact H.
  Qed.
  Lemma rest_empty e : rest (eval_table W) e [] [] = [] <-> content e = [].
  Proof.
    rewrite <- filter_ext_knows with (W := W). split; intro H; [now apply rest_nil in H|]. apply rest_none. apply forallb_forall. intros x I.
    destruct (knows (eval_table W) x) eqn:K; [reflexivity|]. exfalso.
    assert (J : In x (filter (fun x => negb (knows (eval_table W) x)) e)) by (apply filter_In; split; [exact I|now rewrite K]). rewrite H in J. exact J.
  Qed.
  Definition plots (E : env) (e : list expr) : Prop := forall E1 n, options (eval_table W) e (E, s_ "plot") = Ret (E1, n) -> n = s_ "plot".
  Lemma settings_same e e' s v : same e e' -> options (eval_table W) e s = Ret v -> options (eval_table W) e' s = Ret v.
  Proof.
    intros Sm H. pose proof (options_wf _ _ _ _ H) as Wf. rewrite options_settings in H by exact Wf.
    rewrite options_settings by now apply (s_wf _ _ Sm). now apply (s_set _ _ Sm).
  Qed.
  Lemma plots_same E e e' : same e e' -> plots E e -> plots E e'.
  Proof. intros Sm P E1 n H. apply (P E1). revert H. apply settings_same. now apply same_sym. Qed.
  Lemma class_plots E e : class_of e (s_ "plot") -> plots E e.
  Proof.
    intros Cl E1 n H. destruct (settings_ok W E e E1 n H) as [_ Cl']. unfold class_of, last_or in *. destruct (last_args (s_ "class") e); congruence.
  Qed.
  Lemma eval_same e e' E v : same e e' -> plots E e -> eval_exprs W E e = Ret v -> eval_exprs W E e' = Ret v.
  Proof.
    intros Sm Pl. rewrite !eval_is. intro H. apply bind_ret in H. destruct H as ([[E1 name] args] & H1 & H). apply bind_ret in H1. destruct H1 as ([E2 n2] & H1 & H2).
    injection H2 as <- <- <-. pose proof (options_wf _ _ _ _ H1) as Wf. pose proof (Pl _ _ H1) as ->.
    rewrite (settings_same _ _ _ _ Sm H1). cbn [bind]. cbv beta iota in H |- *.
    change (assoc (s_ "plot") (modules W)) with (Some (plot_eval W)) in *. cbv iota beta in H |- *.
    change (s_ "plot") with ("p"%char :: s_ "lot") in *. cbv iota beta in H |- *.
    destruct (rest (eval_table W) e [] []) as [|x a] eqn:Re; [discriminate|]. destruct (rest (eval_table W) e' [] []) as [|x' a'] eqn:Re'.
    - exfalso. apply rest_empty in Re'. apply (s_empty _ _ Sm) in Re'. apply rest_empty in Re'. congruence.
    - apply bind_ret in H. destruct H as (out & H & K). rewrite <- Re in H. rewrite plot_rest in H by exact Wf.
      rewrite <- Re'. rewrite plot_rest by now apply (s_wf _ _ Sm). rewrite (plot_eval_same _ _ Sm Wf _ _ H). exact K.
  Qed.
  Lemma eval_same_program e e' E v : same_program e e' -> class_of e (s_ "plot") -> eval_exprs W E e = Ret v <-> eval_exprs W E e' = Ret v.
  Proof.
    intros Sp Cl. pose proof (program_is _ _ Sp) as Sm. pose proof (class_plots E _ Cl) as Pl. split; [now apply eval_same|].
    apply eval_same; [now apply same_sym|]. now apply (plots_same E e).
  Qed.
End Programs.
