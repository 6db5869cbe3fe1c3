(** Options that stand for several others: the elements and whole programs. *)
From Coq Require Import Reals.
From Verif Require Import Base Num Sexpr_Model Dispatch_Model Data_Model Scale_Model Svg_Model Cmd_Model Cmd_Spec Cmd_Proofs
  Style_Model Plot_Model Axis_Model Eval_Model Eval_Spec Eval_Proofs Eval_Props Given_Spec Given_Proofs6 Short_Spec Short_Proofs.
Local Open Scope string_scope.
Local Open Scope list_scope.

Section Whole.
  Variable W : world.
  Definition ignored {S} (tbl : list (str * cmd S)) (x : expr) : Prop := exists k a, option_of x = Some (k, a) /\ assoc k tbl = None.
  Lemma ignored_alike {S} (tbl : list (str * cmd S)) x xs : ignored tbl x -> Forall (ignored tbl) xs -> opts_alike tbl x xs.
  Proof.
    intros (k & a & O & A) F r s. rewrite options_cons, O, A. induction F as [|y ys (k' & a' & O' & A') F IH]; [reflexivity|].
    cbn [app]. now rewrite options_cons, O', A'.
  Qed.
  Ltac none := (do 2 eexists; split; reflexivity).
  Ltac all_none := repeat (apply Forall_cons; [none|]); apply Forall_nil.
  Ltac cases I := unfold shorthands, of_sides, of_x, of_y in I; cbn [In map app String.append] in I; repeat (destruct I as [I|I]; [first [discriminate I|injection I as <- <-]|]); try contradiction I.
  Lemma options_inside {S} (tbl : list (str * cmd S)) x xs : opts_alike tbl x xs -> forall o1 o2 s, options tbl (o1 ++ x :: o2) s = options tbl (o1 ++ xs ++ o2) s.
  Proof. intros R o1 o2 s. rewrite !options_app. apply bind_ext_. intro t. apply R. Qed.
  Lemma axis_ignored x xs : stands_for "axis" x xs -> opts_alike [(s_ "align", upd (expr_to_enum align_enum) (fun v (_ : axis_align) => v))] x xs.
  Proof.
    intro H. inversion H as [k ks a I|a b L|a b L|a b L]; subst; [cases I; (apply ignored_alike; [none|cbn [map]; all_none])|..]; (apply ignored_alike; [none|all_none]).
  Qed.
  Lemma collect_options {S T} (tbl : list (str * cmd S)) e s (k : S -> outcome T) : (let* (a, _) := run_collect tbl e s in k a) = let* a := options tbl e s in k a.
  Proof. unfold options. destruct (run_collect tbl e s) as [[a l]| | | |]; reflexivity. Qed.
  Lemma axis_alike E p x xs o1 o2 : stands_for "axis" x xs -> plot_axis W E p (o1 ++ x :: o2) = plot_axis W E p (o1 ++ xs ++ o2).
  Proof.
    intro R. assert (Ne : xs <> []) by (inversion R as [k ks a I|a b L|a b L|a b L]; subst; [cases I|..]; discriminate).
    unfold plot_axis, axis_configure. destruct (o1 ++ x :: o2) as [|y r] eqn:Y; [now apply app_eq_nil in Y as [_ Y]|].
    destruct (o1 ++ xs ++ o2) as [|z t] eqn:Z; [apply app_eq_nil in Z as [_ Z]; apply app_eq_nil in Z as [Z _]; contradiction|].
    rewrite <- Y, <- Z, !collect_options, (options_inside _ x xs (axis_ignored x xs R)). f_equal. apply bind_ext_. intro g.
    now rewrite !collect_options, (options_inside _ x xs (axis_short W E x xs R)).
  Qed.
  Lemma elements_alike E elem x xs o1 o2 : In elem drawing_commands -> stands_for elem x xs ->
    (forall p, match assoc (s_ elem) (prepare_table W E) with Some f => f (o1 ++ x :: o2) p = f (o1 ++ xs ++ o2) p | None => True end) /\
    (forall s, match assoc (s_ elem) (draw_table W E) with Some f => f (o1 ++ x :: o2) s = f (o1 ++ xs ++ o2) s | None => True end).
  Proof.
    intros I R. unfold drawing_commands in I. cbn [In] in I. repeat (destruct I as [<-|I]); try contradiction.
    - pose proof (runs_inside (areas_table W E) x xs (areas_short W E x xs R) o1 o2) as Q. split; [intro p|intros [p l]].
      + change (areas_autorange W E p (o1 ++ x :: o2) = areas_autorange W E p (o1 ++ xs ++ o2)). unfold areas_autorange, areas_configure. now rewrite Q.
      + change (shows (areas_draw W E) (o1 ++ x :: o2) (p, l) = shows (areas_draw W E) (o1 ++ xs ++ o2) (p, l)). unfold shows, areas_draw, areas_configure. now rewrite Q.
    - pose proof (runs_inside (background_table W E) x xs (background_short W E x xs R) o1 o2) as Q. split; [intro p; exact I|intros [p l]].
      change (shows (set_background W E) (o1 ++ x :: o2) (p, l) = shows (set_background W E) (o1 ++ xs ++ o2) (p, l)). unfold shows, set_background. now rewrite Q.
    - pose proof (runs_inside (bars_table W E) x xs (bars_short W E x xs R) o1 o2) as Q. split; [intro p|intros [p l]].
      + change (bars_autorange W E p (o1 ++ x :: o2) = bars_autorange W E p (o1 ++ xs ++ o2)). unfold bars_autorange, bars_configure. now rewrite Q.
      + change (shows (bars_draw W E) (o1 ++ x :: o2) (p, l) = shows (bars_draw W E) (o1 ++ xs ++ o2) (p, l)). unfold shows, bars_draw, bars_configure. now rewrite Q.
    - pose proof (runs_inside (err_table W E) x xs (err_short W E x xs R) o1 o2) as Q. split; [intro p|intros [p l]].
      + change (errorbars_autorange W E p (o1 ++ x :: o2) = errorbars_autorange W E p (o1 ++ xs ++ o2)). unfold errorbars_autorange, err_configure. now rewrite Q.
      + change (shows (errorbars_draw W E) (o1 ++ x :: o2) (p, l) = shows (errorbars_draw W E) (o1 ++ xs ++ o2) (p, l)). unfold shows, errorbars_draw, err_configure. now rewrite Q.
    - pose proof (runs_inside (labels_table W E) x xs (labels_short W E x xs R) o1 o2) as Q. split; [intro p|intros [p l]].
      + change (labels_autorange W E p (o1 ++ x :: o2) = labels_autorange W E p (o1 ++ xs ++ o2)). unfold labels_autorange, labels_configure. now rewrite Q.
      + change (shows (labels_draw W E) (o1 ++ x :: o2) (p, l) = shows (labels_draw W E) (o1 ++ xs ++ o2) (p, l)). unfold shows, labels_draw, labels_configure. now rewrite Q.
    - pose proof (runs_inside (lines_table W E) x xs (lines_short W E x xs R) o1 o2) as Q. split; [intro p|intros [p l]].
      + change (lines_autorange W E p (o1 ++ x :: o2) = lines_autorange W E p (o1 ++ xs ++ o2)). unfold lines_autorange, lines_configure. now rewrite Q.
      + change (shows (lines_draw W E) (o1 ++ x :: o2) (p, l) = shows (lines_draw W E) (o1 ++ xs ++ o2) (p, l)). unfold shows, lines_draw, lines_configure. now rewrite Q.
    - pose proof (runs_inside (points_table W E) x xs (points_short W E x xs R) o1 o2) as Q. split; [intro p|intros [p l]].
      + change (points_autorange W E p (o1 ++ x :: o2) = points_autorange W E p (o1 ++ xs ++ o2)). unfold points_autorange, points_configure. now rewrite Q.
      + change (shows (points_draw W E) (o1 ++ x :: o2) (p, l) = shows (points_draw W E) (o1 ++ xs ++ o2) (p, l)). unfold shows, points_draw, points_configure. now rewrite Q.
    - pose proof (runs_inside (polys_table W E) x xs (polys_short W E x xs R) o1 o2) as Q. split; [intro p|intros [p l]].
      + change (polygons_autorange W E p (o1 ++ x :: o2) = polygons_autorange W E p (o1 ++ xs ++ o2)). unfold polygons_autorange, polys_configure. now rewrite Q.
      + change (shows_and_moves (polygons_draw W E) (o1 ++ x :: o2) (p, l) = shows_and_moves (polygons_draw W E) (o1 ++ xs ++ o2) (p, l)). unfold shows_and_moves, polygons_draw, polys_configure. now rewrite Q.
    - pose proof (runs_inside (rects_table W E) x xs (rects_short W E x xs R) o1 o2) as Q. split; [intro p|intros [p l]].
      + change (rectangles_autorange W E p (o1 ++ x :: o2) = rectangles_autorange W E p (o1 ++ xs ++ o2)). unfold rectangles_autorange, rects_configure. now rewrite Q.
      + change (shows (rectangles_draw W E) (o1 ++ x :: o2) (p, l) = shows (rectangles_draw W E) (o1 ++ xs ++ o2) (p, l)). unfold shows, rectangles_draw, rects_configure. now rewrite Q.
    - pose proof (runs_inside (vectors_table W E) x xs (vectors_short W E x xs R) o1 o2) as Q. split; [intro p|intros [p l]].
      + change (vectors_autorange W E p (o1 ++ x :: o2) = vectors_autorange W E p (o1 ++ xs ++ o2)). unfold vectors_autorange, vectors_configure. now rewrite Q.
      + change (shows (vectors_draw W E) (o1 ++ x :: o2) (p, l) = shows (vectors_draw W E) (o1 ++ xs ++ o2) (p, l)). unfold shows, vectors_draw, vectors_configure. now rewrite Q.
    - pose proof (runs_inside (axes_table W E) x xs (axes_short W E x xs R) o1 o2) as Q. split; [intro p; exact I|intros [p l]].
      change (shows_and_moves (plot_axes W E) (o1 ++ x :: o2) (p, l) = shows_and_moves (plot_axes W E) (o1 ++ xs ++ o2) (p, l)). unfold shows_and_moves, plot_axes. now rewrite Q.
    - split; [intro p; exact I|intros [p l]].
      change (shows (plot_axis W E) (o1 ++ x :: o2) (p, l) = shows (plot_axis W E) (o1 ++ xs ++ o2) (p, l)). unfold shows. cbn [fst]. now rewrite (axis_alike E p x xs o1 o2 R).
    - pose proof (runs_inside (grid_table W E) x xs (grid_short W E x xs R) o1 o2) as Q. split; [intro p; exact I|intros [p l]].
      change (shows (plot_grid W E) (o1 ++ x :: o2) (p, l) = shows (plot_grid W E) (o1 ++ xs ++ o2) (p, l)). unfold shows, plot_grid. now rewrite Q.
    - pose proof (runs_inside (legend_table W E) x xs (legend_short W E x xs R) o1 o2) as Q. split; [intro p; exact I|intros [p l]].
      change (shows (legend_cmd W E) (o1 ++ x :: o2) (p, l) = shows (legend_cmd W E) (o1 ++ xs ++ o2) (p, l)). unfold shows, legend_cmd. now rewrite Q.
  Qed.

  (** Options of the plot itself: the limits are read before the picture, the margins with it. *)
  Lemma plot_prepares E x xs : stands_for "plot" x xs -> opts_alike (prepare_table W E) x xs.
  Proof.
    intro H. inversion H as [k ks a I|a b L|a b L|a b L]; subst; [cases I| | |discriminate L].
    - apply ignored_alike; [none|]. cbn [map]. all_none.
    - eapply (limits_opts _ _ W _ _ "limit-x"); [| |reflexivity|reflexivity|reflexivity]; intros; reflexivity.
    - eapply (limits_opts _ _ W _ _ "limit-y"); [| |reflexivity|reflexivity|reflexivity]; intros; reflexivity.
  Qed.
  Lemma plot_draws E x xs : stands_for "plot" x xs -> opts_alike (draw_table W E) x xs.
  Proof.
    intro H. inversion H as [k ks a I|a b L|a b L|a b L]; subst; [cases I| | |discriminate L].
    - eapply each_opts; [reflexivity|repeat constructor].
    - apply ignored_alike; [none|]. all_none.
    - apply ignored_alike; [none|]. all_none.
  Qed.
  Definition content_entry (x : expr) : Prop := (exists l, x = EList l) /\ option_of x <> None /\ is_setting x = false.
  Lemma plot_content x xs : stands_for "plot" x xs -> content_entry x /\ Forall content_entry xs /\ xs <> [].
  Proof.
    intro H. inversion H as [k ks a I|a b L|a b L|a b L]; subst; [cases I| | |discriminate L].
    - split; [split; [eauto|split; [discriminate|reflexivity]]|]. split; [|discriminate]. cbn [map]. repeat (apply Forall_cons; [split; [eauto|split; [discriminate|reflexivity]]|]); apply Forall_nil.
    - split; [split; [eauto|split; [discriminate|reflexivity]]|]. split; [|discriminate]. repeat (apply Forall_cons; [split; [eauto|split; [discriminate|reflexivity]]|]); apply Forall_nil.
    - split; [split; [eauto|split; [discriminate|reflexivity]]|]. split; [|discriminate]. repeat (apply Forall_cons; [split; [eauto|split; [discriminate|reflexivity]]|]); apply Forall_nil.
  Qed.

  (** A stretch [xs] of a program for a plot replaced by [ys]. *)
  Lemma filter_content l : Forall content_entry l -> filter is_setting l = [].
  Proof. induction 1 as [|x l (_ & _ & S) F IH]; [reflexivity|]. cbn [filter]. now rewrite S. Qed.
  Lemma eval_stretch E E' e1 xs ys e2 out : class_of (e1 ++ xs ++ e2) (s_ "plot") -> Forall content_entry xs -> Forall content_entry ys -> ys <> [] ->
    (forall E r s, options (prepare_table W E) (xs ++ r) s = options (prepare_table W E) (ys ++ r) s) ->
    (forall E r s, options (draw_table W E) (xs ++ r) s = options (draw_table W E) (ys ++ r) s) ->
    eval_exprs W E (e1 ++ xs ++ e2) = Ret (E', out) -> eval_exprs W E (e1 ++ ys ++ e2) = Ret (E', out).
  Proof.
    intros Cl FX FY Ne A D H. destruct (eval_plot W _ E E' out Cl H) as (Wf & S & p & q & P & Q). apply (eval_back W _ E E' out p q).
    - unfold well_formed in *. apply Forall_app in Wf as [F1 F2]. apply Forall_app in F2 as [_ F2]. apply Forall_app. split; [exact F1|]. apply Forall_app. split; [|exact F2].
      eapply Forall_impl; [|exact FY]. intros y (_ & N & _). exact N.
    - unfold content. destruct ys as [|y ys]; [congruence|]. inversion FY as [|y' l (_ & _ & N)]; subst. rewrite filter_app. cbn [app filter]. rewrite N. cbn [negb].
      intro Z. now apply app_eq_nil in Z as [_ Z].
    - rewrite !filter_app, (filter_content _ FY). rewrite !filter_app, (filter_content _ FX) in S. exact S.
    - rewrite options_app in P |- *. destruct (options (prepare_table W E') e1 plot0) as [s1| | | |]; [|exact P..]. cbn [bind] in *. now rewrite <- A.
    - rewrite options_app in Q |- *. destruct (options (draw_table W E') e1 (p, [])) as [s1| | | |]; [|exact Q..]. cbn [bind] in *. now rewrite <- D.
  Qed.
  Lemma data_drawing elem o : In elem drawing_commands -> content_entry (EList (EVal (s_ elem) :: o)).
  Proof.
    intro I. split; [eauto|]. split; [discriminate|]. unfold drawing_commands in I. cbn [In] in I. repeat (destruct I as [<-|I]; [reflexivity|]). contradiction.
  Qed.
  Lemma last_args_apart e1 xs e2 : Forall content_entry xs -> last_args (s_ "class") (e1 ++ xs ++ e2) = last_args (s_ "class") (e1 ++ e2).
  Proof.
    intro F. induction e1 as [|x e1 IH]; cbn [app last_args]; [|now rewrite IH]. induction F as [|x xs ((l & ->) & O & N) F IH]; [reflexivity|].
    cbn [app last_args]. rewrite IH. destruct (last_args (s_ "class") e2) as [z|]; [reflexivity|]. destruct (option_of (EList l)) as [[k a]|] eqn:K; [|reflexivity].
    destruct (str_eqb_spec k (s_ "class")) as [->|]; [|reflexivity]. unfold is_setting in N. rewrite K in N. cbn in N. discriminate.
  Qed.
  Lemma class_stretch e1 xs ys e2 : Forall content_entry xs -> Forall content_entry ys -> class_of (e1 ++ xs ++ e2) (s_ "plot") -> class_of (e1 ++ ys ++ e2) (s_ "plot").
  Proof. intros FX FY. unfold class_of, last_or. now rewrite !last_args_apart. Qed.
  Lemma eval_short E E' elem x xs e1 e2 o1 o2 out : class_of (e1 ++ EList (EVal (s_ elem) :: o1 ++ x :: o2) :: e2) (s_ "plot") -> In elem drawing_commands -> stands_for elem x xs ->
    eval_exprs W E (e1 ++ EList (EVal (s_ elem) :: o1 ++ x :: o2) :: e2) = Ret (E', out) <-> eval_exprs W E (e1 ++ EList (EVal (s_ elem) :: o1 ++ xs ++ o2) :: e2) = Ret (E', out).
  Proof.
    intros Cl I R. assert (FA : Forall content_entry [EList (EVal (s_ elem) :: o1 ++ x :: o2)]) by (constructor; [apply data_drawing, I|constructor]).
    assert (FB : Forall content_entry [EList (EVal (s_ elem) :: o1 ++ xs ++ o2)]) by (constructor; [apply data_drawing, I|constructor]).
    assert (A : forall E r s, options (prepare_table W E) ([EList (EVal (s_ elem) :: o1 ++ x :: o2)] ++ r) s = options (prepare_table W E) ([EList (EVal (s_ elem) :: o1 ++ xs ++ o2)] ++ r) s).
    { intros E0 r s. cbn [app]. rewrite !options_cons. cbn [option_of]. destruct (elements_alike E0 elem x xs o1 o2 I R) as [K _]. specialize (K s).
      destruct (assoc (s_ elem) (prepare_table W E0)); [now rewrite K|reflexivity]. }
    assert (D : forall E r s, options (draw_table W E) ([EList (EVal (s_ elem) :: o1 ++ x :: o2)] ++ r) s = options (draw_table W E) ([EList (EVal (s_ elem) :: o1 ++ xs ++ o2)] ++ r) s).
    { intros E0 r s. cbn [app]. rewrite !options_cons. cbn [option_of]. destruct (elements_alike E0 elem x xs o1 o2 I R) as [_ K]. specialize (K s).
      destruct (assoc (s_ elem) (draw_table W E0)); [now rewrite K|reflexivity]. }
    split; intro H.
    - exact (eval_stretch E E' e1 [EList (EVal (s_ elem) :: o1 ++ x :: o2)] [EList (EVal (s_ elem) :: o1 ++ xs ++ o2)] e2 out Cl FA FB ltac:(discriminate) A D H).
    - refine (eval_stretch E E' e1 [EList (EVal (s_ elem) :: o1 ++ xs ++ o2)] [EList (EVal (s_ elem) :: o1 ++ x :: o2)] e2 out (class_stretch e1 [EList (EVal (s_ elem) :: o1 ++ x :: o2)] [EList (EVal (s_ elem) :: o1 ++ xs ++ o2)] e2 FA FB Cl) FB FA ltac:(discriminate) _ _ H); intros; symmetry; auto.
  Qed.
  Lemma eval_plot_short E E' x xs e1 e2 out : class_of (e1 ++ x :: e2) (s_ "plot") -> stands_for "plot" x xs ->
    eval_exprs W E (e1 ++ x :: e2) = Ret (E', out) <-> eval_exprs W E (e1 ++ xs ++ e2) = Ret (E', out).
  Proof.
    intros Cl R. destruct (plot_content x xs R) as (FX & FY & Ne). assert (FA : Forall content_entry [x]) by (constructor; [exact FX|constructor]). split; intro H.
    - exact (eval_stretch E E' e1 [x] xs e2 out Cl FA FY Ne (fun E0 => plot_prepares E0 x xs R) (fun E0 => plot_draws E0 x xs R) H).
    - refine (eval_stretch E E' e1 xs [x] e2 out (class_stretch e1 [x] xs e2 FA FY Cl) FY FA ltac:(discriminate) _ _ H); intros E0 r s; symmetry; [apply (plot_prepares E0 x xs R)|apply (plot_draws E0 x xs R)].
  Qed.
End Whole.
