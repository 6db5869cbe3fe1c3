(** Lines from a file that is named once and from two columns that name it. *)
From Coq Require Import Reals.
From Verif Require Import Base Num Sexpr_Model Dispatch_Model Data_Model Scale_Model Svg_Model Cmd_Model Cmd_Spec Cmd_Proofs
  Style_Model Plot_Model Axis_Model Eval_Model Eval_Spec Eval_Proofs Eval_Props Source_Spec Source_Props Given_Spec Given_Proofs6
  Respell_Spec Respell_Proofs Respell_Proofs2 Respell_Proofs3.
Local Open Scope string_scope.
Local Open Scope list_scope.

Arguments evenly {S}.

Section Lines.
  Variable W : world.
  Hypothesis PF : plain_files W.
  Variables (path txt nx ny : str) (xs ys : list str) (h : list expr).
  Hypothesis Csv : detect_format path [] = s_ "csv".
  Hypothesis Read : w_read_file W path = Some txt.
  Hypothesis X : csv_values txt nx xs.
  Hypothesis Y : csv_values txt ny ys.
  Hypothesis Names : file_columns path h nx ny.
  Definition col (n : str) : expr := EList [EVal (s_ "csv"); ELit path; ELit n].
  Definition apart_ : list expr := [EList [EVal (s_ "data-x"); col nx]; EList [EVal (s_ "data-y"); col ny]].
  Lemma col_means n vs : csv_values txt n vs -> data_means (w_read_file W) [col n] vs.
  Proof.
    intro V. apply dm_csv. exists (EVal (s_ "csv")), (ELit path), (ELit n), path, n, txt, []. split; [reflexivity|].
    split; [left; reflexivity|]. split; [right; reflexivity|]. split; [right; reflexivity|]. auto.
  Qed.
  Lemma path_some : path <> [].
  Proof. intros ->. discriminate Csv. Qed.
  Lemma loads_apart : load_lines W (mk_src [] [] [col nx] [col ny]) =
    Ret ((fold_left (databuf_add_text xr) xs (empty_buf xr), fold_left (databuf_add_text xr) ys (empty_buf xr)), []).
  Proof.
    unfold load_lines. cbn [d_x d_y d_ref load_inline_ref col]. unfold load_simple.
    rewrite (loads W _ xs _ PF (col_means nx xs X)), (loads W _ ys _ PF (col_means ny ys Y)). reflexivity.
  Qed.
  (** The source that the options of [h] make. *)
  Definition named : src := match h with [_] => mk_src path [] [] [] | _ => mk_src path [] [ELit nx] [ELit ny] end.
  Lemma loads_named : load_lines W named =
    Ret ((fold_left (databuf_add_text xr) xs (empty_buf xr), fold_left (databuf_add_text xr) ys (empty_buf xr)), []).
  Proof.
    unfold named. pose proof path_some as P. inversion Names; subst h; apply C91_lines_csv; try assumption; try discriminate; (split; [reflexivity|]).
    - exists txt, nx, ny, xs, ys. subst nx ny. repeat split; try assumption; right; (split; [discriminate|reflexivity]).
    - exists txt, nx, ny, xs, ys. repeat split; try assumption; left; do 2 eexists; (split; [reflexivity|right; reflexivity]).
  Qed.

  Section At.
  Variable E : env.
  Definition moved (s s' : lines_cfg) : Prop := exists t, s = set_l_src named t /\ s' = set_l_src (mk_src [] [] [col nx] [col ny]) t.
  Lemma moved_updf {T} (get : lines_cfg -> T) rd (st : T -> lines_cfg -> lines_cfg) :
    (forall v s, get (set_l_src v s) = get s) -> (forall v w s, st w (set_l_src v s) = set_l_src v (st w s)) -> evenly moved (updf get rd st).
  Proof. intros G P a s s' (t & -> & ->). unfold updf. rewrite !G. destruct (rd a (get t)) as [w| | | |]; cbn; auto. exists (st w t). now rewrite !P. Qed.
  Lemma moved_upd {T} (rd : list expr -> outcome T) (st : T -> lines_cfg -> lines_cfg) :
    (forall v w s, st w (set_l_src v s) = set_l_src v (st w s)) -> evenly moved (upd rd st).
  Proof. intros P a s s' (t & -> & ->). unfold upd. destruct (rd a) as [w| | | |]; cbn; auto. exists (st w t). now rewrite !P. Qed.
  Ltac even := first [apply evenly_each; repeat (apply Forall_cons; [even|]); apply Forall_nil
    | apply moved_updf; intros; reflexivity | apply moved_upd; intros; reflexivity].
  Lemma rest_even : Forall (fun e => evenly moved (snd e)) (skipn 4 (lines_table W E)).
  Proof.
    unfold lines_table, src_entries, scale_entries, label_entries. cbn [app skipn]. repeat (apply Forall_cons; [cbn [snd]; even|]). apply Forall_nil.
  Qed.
  Lemma assoc_rest k f : ~ In k (map s_ ["data"; "data-format"; "data-x"; "data-y"]) -> assoc k (lines_table W E) = Some f ->
    In (k, f) (skipn 4 (lines_table W E)).
  Proof.
    intros N A. unfold lines_table, src_entries in A. cbn [app assoc] in A. cbn [map In] in N.
    destruct (str_eqb_spec k (s_ "data")); [exfalso; apply N; subst k; tauto|]. destruct (str_eqb_spec k (s_ "data-format")); [exfalso; apply N; subst k; tauto|].
    destruct (str_eqb_spec k (s_ "data-x")); [exfalso; apply N; subst k; tauto|]. destruct (str_eqb_spec k (s_ "data-y")); [exfalso; apply N; subst k; tauto|].
    unfold lines_table, src_entries. cbn [app skipn].
    apply assoc_In in A. exact A.
  Qed.
  Lemma run_moved o : no_source o -> forall s s', moved s s' -> orel moved (run (lines_table W E) o s) (run (lines_table W E) o s').
  Proof.
    induction o as [|x o IH]; intros N s s' M; [exact M|]. rewrite !run_cons. destruct (option_of x) as [[k a]|] eqn:O; [|exact I].
    destruct (assoc k (lines_table W E)) as [f|] eqn:A; [|exact I]. pose proof rest_even as F. rewrite Forall_forall in F.
    specialize (F _ (assoc_rest k f (N x k a (or_introl eq_refl) O) A)). cbn [snd] in F.
    apply orel_bind with (R := moved); [apply F, M|]. intros t t' M'. apply IH; [|exact M']. intros y k' a' J. apply N. now right.
  Qed.
  Lemma run_named o p : no_source o -> orel moved (run (lines_table W E) (h ++ o) (lines0 W E p)) (run (lines_table W E) (apart_ ++ o) (lines0 W E p)).
  Proof.
    intro N. rewrite !run_app.
    assert (B : run (lines_table W E) apart_ (lines0 W E p) = Ret (set_l_src (mk_src [] [] [col nx] [col ny]) (lines0 W E p))) by reflexivity.
    assert (A : run (lines_table W E) h (lines0 W E p) = Ret (set_l_src named (lines0 W E p))).
    { unfold named. inversion Names; subst h; reflexivity. }
    rewrite A, B. cbn [bind]. apply run_moved; [exact N|]. exists (lines0 W E p). auto.
  Qed.
  Lemma named_like o p : no_source o -> orel (fun a b => (exists t v w, fst (fst a) = set_l_src v t /\ fst (fst b) = set_l_src w t) /\ snd (fst a) = snd (fst b) /\ snd a = snd b)
    (lines_configure W E p (h ++ o)) (lines_configure W E p (apart_ ++ o)).
  Proof.
    intro N. unfold lines_configure. apply orel_bind with (R := moved); [now apply run_named|]. intros c c' (t & -> & ->).
    change (l_src (set_l_src named t)) with named. change (l_src (set_l_src (mk_src [] [] [col nx] [col ny]) t)) with (mk_src [] [] [col nx] [col ny]).
    rewrite loads_named, loads_apart. cbn [bind]. destruct (negb _); [exact I|]. destruct (_ =? _)%nat; [exact I|]. cbn. split; [do 3 eexists; eauto|auto].
  Qed.
  Lemma named_auto o p : no_source o -> lines_autorange W E p (h ++ o) = lines_autorange W E p (apart_ ++ o).
  Proof.
    intro N. unfold lines_autorange. pose proof (named_like o p N) as H.
    destruct (lines_configure W E p (h ++ o)) as [[[c b] g]| | | |], (lines_configure W E p (apart_ ++ o)) as [[[c' b'] g']| | | |]; cbn in H; try contradiction; try reflexivity.
    destruct H as (_ & -> & ->). reflexivity.
  Qed.
  Lemma named_draws o p : no_source o -> lines_draw W E p (h ++ o) = lines_draw W E p (apart_ ++ o).
  Proof.
    intro N. unfold lines_draw. pose proof (named_like o p N) as H.
    destruct (lines_configure W E p (h ++ o)) as [[[c b] g]| | | |], (lines_configure W E p (apart_ ++ o)) as [[[c' b'] g']| | | |]; cbn in H; try contradiction; try reflexivity.
    destruct H as ((t & v & w & -> & ->) & -> & ->). reflexivity.
  Qed.
  End At.

  Lemma options_one {S} (tbl : list (str * cmd S)) k o o' e1 e2 : (forall f s, assoc (s_ k) tbl = Some f -> f o s = f o' s) ->
    forall s, options tbl (e1 ++ EList (EVal (s_ k) :: o) :: e2) s = options tbl (e1 ++ EList (EVal (s_ k) :: o') :: e2) s.
  Proof.
    intros F s. rewrite !options_app. destruct (options tbl e1 s) as [s1| | | |]; [|reflexivity..]. cbn [bind]. rewrite !options_cons. cbn [option_of].
    destruct (assoc (s_ k) tbl) as [f|] eqn:A; [|reflexivity]. now rewrite (F f s1 eq_refl).
  Qed.
  Lemma line_drawing o : drawing (EList (EVal (s_ "lines") :: o)).
  Proof. exists "lines", o. split; [cbn; tauto|reflexivity]. Qed.
  Lemma eval_named E E' e1 e2 a b out : class_of (e1 ++ EList (EVal (s_ "lines") :: a) :: e2) (s_ "plot") ->
    (forall E p, lines_autorange W E p a = lines_autorange W E p b) -> (forall E p, lines_draw W E p a = lines_draw W E p b) ->
    eval_exprs W E (e1 ++ EList (EVal (s_ "lines") :: a) :: e2) = Ret (E', out) -> eval_exprs W E (e1 ++ EList (EVal (s_ "lines") :: b) :: e2) = Ret (E', out).
  Proof.
    intros Cl A D H. destruct (eval_plot W _ E E' out Cl H) as (Wf & S & p & q & P & Q).
    assert (OA : forall s, options (prepare_table W E') (e1 ++ EList (EVal (s_ "lines") :: a) :: e2) s = options (prepare_table W E') (e1 ++ EList (EVal (s_ "lines") :: b) :: e2) s).
    { apply options_one. intros f s K. injection K as <-. apply A. }
    assert (OD : forall s, options (draw_table W E') (e1 ++ EList (EVal (s_ "lines") :: a) :: e2) s = options (draw_table W E') (e1 ++ EList (EVal (s_ "lines") :: b) :: e2) s).
    { apply options_one. intros f s K. injection K as <-. unfold shows. now rewrite D. }
    apply (eval_back W _ E E' out p q).
    - unfold well_formed in *. apply Forall_app in Wf as [F1 F2]. apply Forall_app. split; [exact F1|]. inversion F2; subst. constructor; [discriminate|assumption].
    - unfold content. rewrite filter_app. cbn [filter]. rewrite (drawing_not_setting _ (line_drawing b)). cbn [negb]. intro Z. now apply app_eq_nil in Z as [_ Z].
    - rewrite filter_app in *. cbn [filter] in *. now rewrite (drawing_not_setting _ (line_drawing b)), (drawing_not_setting _ (line_drawing a)) in *.
    - now rewrite <- OA.
    - now rewrite <- OD.
  Qed.
  Lemma class_lines a b e1 e2 : class_of (e1 ++ EList (EVal (s_ "lines") :: a) :: e2) (s_ "plot") -> class_of (e1 ++ EList (EVal (s_ "lines") :: b) :: e2) (s_ "plot").
  Proof.
    unfold class_of, last_or. replace (last_args (s_ "class") (e1 ++ EList (EVal (s_ "lines") :: b) :: e2)) with (last_args (s_ "class") (e1 ++ EList (EVal (s_ "lines") :: a) :: e2)); [auto|].
    induction e1 as [|x e1 IH]; cbn [app last_args]; [reflexivity|]. now rewrite IH.
  Qed.
End Lines.
