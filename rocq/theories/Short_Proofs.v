(** Options that stand for several others. *)
From Coq Require Import Reals.
From Verif Require Import Base Num Sexpr_Model Dispatch_Model Data_Model Scale_Model Units_Model Color_Model Svg_Model Cmd_Model Cmd_Spec Cmd_Proofs
  Style_Model Plot_Model Axis_Model Eval_Model Eval_Spec Eval_Proofs Eval_Props Given_Spec Given_Proofs6 Short_Spec.
Local Open Scope string_scope.
Local Open Scope list_scope.

Lemma bind_assoc_ {A B C} (m : outcome A) (f : A -> outcome B) (g : B -> outcome C) : bind (bind m f) g = bind m (fun a => bind (f a) g).
Proof. destruct m; reflexivity. Qed.
Lemma bind_ext_ {A B} (m : outcome A) (f g : A -> outcome B) : (forall a, f a = g a) -> bind m f = bind m g.
Proof. intro H. destruct m; cbn; auto. Qed.

(** What a list of entries does, one after the other. *)
Fixpoint series {S} (fs : list (cmd S)) (a : list expr) (s : S) : outcome S :=
  match fs with [] => Ret s | f :: r => let* s' := f a s in series r a s' end.
Lemma series_each {S} (fs : list (cmd S)) a : forall s, call_each fs a s = series fs a s.
Proof. induction fs as [|f fs IH]; intro s; [reflexivity|]. cbn [call_each series]. now apply bind_ext_. Qed.
Section Tables.
  Variable S : Type.
  Variable tbl : list (str * cmd S).
  Lemma run_series ks fs : Forall2 (fun k f => assoc (s_ k) tbl = Some f) ks fs -> forall a r s,
    run tbl (map (fun k => EList (EVal (s_ k) :: a)) ks ++ r) s = let* s' := series fs a s in run tbl r s'.
  Proof.
    induction 1 as [|k f ks fs A F IH]; intros a r s; [reflexivity|]. cbn [map app series]. rewrite run_cons. cbn [option_of]. rewrite A, bind_assoc_.
    apply bind_ext_. intro t. apply IH.
  Qed.
  Lemma options_series ks fs : Forall2 (fun k f => assoc (s_ k) tbl = Some f) ks fs -> forall a r s,
    options tbl (map (fun k => EList (EVal (s_ k) :: a)) ks ++ r) s = let* s' := series fs a s in options tbl r s'.
  Proof.
    induction 1 as [|k f ks fs A F IH]; intros a r s; [reflexivity|]. cbn [map app series]. rewrite options_cons. cbn [option_of]. rewrite A, bind_assoc_.
    apply bind_ext_. intro t. apply IH.
  Qed.
  (** An entry that calls others, and another name of an entry. *)
  Definition runs_alike (x : expr) (xs : list expr) : Prop := forall r s, run tbl (x :: r) s = run tbl (xs ++ r) s.
  Definition opts_alike (x : expr) (xs : list expr) : Prop := forall r s, options tbl (x :: r) s = options tbl (xs ++ r) s.
  Lemma each_runs k ks fs a : assoc (s_ k) tbl = Some (call_each fs) -> Forall2 (fun k f => assoc (s_ k) tbl = Some f) ks fs ->
    runs_alike (EList (EVal (s_ k) :: a)) (map (fun k' => EList (EVal (s_ k') :: a)) ks).
  Proof. intros A F r s. rewrite (run_series ks fs F), run_cons. cbn [option_of]. rewrite A, series_each. reflexivity. Qed.
  Lemma each_opts k ks fs a : assoc (s_ k) tbl = Some (call_each fs) -> Forall2 (fun k f => assoc (s_ k) tbl = Some f) ks fs ->
    opts_alike (EList (EVal (s_ k) :: a)) (map (fun k' => EList (EVal (s_ k') :: a)) ks).
  Proof. intros A F r s. rewrite (options_series ks fs F), options_cons. cbn [option_of]. rewrite A, series_each. reflexivity. Qed.
  Lemma alias_runs k k' a f : assoc (s_ k) tbl = Some f -> assoc (s_ k') tbl = Some f ->
    runs_alike (EList (EVal (s_ k) :: a)) (map (fun k' => EList (EVal (s_ k') :: a)) [k']).
  Proof. intros A A' r s. cbn [map app]. rewrite !run_cons. cbn [option_of]. now rewrite A, A'. Qed.
  Variable W : world.
  Variable g : S -> scale.
  Variable p : scale -> S -> S.
  Definition is_min : cmd S := updf g (fun e s => let* v := rd_float W e in Ret (with_min v s)) p.
  Definition is_max : cmd S := updf g (fun e s => let* v := rd_float W e in Ret (with_max v s)) p.
  Lemma limits_two a b : (forall v s, g (p v s) = v) -> (forall v w s, p v (p w s) = p v s) ->
    forall s, updf g (rd_limits W) p [a; b] s = let* s1 := is_min [a] s in is_max [b] s1.
  Proof.
    intros G P s. unfold updf, is_min, is_max, rd_limits, expr_to_float64_opt_pair, rd_float.
    change (expr_to_float64 (w_stod W) [a; b]) with (expr_to_float64 (w_stod W) [a]).
    assert (N : forall x, match expr_to_float64 (w_stod W) [x] with Ret _ | Err => True | _ => False end).
    { intro x. unfold expr_to_float64. destruct (value_of [x]) as [v|]; [|exact I]. destruct (w_stod W v) as [[q n]|]; exact I. }
    pose proof (N a) as Na. pose proof (N b) as Nb. unfold updf, ended, bind. destruct (expr_to_float64 (w_stod W) [a]) as [u| | | |]; try contradiction; [|reflexivity].
    destruct (expr_to_float64 (w_stod W) [b]) as [v| | | |]; try contradiction; cbn; [now rewrite G, P|reflexivity].
  Qed.
  Lemma limits_runs z a b : (forall v s, g (p v s) = v) -> (forall v w s, p v (p w s) = p v s) ->
    assoc (s_ z) tbl = Some (updf g (rd_limits W) p) -> assoc (s_ (z ++ "-min")%string) tbl = Some is_min -> assoc (s_ (z ++ "-max")%string) tbl = Some is_max ->
    runs_alike (EList [EVal (s_ z); a; b]) [EList [EVal (s_ (z ++ "-min")%string); a]; EList [EVal (s_ (z ++ "-max")%string); b]].
  Proof.
    intros G P A B C r s. cbn [app]. rewrite !run_cons. cbn [option_of]. rewrite A, B, (limits_two a b G P), bind_assoc_. apply bind_ext_. intro t.
    rewrite run_cons. cbn [option_of]. now rewrite C.
  Qed.
  Lemma limits_opts z a b : (forall v s, g (p v s) = v) -> (forall v w s, p v (p w s) = p v s) ->
    assoc (s_ z) tbl = Some (updf g (rd_limits W) p) -> assoc (s_ (z ++ "-min")%string) tbl = Some is_min -> assoc (s_ (z ++ "-max")%string) tbl = Some is_max ->
    opts_alike (EList [EVal (s_ z); a; b]) [EList [EVal (s_ (z ++ "-min")%string); a]; EList [EVal (s_ (z ++ "-max")%string); b]].
  Proof.
    intros G P A B C r s. cbn [app]. rewrite !options_cons. cbn [option_of]. rewrite A, B, (limits_two a b G P), bind_assoc_. apply bind_ext_. intro t.
    rewrite options_cons. cbn [option_of]. now rewrite C.
  Qed.
End Tables.
Arguments runs_alike {S}. Arguments opts_alike {S}.
Lemma series_runs {S} (tbl : list (str * cmd S)) k f ks fs a : assoc (s_ k) tbl = Some f -> Forall2 (fun k f => assoc (s_ k) tbl = Some f) ks fs ->
  (forall s, f a s = series fs a s) -> runs_alike tbl (EList (EVal (s_ k) :: a)) (map (fun k' => EList (EVal (s_ k') :: a)) ks).
Proof. intros A F Q r s. rewrite (run_series _ tbl ks fs F), run_cons. cbn [option_of]. now rewrite A, Q. Qed.
Lemma runs_inside {S} (tbl : list (str * cmd S)) x xs : runs_alike tbl x xs -> forall o1 o2 s, run tbl (o1 ++ x :: o2) s = run tbl (o1 ++ xs ++ o2) s.
Proof. intros R o1 o2 s. rewrite !run_app. apply bind_ext_. intro t. apply R. Qed.

Section Commands.
  Variable W : world.
  Variable E : env.
  (** What reads as a colour is no other kind of fill. *)
  Lemma color_fills a c c' s : rd_color W E a c = Ret c' -> fill_style_read W E a s = fill_style_read_solid W E a s.
  Proof.
    intro H. unfold fill_style_read. destruct a as [|[l|v|v] r]; [discriminate H| | |].
    - assert (N : forall w, In w ["none"; "hatch"; "hatched"] -> list_of (EList l :: r) w = None).
      { intros w I. unfold list_of, list_headed. destruct (value_of l) as [v|] eqn:V; [|reflexivity]. destruct (str_eqb_spec v (s_ w)) as [->|]; [|reflexivity].
        exfalso. unfold rd_color, expr_to_color, head_is in H. rewrite V in H.
        destruct l as [|h [|a1 [|a2 [|a3 [|a4 [|]]]]]]; try discriminate H;
          cbn [In] in I; repeat destruct I as [<-|I]; try contradiction; cbn in H; discriminate H. }
      unfold is_list_of. rewrite !N by (cbn; tauto). reflexivity.
    - assert (N : forall w, In w ["none"; "hatch"; "hatched"] -> str_eqb v (s_ w) = false).
      { intros w I. destruct (str_eqb_spec v (s_ w)) as [->|]; [|reflexivity]. exfalso. cbn [In] in I. repeat destruct I as [<-|I]; try contradiction; cbn in H; discriminate H. }
      unfold is_list_of, list_of, list_headed, is_word, is_val. cbn [value_of]. rewrite !N by (cbn; tauto). reflexivity.
    - assert (N : forall w, In w ["none"; "hatch"; "hatched"] -> str_eqb v (s_ w) = false).
      { intros w I. destruct (str_eqb_spec v (s_ w)) as [->|]; [|reflexivity]. exfalso. cbn [In] in I. repeat destruct I as [<-|I]; try contradiction; cbn in H; discriminate H. }
      unfold is_list_of, list_of, list_headed, is_word, is_val. cbn [value_of]. rewrite !N by (cbn; tauto). reflexivity.
  Qed.
  Lemma colored {S} (g : S -> color) (p : color -> S -> S) (h : S -> fill_style) (q : fill_style -> S -> S) a s (k : S -> outcome S) :
    (let* t := updf g (rd_color W E) p a s in let* u := updf h (fill_style_read_solid W E) q a t in k u) =
    (let* t := updf g (rd_color W E) p a s in let* u := updf h (fill_style_read W E) q a t in k u).
  Proof.
    unfold updf at 1 3. destruct (rd_color W E a (g s)) as [c| | | |] eqn:R; [|reflexivity..]. cbn [bind]. unfold updf. now rewrite (color_fills a _ c _ R).
  Qed.
  Ltac lims := first [
    solve [eapply (limits_runs _ _ W _ _ "limit-x"); [| |reflexivity|reflexivity|reflexivity]; intros; reflexivity] |
    solve [eapply (limits_runs _ _ W _ _ "limit-y"); [| |reflexivity|reflexivity|reflexivity]; intros; reflexivity] |
    match goal with L : In _ limit_commands |- _ => exfalso; unfold limit_commands in L; cbn [In] in L; repeat (destruct L as [L|L]; [discriminate L|]); contradiction L end].
  Ltac cases I := unfold shorthands, of_sides, of_x, of_y in I; cbn [In map app String.append] in I; repeat (destruct I as [I|I]; [first [discriminate I|injection I as <- <-]|]); try contradiction I.
  Ltac start := intros x xs H; inversion H as [k ks a I|a b L|a b L|a b L]; subst; [cases I|lims|lims|discriminate L].
  Ltac each := (eapply each_runs; [reflexivity|repeat constructor]).
  Lemma lines_short : forall x xs, stands_for "lines" x xs -> runs_alike (lines_table W E) x xs.
  Proof. start. each. Qed.
  Lemma points_short : forall x xs, stands_for "points" x xs -> runs_alike (points_table W E) x xs.
  Proof. start. eapply alias_runs; reflexivity. Qed.
  Lemma labels_short : forall x xs, stands_for "labels" x xs -> runs_alike (labels_table W E) x xs.
  Proof. start. eapply alias_runs; reflexivity. Qed.
  Ltac filled := eapply series_runs; [reflexivity|repeat constructor|]; intro s; cbn [call_each series]; apply colored.
  Lemma bars_short : forall x xs, stands_for "bars" x xs -> runs_alike (bars_table W E) x xs.
  Proof. start; first [solve [eapply alias_runs; reflexivity]|filled]. Qed.
  Lemma background_short : forall x xs, stands_for "background" x xs -> runs_alike (background_table W E) x xs.
  Proof. start; filled. Qed.
  Lemma grid_short : forall x xs, stands_for "grid" x xs -> runs_alike (grid_table W E) x xs.
  Proof. start. eapply alias_runs; reflexivity. Qed.
  Lemma legend_short : forall x xs, stands_for "legend" x xs -> runs_alike (legend_table W E) x xs.
  Proof. start; each. Qed.
  Lemma axes_short : forall x xs, stands_for "axes" x xs -> runs_alike (axes_table W E) x xs.
  Proof.
    start. all: try solve [each].
    all: eapply series_runs; [reflexivity|eapply Forall2_cons; [reflexivity|eapply Forall2_cons; [reflexivity|apply Forall2_nil]]|]; intro s; cbn [series]; unfold on_all, all4; cbn [flat_map map app call_each];
      repeat (rewrite ?bind_assoc_; cbn [bind]; apply bind_ext_; intro); reflexivity.
  Qed.
  Lemma axis_short : forall x xs, stands_for "axis" x xs -> opts_alike (axis_table W E) x xs.
  Proof.
    intros x xs H. inversion H as [k ks a I|a b L|a b L|a b L]; subst; [cases I; (eapply each_opts; [reflexivity|repeat constructor])|lims|lims|].
    eapply (limits_opts _ _ W _ _ "limit"); [| |reflexivity|reflexivity|reflexivity]; intros; reflexivity.
  Qed.
  Lemma areas_short : forall x xs, stands_for "areas" x xs -> runs_alike (areas_table W E) x xs.
  Proof. start; first [solve [each]|idtac].
    eapply series_runs; [reflexivity|repeat constructor|]; intro s; cbn [call_each series app]. apply bind_ext_. intro t. apply colored. Qed.
  Lemma err_short : forall x xs, stands_for "errorbars" x xs -> runs_alike (err_table W E) x xs.
  Proof. start. eapply alias_runs; reflexivity. Qed.
  Lemma rects_short : forall x xs, stands_for "rectangles" x xs -> runs_alike (rects_table W E) x xs.
  Proof. start; each. Qed.
  Lemma vectors_short : forall x xs, stands_for "vectors" x xs -> runs_alike (vectors_table W E) x xs.
  Proof. start. Qed.
  Lemma polys_short : forall x xs, stands_for "polygons" x xs -> runs_alike (polys_table W E) x xs.
  Proof. start; filled. Qed.
End Commands.
