(** C113: when the conditions hold, cases, and what happens when they do not. *)
From Coq Require Import Reals Lra Lia.
From Verif Require Import Base Num Sexpr_Model Dispatch_Model Data_Model Data_Spec Data_Proofs Scale_Model Scale_Spec
  Units_Model Color_Model Geo_Model Svg_Model Geojson_Model Cmd_Model Cmd_Spec Cmd_Proofs Style_Model Plot_Model Plot_Spec Plot_Proofs Plot_Parts Plot_Loops Plot_Inline
  Safe_Spec Safe_Proofs Safe_Proofs2 Safe_Proofs3 Safe_Props Demo.
Local Open Scope R_scope.

(** ---- when the conditions hold ---- *)

(** Without the option labels there are few enough of them. *)
Theorem C113_no_labels : forall (W : world) (e : list expr) (points : nat -> Prop),
  (forall a, ~ given e "labels" a) -> few_labels W e points.
Proof.
  intros W e points N ls n H _. assert (ls = []) as ->; [|cbn; lia]. unfold labels_of, options in H.
  apply bind_ret in H. destruct H as ([l r] & H & Q). injection Q as <-.
  refine (proj2 (collect_safe (fun l => l = []) _ _ _ _ eq_refl) _ _ H). intros x k a f s I O A ->. exfalso.
  cbn [assoc] in A. destruct (str_eqb_spec k (s_ "labels")) as [->|]; [|discriminate]. apply (N a). exists x. now split.
Qed.
Print Assumptions C113_no_labels.

(** Without the option color-map there is no gradient. *)
Theorem C113_no_map : forall (W : world) (E : env) (e : list expr),
  (forall a, ~ given e "color-map" a) -> gradients_full W E e.
Proof. intros W E e N a stops G. exfalso. exact (N a G). Qed.
Print Assumptions C113_no_map.

(** Limits do not make a scale unusable; only the options scale-x and scale-y can. *)
Lemma options_keep W axis (P : scale -> Prop) tbl e s s' :
  incl tbl (scale_options W axis) -> safe_table tbl ->
  (forall k a f u u', assoc k tbl = Some f -> (exists x, In x e /\ option_of x = Some (k, a)) -> P u -> f a u = Ret u' -> P u') ->
  P s -> options tbl e s = Ret s' -> P s'.
Proof.
  intros _ ST K I H. unfold options in H. apply bind_ret in H. destruct H as ([l r] & H & Q). injection Q as <-.
  refine (proj2 (collect_safe P _ _ _ _ I) _ _ H). intros x k a f u IN O A PU. split.
  - exact (assoc_snd safe_cmd k tbl f ST A a u).
  - intros u' Q. eapply K; eauto.
Qed.
Lemma s_scale_options W axis : safe_table (scale_options W axis).
Proof.
  unfold scale_options. tbl; intros a s; first [apply d_limits|apply d_kind|apply def_bind; [apply d_float|intros; apply def_ret]].
Qed.
Lemma usable_limits s t : s_kind t = s_kind s -> s_categories t = s_categories s -> s_cmap t = s_cmap s -> usable s -> usable t.
Proof. unfold usable. intros -> -> ->. auto. Qed.
Lemma limits_keep W a s s' : usable s -> rd_limits W a s = Ret s' -> usable s'.
Proof.
  unfold rd_limits. intros U Q. destruct (ended _) as [[[x|] [y|]]| | | |]; try discriminate. injection Q as <-.
  revert U. now apply usable_limits.
Qed.
Lemma put_keep {T} (rd : outcome T) (put : T -> scale -> scale) s s' :
  (forall v, s_kind (put v s) = s_kind s /\ s_categories (put v s) = s_categories s /\ s_cmap (put v s) = s_cmap s) ->
  usable s -> (let* v := rd in Ret (put v s)) = Ret s' -> usable s'.
Proof.
  intros K U Q. apply bind_ret in Q. destruct Q as (v & _ & Q). injection Q as <-. destruct (K v) as (K1 & K2 & K3).
  revert U. now apply usable_limits.
Qed.
Lemma scale_kept W axis e s s' : (forall a x, In x e -> option_of x <> Some (s_ "scale-" ++ s_ axis, a)) ->
  usable s -> element_scale W axis e s = Ret s' -> usable s'.
Proof.
  intros N U H. eapply (options_keep W axis usable); [apply incl_refl|apply s_scale_options| |exact U|exact H].
  clear s s' U H. intros k a f s s' A (x & I & O) U Q. unfold scale_options in A. cbn [assoc] in A.
  destruct (str_eqb _ _). { injection A as <-. eapply limits_keep; eauto. }
  destruct (str_eqb _ _). { injection A as <-. eapply put_keep in Q; eauto. }
  destruct (str_eqb _ _). { injection A as <-. eapply put_keep in Q; eauto. }
  destruct (str_eqb_spec k (s_ "scale-" ++ s_ axis)) as [->|_]. { exfalso. exact (N a x I O). }
  destruct (str_eqb _ _); [|discriminate]. injection A as <-. eapply put_keep in Q; eauto.
Qed.
Theorem C113_plain_scales : forall (W : world) (p : plot) (e : list expr),
  usable (p_sx p) -> usable (p_sy p) ->
  (forall a, ~ given e "scale-x" a) -> (forall a, ~ given e "scale-y" a) -> scales_usable W p e.
Proof.
  intros W p e UX UY NX NY. split; intros s H.
  - apply (scale_kept W "x" e (p_sx p) s); [|exact UX|exact H]. intros a x I O. apply (NX a). exists x. now split.
  - apply (scale_kept W "y" e (p_sy p) s); [|exact UY|exact H]. intros a x I O. apply (NY a). exists x. now split.
Qed.
Print Assumptions C113_plain_scales.
(** Categories written in the program make a scale usable. *)
Lemma number_bound c : forall i m, Forall (fun q : str * nat => (Z.of_nat (snd q) < 2 ^ 53)%Z) m -> (Z.of_nat (i + length c) <= 2 ^ 53)%Z ->
  Forall (fun q : str * nat => (Z.of_nat (snd q) < 2 ^ 53)%Z) (number_categories c i m).
Proof.
  induction c as [|x c IH]; intros i m F H; cbn [number_categories]; [exact F|]. apply IH.
  - constructor; [cbn [snd length] in *; lia|exact F].
  - cbn [length] in H. lia.
Qed.
Lemma words_read ws : forall l, expr_tov expr_to_string (map ELit ws) l = (ws, Ret tt).
Proof.
  intro l. unfold expr_tov. change ws with ([] ++ ws) at 2. generalize (@nil str). induction ws as [|w ws IH]; intro acc; cbn [map tov_loop].
  - now rewrite app_nil_r.
  - change (expr_to_string (ELit w :: map ELit ws)) with (Ret w). cbn iota. rewrite IH, <- app_assoc. reflexivity.
Qed.
Lemma not_headed ws h : list_headed (map ELit ws) h = None.
Proof. now destruct ws. Qed.
Theorem C113_categories : forall (W : world) (ws : list str) (s : scale),
  ws <> [] -> (Z.of_nat (length ws) < 2 ^ 53)%Z -> s_cmap s = [] ->
  exists s', rd_kind W [EList (ELit (s_ "categorical") :: map ELit ws)] s = Ret s' /\ s_categories s' = ws /\ usable s'.
Proof.
  intros W ws s N L CM. unfold rd_kind. cbn [configure_kind].
  change (is_val _ _) with false. change (is_val _ (s_ "log")) with false. cbn iota.
  change (list_headed _ (s_ "log")) with (@None (list expr)). change (list_headed _ (s_ "logarithmic")) with (@None (list expr)). cbn [orb].
  change (list_headed _ (s_ "categorical")) with (Some (map ELit ws)). cbn iota.
  unfold data_load_strings. rewrite not_headed, words_read. cbn [ended bind configure_kind].
  eexists. split; [reflexivity|]. split; [reflexivity|]. intros _. cbn [index_categories set_categories set_categorical s_categories s_cmap].
  split; [exact N|]. split; [exact L|]. rewrite CM. apply number_bound; [constructor|lia].
Qed.
Print Assumptions C113_categories.

(** ---- cases ---- *)
Definition word (s : string) : expr := ELit (s_ s).
Definition words_ (k : string) (l : list string) : expr := EList (ELit (s_ k) :: map (fun s => ELit (s_ s)) l).
Lemma demo_tame : tame demo.
Proof. repeat split; discriminate. Qed.
Lemma demo_counts : counts demo.
Proof. intros n _. reflexivity. Qed.
Lemma demo_maps e : (forall a, ~ given e "data" a) -> maps_read demo e.
Proof. intros N path (a & G & _). exfalso. exact (N a G). Qed.
Ltac not_given := intros a (x & I & O); cbn [In] in I; repeat (destruct I as [<-|I]; [discriminate O|]); destruct I.
(** Lines with a label at each point. *)
Definition labelled : list expr :=
  [inline "data-x" [s_ "1"; s_ "2"]; inline "data-y" [s_ "3"; s_ "4"]; words_ "labels" ["a"; "b"]%string; words_ "limit-x" ["0"; "4"]%string].
Theorem C113_lines_case : defined (lines_draw demo demo_env demo_plot labelled) /\ defined (lines_autorange demo demo_env demo_plot labelled).
Proof.
  apply C113_lines; [exact demo_tame|exact demo_counts| | |].
  - apply demo_maps. not_given.
  - apply C113_plain_scales; [intro; discriminate|intro; discriminate|not_given|not_given].
  - intros ls n L (b & g & B & ->). assert (ls = [s_ "a"; s_ "b"]) as -> by (change (Ret [s_ "a"; s_ "b"] = Ret ls) in L; congruence).
    change (Ret ((inlined [s_ "1"; s_ "2"], inlined [s_ "3"; s_ "4"]), @nil nat) = Ret (b, g)) in B.
    assert (b = (inlined [s_ "1"; s_ "2"], inlined [s_ "3"; s_ "4"])) as -> by congruence. cbv; lia.
Qed.
Print Assumptions C113_lines_case.
(** Bars over named categories. *)
Definition named : list expr :=
  [EList [ELit (s_ "scale-x"); words_ "categorical" ["a"; "b"]%string]; words_ "data-x" ["a"; "b"]%string; inline "data-y" [s_ "3"; s_ "4"]].
Theorem C113_bars_case : defined (bars_draw demo demo_env demo_plot named) /\ defined (bars_autorange demo demo_env demo_plot named).
Proof.
  apply C113_bars; [exact demo_tame|exact demo_counts| |].
  - split; intros s H.
    + unfold element_scale, named in H. rewrite options_cons in H. cbn [option_of] in H.
      change (assoc (s_ "scale-x") (scale_options demo "x")) with (Some (fun e s => rd_kind demo e s)) in H. cbn iota in H.
      destruct (C113_categories demo [s_ "a"; s_ "b"] ten ltac:(discriminate) ltac:(cbn; lia) eq_refl) as (s1 & R & _ & U).
      apply bind_ret in H. destruct H as (s2 & H1 & H2). change (p_sx demo_plot) with ten in H1.
      assert (s2 = s1) as -> by (cbn [map] in R; unfold words_ in H1; cbn [map] in H1; congruence).
      refine (scale_kept demo "x" _ s1 s _ U H2). intros a x I O. cbn [In] in I. repeat (destruct I as [<-|I]; [discriminate O|]). exact I.
    + refine (scale_kept demo "y" _ ten s _ _ H); [|intro; discriminate]. unfold named. intros a x I O. cbn [In] in I. repeat (destruct I as [<-|I]; [discriminate O|]). exact I.
  - apply C113_no_labels. not_given.
Qed.
Print Assumptions C113_bars_case.
(** Points with a gradient from 0 to 1. *)
Definition coloured : list expr :=
  [inline "data-x" [s_ "1"; s_ "2"]; inline "data-y" [s_ "3"; s_ "4"]; words_ "colors" ["0"; "1"]%string;
   EList [ELit (s_ "color-map"); words_ "gradient" ["0"; "#ffffff"; "1"; "#000000"]%string]].
Theorem C113_points_case : defined (points_draw demo demo_env demo_plot coloured) /\ defined (points_autorange demo demo_env demo_plot coloured).
Proof.
  apply C113_points; [exact demo_tame|exact demo_counts| | | |].
  - apply demo_maps. not_given.
  - apply C113_plain_scales; [intro; discriminate|intro; discriminate|not_given|not_given].
  - intros a stops (x & I & O) R. unfold coloured in I. cbn [In] in I. repeat (destruct I as [<-|I]; [try discriminate O|]); try destruct I.
    injection O as <-. right. unfold words_ in R. cbn [map] in R. unfold color_map_read in R.
    match type of R with (if ?b then _ else _) = _ => change b with true in R end. cbn iota in R. apply bind_ret in R. destruct R as (l & R & Q). assert (l = stops) as -> by congruence. clear Q.
    unfold map_stops in R. change (Nat.odd _) with false in R. cbn [tl read_stops] in R.
    apply bind_ret in R. destruct R as (v0 & _ & R). apply bind_ret in R. destruct R as (c0 & _ & R).
    apply bind_ret in R. destruct R as (l1 & R1 & R). apply bind_ret in R1. destruct R1 as (v1 & V1 & R1). apply bind_ret in R1. destruct R1 as (c1 & _ & R1).
    cbn [bind] in R1. assert (l1 = [(v1, c1)]) as -> by congruence. assert (stops = [(v0, c0); (v1, c1)]) as -> by congruence.
    exists v1, c1. split; [right; now left|]. assert (v1 = Fin 1) as -> by (change (Ret (Fin 1) = Ret v1) in V1; congruence). cbn. destruct (Rle_dec 1 1); [reflexivity|lra].
  - apply C113_no_labels. not_given.
Qed.
Print Assumptions C113_points_case.
