(** The elements of a plot end in a defined way. *)
From Coq Require Import Reals Lra Lia.
From Verif Require Import Base Num Str_Model Sexpr_Model Dispatch_Model Csv_Model Data_Model Data_Spec Data_Proofs Geojson_Model Scale_Model
  Units_Model Color_Model Color_Proofs Color_Props Geo_Model Svg_Model Cmd_Model Cmd_Spec Cmd_Proofs Style_Model Plot_Model Plot_Spec Plot_Proofs Plot_Parts
  Safe_Spec Safe_Proofs Safe_Proofs2.
Local Open Scope R_scope.

Section Elements.
  Variable W : world.
  Variable E : env.
  Hypothesis T : tame W.
  Hypothesis CW : counts W.
  Notation len := (databuf_len xr).

  Lemma Forall_firstn_in {A} (P : A -> Prop) n : forall l, Forall P l -> forall a, In a (firstn n l) -> P a.
  Proof.
    induction n as [|n IH]; intros [|x l] F a I; try destruct I; inversion F; subst; [congruence|]. eapply IH; eauto.
  Qed.
  Lemma last_given k e a : last_args (s_ k) e = Some a -> given e k a.
  Proof.
    induction e as [|x e IH]; cbn [last_args]; [discriminate|]. destruct (last_args (s_ k) e) as [a'|].
    - intro Q. destruct (IH Q) as (y & I & O). exists y. split; [now right|exact O].
    - destruct (option_of x) as [[k' a']|] eqn:O; [|discriminate]. destruct (str_eqb_spec k' (s_ k)) as [->|N]; [|discriminate].
      intro Q. injection Q as <-. exists x. split; [now left|exact O].
  Qed.
  Lemma src_maps e : maps_read W e -> d_ref (source_of e) <> [] -> defined (geojson_shapes W (d_ref (source_of e))).
  Proof.
    intros M N. unfold source_of, word_of in *. cbn [d_ref] in *. destruct (last_args (s_ "data") e) as [a|] eqn:L; [|congruence].
    destruct (value_of a) as [path|] eqn:V; [|congruence]. apply M. exists a. split; [now apply last_given|now left].
  Qed.
  (** Tables. *)
  Ltac ent := first
    [ apply safe_updf; intros; first [apply d_color | apply d_strings | apply d_font; exact T | apply d_simple | apply d_measures | apply d_stroke | apply d_solid
        | apply d_fill | apply d_limits | apply d_kind | apply d_markers | apply d_size ]
    | apply safe_upd; intros; first [apply d_size | apply d_font_size | apply d_string | apply d_copy | apply d_float | apply d_marker | apply d_enum
        | apply d_color_map | apply d_size_map | apply d_measure | solve [auto] ]
    | apply safe_each; repeat (apply Forall_cons || apply Forall_nil) ].
  Lemma s_src {S} get (put : src -> S -> S) : safe_table (src_entries get put).
  Proof. unfold src_entries. cbv zeta. tbl; ent. Qed.
  Lemma s_scales {S} gx gy px (py : scale -> S -> S) : safe_table (scale_entries W gx gy px py).
  Proof.
    unfold scale_entries. tbl; apply safe_updf; intros a s;
      first [apply d_limits | apply d_kind | apply def_bind; [apply d_float|intros; apply def_ret]].
  Qed.
  Lemma s_labels {S} rd get (put : lbl -> S -> S) : (forall e, defined (rd e)) -> safe_table (label_entries W E rd get put).
  Proof. intro D. unfold label_entries. tbl; ent. Qed.
  Lemma s_fonts {S} get (put : lbl -> S -> S) : safe_table (font_entries W get put).
  Proof. unfold font_entries. tbl; ent. Qed.
  Lemma s_colors {S} get (put : marks -> S -> S) : safe_table (color_entries W E get put).
  Proof. unfold color_entries. tbl; ent. Qed.
  Lemma s_sizes {S} get (put : marks -> S -> S) : safe_table (size_entries W E get put).
  Proof. unfold size_entries. tbl; ent. Qed.
  Lemma s_lines : safe_table (lines_table W E).
  Proof.
    unfold lines_table. repeat apply safe_app; [apply s_src|apply s_scales| |apply s_labels; intro; apply d_size]. tbl; repeat ent.
  Qed.
  Lemma s_points : safe_table (points_table W E).
  Proof.
    unfold points_table. repeat apply safe_app; [apply s_src|apply s_scales| |apply s_sizes|apply s_colors|apply s_labels; intro; apply d_size|apply s_fonts]. tbl; repeat ent.
  Qed.
  Lemma s_bars : safe_table (bars_table W E).
  Proof.
    unfold bars_table. repeat apply safe_app; [|apply s_scales| |apply s_labels; intro; apply d_measure]; tbl; repeat ent.
  Qed.
  Lemma s_areas : safe_table (areas_table W E).
  Proof.
    unfold areas_table. cbv zeta. repeat apply safe_app; [apply s_src| |apply s_scales|]; tbl; repeat ent.
  Qed.
  Lemma s_err : safe_table (err_table W E).
  Proof.
    unfold err_table. repeat apply safe_app; [|apply s_scales| |apply s_colors|]; tbl; repeat ent.
  Qed.
  Lemma s_texts : safe_table (labels_table W E).
  Proof.
    unfold labels_table. repeat apply safe_app; [apply s_src|apply s_scales|apply s_labels; intro; apply d_measure|apply s_fonts].
  Qed.
  Lemma s_vectors : safe_table (vectors_table W E).
  Proof.
    unfold vectors_table. repeat apply safe_app; [apply s_src| |apply s_scales|apply s_colors|apply s_sizes]; tbl; repeat ent.
  Qed.
  Lemma s_rects : safe_table (rects_table W E).
  Proof.
    unfold rects_table. repeat apply safe_app; [apply s_src| |apply s_scales| |apply s_colors]; tbl; repeat ent.
  Qed.
  Lemma polys_run p e : maps_read W e -> defined (run (polys_table W E) e (polys0 W E p)).
  Proof.
    intro M. apply (run_safe (fun _ => True)); [|exact I]. intros x k a f s IN O A _. split; [|auto].
    unfold polys_table in A. change ((if str_eqb k (s_ "data") then Some (updf g_polys (load_polys W) set_g_polys) else assoc k (tl (polys_table W E))) = Some f) in A. destruct (str_eqb_spec k (s_ "data")) as [->|N].
    - injection A as <-. unfold updf. apply def_bind; [|intros; apply def_ret]. apply d_polys. intros h b r path EA V.
      apply M. exists a. split; [exists x; now split|]. right. exists h, b, r. now split.
    - assert (ST : safe_table (tl (polys_table W E))).
      { unfold polys_table. cbn [app tl]. apply safe_app; [unfold safe_table; apply Forall_forall; intros q I; apply (Forall_firstn_in (fun q => safe_cmd (snd q)) 8 _ (s_scales g_sx g_sy set_g_sx set_g_sy) q I)|].
        tbl; repeat ent. }
      exact (assoc_snd safe_cmd k _ f ST A a s).
  Qed.

  (** Columns. *)
  Lemma column_wf keys e b : column W keys e = Ret b -> wf b.
  Proof.
    unfold column, options. intro H. apply bind_ret in H. destruct H as ([b' r] & H & Q). injection Q as <-.
    eapply (collect_safe wf); [|apply wf_empty|exact H]. intros x k a f s _ _ A I.
    assert (G : defined (f a s) /\ forall s', f a s = Ret s' -> wf s').
    { apply (assoc_snd (fun f : cmd (databuf xr) => forall a s, wf s -> defined (f a s) /\ forall s', f a s = Ret s' -> wf s') k _ f) with (2 := A); [|exact I].
      apply Forall_map, Forall_forall. intros k' _. cbn [snd]. intros a0 s0 I0. split; [apply d_simple|]. intros s' Q. eapply wf_simple; eauto. }
    exact G.
  Qed.

  (** Colour and size data. *)
  Definition good_map {X} (m : option (str -> outcome X)) : Prop := match m with Some f => forall v, defined (f v) | None => True end.
  Definition good_marks (m : marks) : Prop := good_map (m_cmap m) /\ good_map (m_smap m).
  Lemma d_colors m : good_marks m -> defined (colors_of W m).
  Proof.
    intros [H _]. unfold colors_of. apply def_forM. intros v _. unfold convert_color. destruct (m_cmap m); [apply H|].
    apply def_bind; [apply d_parse|]. intros [ok c] _. destruct ok; [apply def_ret|apply def_err].
  Qed.
  Lemma d_sizes m : good_marks m -> defined (sizes_of W m).
  Proof.
    intros [_ H]. unfold sizes_of. apply def_forM. intros v _. unfold convert_size. apply def_bind; [|intros; apply def_ret].
    destruct (m_smap m); [apply H|apply d_parse_measure].
  Qed.
  Lemma color_map_good e a f : gradients_full W E e -> given e "color-map" a -> rd_color_map W E a = Ret f -> forall v, defined (f v).
  Proof.
    intros G I Q v. unfold rd_color_map in Q. apply bind_ret in Q. destruct Q as ([kd stops] & Q1 & Q2). injection Q2 as <-.
    destruct kd; [apply d_gradient; eapply G; eauto|apply d_steps].
  Qed.
  Lemma size_map_good a f : rd_size_map W E a = Ret f -> forall v, defined (f v).
  Proof.
    unfold rd_size_map, measure_map_read. intros Q v.
    repeat (match type of Q with
            | match ?x with _ => _ end = _ => destruct x eqn:?; try discriminate
            | bind _ _ = _ => apply bind_ret in Q; destruct Q as (? & _ & Q)
            end).
    all: injection Q as <-; apply d_map_linear.
  Qed.
  Definition keeps (e : list expr) (k : str) (f : cmd marks) : Prop :=
    forall x a m m', In x e -> option_of x = Some (k, a) -> good_marks m -> f a m = Ret m' -> good_marks m'.
  Lemma marks_good tbl e m m' : Forall (fun q => keeps e (fst q) (snd q)) tbl ->
    options tbl e m = Ret m' -> good_marks m -> safe_table tbl -> good_marks m'.
  Proof.
    intros K H G ST. unfold options in H. apply bind_ret in H. destruct H as ([b' r] & H & Q). injection Q as <-.
    eapply (collect_safe good_marks); [|exact G|exact H]. intros x k a f s I O A GS. split.
    - exact (assoc_snd safe_cmd k tbl f ST A a s).
    - intros s' Q. assert (KF : keeps e k f).
      { clear -K A. induction tbl as [|[k' v] tbl IH]; cbn [assoc] in A; [discriminate|]. inversion K; subst.
        destruct (str_eqb_spec k k') as [->|N]; [injection A as <-; assumption|auto]. }
      eapply KF; eauto.
  Qed.
  Lemma marks_color_keep e : gradients_full W E e -> Forall (fun q => keeps e (fst q) (snd q)) (marks_color_options W E).
  Proof.
    intro G. unfold marks_color_options. repeat (apply Forall_cons || apply Forall_nil); cbn [fst snd]; intros x a m m' I O [M1 M2] Q.
    - unfold updf in Q. inv_bind Q. injection Q as <-. split; assumption.
    - unfold updf in Q. inv_bind Q. injection Q as <-. split; assumption.
    - unfold upd in Q. inv_bind Q. injection Q as <-. split; [|exact M2]. cbn. eapply color_map_good; eauto. exists x. now split.
  Qed.
  Lemma marks_keep e : gradients_full W E e -> Forall (fun q => keeps e (fst q) (snd q)) (mark_options W E).
  Proof.
    intro G. unfold mark_options. apply Forall_app. split; [now apply marks_color_keep|].
    repeat (apply Forall_cons || apply Forall_nil); cbn [fst snd]; intros x a m m' I O [M1 M2] Q.
    - unfold upd in Q. inv_bind Q. injection Q as <-. split; assumption.
    - unfold updf in Q. inv_bind Q. injection Q as <-. split; assumption.
    - unfold upd in Q. inv_bind Q. injection Q as <-. split; [exact M1|]. cbn. eapply size_map_good; eauto.
  Qed.
  Lemma bar_keep e : gradients_full W E e -> Forall (fun q => keeps e (fst q) (snd q)) (bar_color_options W E).
  Proof.
    intro G. unfold bar_color_options. apply Forall_app. split; [now apply marks_color_keep|].
    repeat (apply Forall_cons || apply Forall_nil); cbn [fst snd]; intros x a m m' I O [M1 M2] Q.
    unfold updf in Q. inv_bind Q. injection Q as <-. split; assumption.
  Qed.
  Lemma s_mark_colors : safe_table (marks_color_options W E).
  Proof. unfold marks_color_options. tbl; ent. Qed.
  Lemma s_mark : safe_table (mark_options W E).
  Proof. unfold mark_options. apply safe_app; [apply s_mark_colors|]. tbl; ent. Qed.
  Lemma s_bar : safe_table (bar_color_options W E).
  Proof. unfold bar_color_options. apply safe_app; [apply s_mark_colors|]. tbl; ent. Qed.
  Lemma good_plain s : good_marks (plain_marks E s).
  Proof. split; exact I. Qed.

  (** Drawing. *)
  Lemma d_draw_text f s c t p a v r : defined (draw_text_ W E f s c t p a v r).
  Proof. unfold draw_text_. apply def_bind; [apply T|]. intros; apply def_ret. Qed.
  Lemma d_draw_marker m p s c : defined (draw_marker W E m p s c).
  Proof. destruct m; [apply def_ret|apply def_ret|apply d_draw_text]. Qed.
  Lemma d_draw_labels l pos ax ay n : (length (lb_text l) <= n)%nat -> (forall i, (i < n)%nat -> defined (pos i)) ->
    defined (draw_labels W E l pos ax ay).
  Proof.
    intros H P. unfold draw_labels. apply def_draw_each. intros [i t] I. apply def_bind; [|intros; apply d_draw_text].
    apply P. unfold with_index in I. apply in_combine_l, in_seq in I. cbn [fst]. lia.
  Qed.
  Lemma d_both {A B} (xs ys : list xr) i (g : xr -> xr -> A) (f : A -> outcome B) : (i < length xs)%nat -> (i < length ys)%nat ->
    defined (let* x := at_ xs i in let* y := at_ ys i in Ret (g x y)).
  Proof. intros. apply def_bind; [now apply def_at|]. intros. apply def_bind; [now apply def_at|]. intros; apply def_ret. Qed.

  Ltac two := apply def_bind; [apply def_at; lia|]; intros ? _; apply def_bind; [apply def_at; lia|]; intros ? _.

  (** lines *)
  Lemma lines_conf p e : maps_read W e -> defined (lines_configure W E p e).
  Proof.
    intro MR. unfold lines_configure. apply def_bind; [apply run_defined, s_lines|]. intros c Q. destruct (lines_parts W E e p c Q) as (_ & _ & SR & _). rewrite SR. apply def_bind; [apply d_lines, src_maps, MR|]. intros [b g] _. dfn.
  Qed.
  Lemma lines_conf_wf p e c b g : lines_configure W E p e = Ret (c, b, g) ->
    run (lines_table W E) e (lines0 W E p) = Ret c /\ load_lines W (l_src c) = Ret (b, g) /\ wf (fst b) /\ wf (snd b) /\ len (fst b) = len (snd b).
  Proof.
    unfold lines_configure. intro H. apply bind_ret in H. destruct H as (c' & H1 & H). apply bind_ret in H. destruct H as ([b' g'] & H2 & H).
    destruct (Nat.eqb_spec (len (fst b')) (len (snd b'))) as [L|]; [|discriminate]. cbn [negb] in H. destruct (_ =? _)%nat; [discriminate|].
    assert (c' = c /\ b' = b /\ g' = g) as (-> & -> & ->) by (injection H; auto).
    destruct (wf_lines W _ _ _ H2). auto.
  Qed.
  Lemma d_groups clip xs ys : length xs = length ys -> forall groups b0 n, starts b0 groups n -> (n <= length xs)%nat -> forall st fl,
    defined (draw_each (fun g => let* pts := group_points W clip xs ys (fst g) (snd g) in Ret (draw_path_ (polyline pts) st fl))
       (combine (b0 :: groups) (groups ++ [n]))).
  Proof.
    intros L. induction groups as [|g groups IH]; intros b0 n S N st fl.
    - cbn [combine app draw_each]. apply def_bind; [|intros; apply def_ret]. cbn [fst snd]. apply def_bind; [|intros; apply def_ret].
      unfold group_points. apply def_forM. intros i I. apply in_seq in I. two. apply def_ret.
    - cbn [starts] in S. destruct S as [S1 S2]. pose proof (starts_le _ _ _ S2).
      change (combine (b0 :: g :: groups) ((g :: groups) ++ [n])) with ((b0, g) :: combine (g :: groups) (groups ++ [n])).
      cbn [draw_each]. apply def_bind.
      + cbn [fst snd]. apply def_bind; [|intros; apply def_ret].
        unfold group_points. apply def_forM. intros i I. apply in_seq in I. two. apply def_ret.
      + intros ? _. apply def_bind; [now apply IH|]. intros; apply def_ret.
  Qed.
  Lemma lines_safe p e : maps_read W e -> scales_usable W p e ->
    (forall c b g, lines_configure W E p e = Ret (c, b, g) -> (length (lb_text (l_lbl c)) <= len (fst b))%nat) ->
    defined (lines_draw W E p e).
  Proof.
    intros MR [UX UY] LB. unfold lines_draw. apply def_bind; [now apply lines_conf|]. intros [[c b] g] Q. specialize (LB c b g Q).
    destruct (lines_conf_wf _ _ _ _ _ Q) as (R & LL & F1 & F2 & LE). destruct (lines_parts W E e p c R) as (SX & SY & _).
    cbv zeta. apply def_bind; [apply d_to_unit; auto|]. intros xs X. apply def_bind; [apply d_to_unit; auto|]. intros ys Y.
    apply to_unit_length in X. apply to_unit_length in Y.
    apply def_bind. { unfold group_ends. apply d_groups; [lia| |lia]. apply load_lines_starts in LL.
      replace (Nat.min (length xs) (length ys)) with (Nat.min (len (fst b)) (len (snd b))) by lia. exact LL. }
    intros ls _. apply def_bind.
    { destruct (xlt _ _); [|apply def_ret]. apply def_draw_each. intros i I. apply in_seq in I. two. apply d_draw_marker. }
    intros ms _. apply def_bind; [|intros; apply def_ret].
    eapply d_draw_labels; [exact LB|]. intros i I. two. apply def_ret.
  Qed.
  Lemma lines_range p e : maps_read W e -> defined (lines_autorange W E p e).
  Proof.
    intro MR. unfold lines_autorange. apply def_bind; [now apply lines_conf|]. intros [[c b] g] Q.
    destruct (lines_conf_wf _ _ _ _ _ Q) as (R & LL & F1 & F2 & LE). apply def_bind; [now apply d_fit_x|]. intros; now apply d_fit_y.
  Qed.

  (** points *)
  Lemma points_conf p e : maps_read W e -> gradients_full W E e -> defined (points_configure W E p e).
  Proof.
    intros MR G. unfold points_configure. apply def_bind; [apply run_defined, s_points|]. intros c Q. destruct (points_parts W E e p c Q) as (_ & _ & SR & _). rewrite SR. apply def_bind; [apply d_points, src_maps, MR|]. intros b _.
    destruct (negb _); [apply def_err|]. destruct (points_parts W E e p c Q) as (_ & _ & _ & M & _).
    assert (GM : good_marks (p_marks c)) by (eapply marks_good; [apply marks_keep, G|exact M|apply good_plain|apply s_mark]).
    apply def_bind; [now apply d_colors|]. intros. apply def_bind; [now apply d_sizes|]. intros; apply def_ret.
  Qed.
  Lemma points_conf_wf p e c b cs ss : points_configure W E p e = Ret (c, b, cs, ss) ->
    run (points_table W E) e (points0 W E p) = Ret c /\ wf (fst b) /\ wf (snd b) /\ len (fst b) = len (snd b).
  Proof.
    unfold points_configure. intro H. apply bind_ret in H. destruct H as (c' & H1 & H). apply bind_ret in H. destruct H as (b' & H2 & H).
    destruct (Nat.eqb_spec (len (fst b')) (len (snd b'))) as [L|]; [|discriminate]. cbn [negb] in H.
    apply bind_ret in H. destruct H as (? & _ & H). apply bind_ret in H. destruct H as (? & _ & H).
    assert (c' = c /\ b' = b) as (-> & ->) by (injection H; auto).
    destruct (wf_points W _ _ _ _ wf_empty wf_empty H2). auto.
  Qed.
  Lemma points_safe p e : maps_read W e -> scales_usable W p e -> gradients_full W E e ->
    (forall c b cs ss, points_configure W E p e = Ret (c, b, cs, ss) -> (length (lb_text (p_lbl c)) <= len (fst b))%nat) ->
    defined (points_draw W E p e).
  Proof.
    intros MR [UX UY] G LB. unfold points_draw. apply def_bind; [now apply points_conf|]. intros [[[c b] cs] ss] Q. specialize (LB _ _ _ _ Q).
    destruct (points_conf_wf _ _ _ _ _ _ Q) as (R & F1 & F2 & LE). destruct (points_parts W E e p c R) as (SX & SY & _).
    cbv zeta. apply def_bind; [apply d_to_unit; auto|]. intros xs X. apply def_bind; [apply d_to_unit; auto|]. intros ys Y.
    apply to_unit_length in X. apply to_unit_length in Y. apply def_bind.
    { apply def_draw_each. intros i I. apply in_seq in I. two. apply d_draw_marker. }
    intros ms _. apply def_bind; [|intros; apply def_ret].
    eapply d_draw_labels; [exact LB|]. intros i I. two. apply def_ret.
  Qed.
  Lemma points_range p e : maps_read W e -> gradients_full W E e -> defined (points_autorange W E p e).
  Proof.
    intros MR G. unfold points_autorange. apply def_bind; [now apply points_conf|]. intros [[[c b] cs] ss] Q.
    destruct (points_conf_wf _ _ _ _ _ _ Q) as (R & F1 & F2 & LE). apply def_bind; [now apply d_fit_x|]. intros; now apply d_fit_y.
  Qed.

  (** bars *)
  Lemma bars_conf p e : defined (bars_configure W E p e).
  Proof. unfold bars_configure. apply def_bind; [apply run_defined, s_bars|]. intros c _. dfn. Qed.
  Lemma lows_ok n m : (negb (m =? 0) && negb (n =? m))%nat = false -> m = 0%nat \/ n = m.
  Proof. destruct (Nat.eqb_spec m 0); [auto|]. destruct (Nat.eqb_spec n m); [auto|discriminate]. Qed.
  Lemma bars_conf_wf p e c : bars_configure W E p e = Ret c ->
    run (bars_table W E) e (bars0 W E p) = Ret c /\ wf (b_x c) /\ wf (b_y c) /\ wf (b_xlow c) /\ wf (b_ylow c) /\
    len (b_x c) = len (b_y c) /\ (len (b_xlow c) = 0%nat \/ len (b_x c) = len (b_xlow c)) /\ (len (b_ylow c) = 0%nat \/ len (b_y c) = len (b_ylow c)).
  Proof.
    unfold bars_configure. intro H. apply bind_ret in H. destruct H as (c' & H1 & H).
    destruct (Nat.eqb_spec (len (b_x c')) (len (b_y c'))) as [L|]; [|discriminate]. cbn [negb] in H.
    destruct (negb (len (b_xlow c') =? 0) && _)%bool eqn:L1; [discriminate|]. destruct (negb (len (b_ylow c') =? 0) && _)%bool eqn:L2; [discriminate|].
    injection H as <-. destruct (bars_parts W E e p c' H1) as (_ & _ & X & Y & XL & YL & _).
    apply lows_ok in L1. apply lows_ok in L2. repeat (split; [first [assumption | eapply column_wf; eassumption]|]). assumption.
  Qed.
  Lemma d_base z (lows : list xr) n i : (length lows = 0%nat \/ n = length lows) -> (i < n)%nat -> defined (base_at z lows i).
  Proof. intros H I. unfold base_at. destruct lows; [apply def_ret|]. apply def_at. destruct H as [H|H]; [discriminate|lia]. Qed.
  Lemma bars_safe p e : scales_usable W p e ->
    (forall c, bars_configure W E p e = Ret c -> (length (lb_text (b_lbl c)) <= len (b_x c))%nat) ->
    defined (bars_draw W E p e).
  Proof.
    intros [UX UY] LB. unfold bars_draw. apply def_bind; [apply bars_conf|]. intros c Q. specialize (LB _ Q).
    destruct (bars_conf_wf _ _ _ Q) as (R & F1 & F2 & F3 & F4 & LE & LX & LY). destruct (bars_parts W E e p c R) as (SX & SY & _).
    apply UX in SX. apply UY in SY.
    cbv zeta. apply def_bind; [now apply d_to_unit|]. intros xs X. apply def_bind; [now apply d_to_unit|]. intros ys Y.
    apply def_bind; [destruct (b_horiz c); now apply d_to_unit|]. intros lows LO.
    apply def_bind; [destruct (b_horiz c); now apply d_translate_zero|]. intros z _.
    apply to_unit_length in X. apply to_unit_length in Y. apply to_unit_length in LO.
    assert (LL : length lows = 0%nat \/ length xs = length lows) by (destruct (b_horiz c); lia).
    apply def_bind.
    { apply def_draw_each. intros i I. apply in_seq in I. two. apply def_bind; [eapply d_base; [exact LL|lia]|]. intros; apply def_ret. }
    intros ms _. apply def_bind; [|intros; apply def_ret].
    eapply d_draw_labels; [exact LB|]. intros i I. two. apply def_ret.
  Qed.
  Lemma bars_range p e : defined (bars_autorange W E p e).
  Proof.
    unfold bars_autorange. apply def_bind; [apply bars_conf|]. intros c Q.
    destruct (bars_conf_wf _ _ _ Q) as (R & F1 & F2 & F3 & F4 & _). repeat (apply def_bind; [now (apply d_fit_x || apply d_fit_y)|]; intros).
    now apply d_fit_y.
  Qed.

  (** areas *)
  Lemma areas_conf p e : maps_read W e -> defined (areas_configure W E p e).
  Proof.
    intro MR. unfold areas_configure. apply def_bind; [apply run_defined, s_areas|]. intros c Q. destruct (areas_parts W E e p c Q) as (_ & _ & SR & _). rewrite SR. apply def_bind; [apply d_points, src_maps, MR|]. intros b _. dfn.
  Qed.
  Lemma areas_conf_wf p e c : areas_configure W E p e = Ret c ->
    element_scale W "x" e (p_sx p) = Ret (a_sx c) /\ element_scale W "y" e (p_sy p) = Ret (a_sy c) /\
    wf (a_x c) /\ wf (a_y c) /\ wf (a_xlow c) /\ wf (a_ylow c) /\
    len (a_x c) = len (a_y c) /\ (len (a_xlow c) = 0%nat \/ len (a_x c) = len (a_xlow c)) /\ (len (a_ylow c) = 0%nat \/ len (a_y c) = len (a_ylow c)).
  Proof.
    unfold areas_configure. intro H. apply bind_ret in H. destruct H as (c0 & H1 & H). apply bind_ret in H. destruct H as (b & H2 & H). cbv zeta in H.
    destruct (areas_parts W E e p c0 H1) as (SX & SY & _ & X & Y & XL & YL & _).
    destruct (wf_points W _ _ _ _ (column_wf _ _ _ X) (column_wf _ _ _ Y) H2) as [B1 B2].
    set (c' := set_a_y (snd b) (set_a_x (fst b) c0)) in *.
    assert (EQ : a_sx c' = a_sx c0 /\ a_sy c' = a_sy c0 /\ a_x c' = fst b /\ a_y c' = snd b /\ a_xlow c' = a_xlow c0 /\ a_ylow c' = a_ylow c0)
      by (subst c'; destruct c0; cbn; auto 10).
    destruct EQ as (E1 & E2 & E3 & E4 & E5 & E6). clearbody c'.
    destruct (Nat.eqb_spec (len (a_x c')) (len (a_y c'))) as [L|]; [|discriminate]. cbn [negb] in H.
    destruct (negb (len (a_xlow c') =? 0) && _)%bool eqn:L1; [discriminate|]. destruct (negb (len (a_ylow c') =? 0) && _)%bool eqn:L2; [discriminate|].
    assert (c' = c) as <- by (injection H; auto). apply lows_ok in L1. apply lows_ok in L2. rewrite E1, E2.
    split; [exact SX|]. split; [exact SY|]. split; [rewrite E3; exact B1|]. split; [rewrite E4; exact B2|].
    split; [rewrite E5; eapply column_wf; eassumption|]. split; [rewrite E6; eapply column_wf; eassumption|]. auto.
  Qed.
  Lemma areas_safe p e : maps_read W e -> scales_usable W p e -> defined (areas_draw W E p e).
  Proof.
    intros MR [UX UY]. unfold areas_draw. apply def_bind; [now apply areas_conf|]. intros c Q.
    destruct (areas_conf_wf _ _ _ Q) as (SX & SY & F1 & F2 & F3 & F4 & LE & LX & LY). apply UX in SX. apply UY in SY.
    cbv zeta. apply def_bind; [now apply d_to_unit|]. intros xs X. apply def_bind; [now apply d_to_unit|]. intros xl XL.
    apply def_bind; [now apply d_to_unit|]. intros ys Y. apply def_bind; [now apply d_to_unit|]. intros yl YL.
    apply to_unit_length in X. apply to_unit_length in Y. apply to_unit_length in XL. apply to_unit_length in YL.
    apply def_bind. { apply def_forM. intros i I. apply in_seq in I. two. apply def_ret. } intros high _.
    apply def_bind; [destruct (a_horiz c); now apply d_translate_zero|]. intros z _.
    apply def_bind; [|intros; apply def_ret]. apply def_forM. intros i I. apply in_rev, in_seq in I. two.
    apply def_bind; [|intros; apply def_ret]. eapply (d_base _ _ (length xs)); [|lia]. destruct (a_horiz c); lia.
  Qed.
  Lemma areas_range p e : maps_read W e -> defined (areas_autorange W E p e).
  Proof.
    intro MR. unfold areas_autorange. apply def_bind; [now apply areas_conf|]. intros c Q.
    destruct (areas_conf_wf _ _ _ Q) as (_ & _ & F1 & F2 & F3 & F4 & _). repeat (apply def_bind; [now (apply d_fit_x || apply d_fit_y)|]; intros).
    now apply d_fit_y.
  Qed.

  (** errorbars *)
  Lemma err_conf p e : gradients_full W E e -> defined (err_configure W E p e).
  Proof.
    intro G. unfold err_configure. apply def_bind; [apply run_defined, s_err|]. intros c Q. cbv zeta.
    destruct (_ && _)%bool; [apply def_err|]. destruct (_ && _)%bool; [apply def_err|]. destruct (negb _); [apply def_err|].
    destruct (err_parts W E e p c Q) as (_ & _ & _ & _ & _ & _ & _ & _ & _ & _ & M).
    assert (GM : good_marks (e_marks c)) by (eapply marks_good; [apply bar_keep, G|exact M|apply good_plain|apply s_bar]).
    apply def_bind; [now apply d_colors|]. intros; apply def_ret.
  Qed.
  Lemma err_conf_run p e c cs : err_configure W E p e = Ret (c, cs) -> run (err_table W E) e (err0 W E p) = Ret c.
  Proof.
    unfold err_configure. intro H. apply bind_ret in H. destruct H as (c' & H1 & H). cbv zeta in H.
    destruct (_ && _)%bool; [discriminate|]. destruct (_ && _)%bool; [discriminate|]. destruct (negb _); [discriminate|].
    apply bind_ret in H. destruct H as (? & _ & H). assert (c' = c) as <- by (injection H; auto). exact H1.
  Qed.
  Ltac three := two; apply def_bind; [apply def_at; lia|]; intros ? _.
  Lemma err_safe p e : scales_usable W p e -> gradients_full W E e -> defined (errorbars_draw W E p e).
  Proof.
    intros [UX UY] G. unfold errorbars_draw. apply def_bind; [now apply err_conf|]. intros [c cs] Q. apply err_conf_run in Q.
    destruct (err_parts W E e p c Q) as (SX & SY & X & Y & XL & XH & YL & YH & _). apply UX in SX. apply UY in SY.
    apply column_wf in X, Y, XL, XH, YL, YH. cbv zeta.
    do 6 (apply def_bind; [now apply d_to_unit|]; intros ? _).
    apply def_bind; [|intros ? _; apply def_bind; [|intros; apply def_ret]];
      (apply def_draw_each; intros i I; apply in_seq in I; unfold min3 in I; three; apply def_ret).
  Qed.
  Lemma err_range p e : gradients_full W E e -> defined (errorbars_autorange W E p e).
  Proof.
    intro G. unfold errorbars_autorange. apply def_bind; [now apply err_conf|]. intros [c cs] Q. apply err_conf_run in Q.
    destruct (err_parts W E e p c Q) as (_ & _ & X & Y & XL & XH & YL & YH & _). apply column_wf in X, Y, XL, XH, YL, YH.
    repeat (apply def_bind; [now (apply d_fit_x || apply d_fit_y)|]; intros). now apply d_fit_y.
  Qed.

  (** labels *)
  Lemma labels_conf p e : maps_read W e -> defined (labels_configure W E p e).
  Proof.
    intro MR. unfold labels_configure. apply def_bind; [apply run_defined, s_texts|]. intros c Q. destruct (labels_parts W E e p c Q) as (_ & _ & SR & _). rewrite SR. apply def_bind; [apply d_points, src_maps, MR|]. intros b _. dfn.
  Qed.
  Lemma labels_conf_wf p e c b : labels_configure W E p e = Ret (c, b) ->
    run (labels_table W E) e (mk_labels src0 (p_sx p) (p_sy p) (lbl0 W E)) = Ret c /\ wf (fst b) /\ wf (snd b) /\ len (fst b) = len (snd b).
  Proof.
    unfold labels_configure. intro H. apply bind_ret in H. destruct H as (c' & H1 & H). apply bind_ret in H. destruct H as (b' & H2 & H).
    destruct (Nat.eqb_spec (len (fst b')) (len (snd b'))) as [L|]; [|discriminate]. cbn [negb] in H.
    assert (c' = c /\ b' = b) as (-> & ->) by (injection H; auto).
    destruct (wf_points W _ _ _ _ wf_empty wf_empty H2). auto.
  Qed.
  Lemma labels_safe p e : maps_read W e -> scales_usable W p e ->
    (forall c b, labels_configure W E p e = Ret (c, b) -> (length (lb_text (t_lbl c)) <= len (fst b))%nat) ->
    defined (labels_draw W E p e).
  Proof.
    intros MR [UX UY] LB. unfold labels_draw. apply def_bind; [now apply labels_conf|]. intros [c b] Q. specialize (LB _ _ Q).
    destruct (labels_conf_wf _ _ _ _ Q) as (R & F1 & F2 & LE). destruct (labels_parts W E e p c R) as (SX & SY & _).
    cbv zeta. apply def_bind; [apply d_to_unit; auto|]. intros xs X. apply def_bind; [apply d_to_unit; auto|]. intros ys Y.
    apply to_unit_length in X. apply to_unit_length in Y.
    eapply d_draw_labels; [exact LB|]. intros i I. two. apply def_ret.
  Qed.
  Lemma labels_range p e : maps_read W e -> defined (labels_autorange W E p e).
  Proof.
    intro MR. unfold labels_autorange. apply def_bind; [now apply labels_conf|]. intros [c b] Q.
    destruct (labels_conf_wf _ _ _ _ Q) as (R & F1 & F2 & LE). apply def_bind; [now apply d_fit_x|]. intros; now apply d_fit_y.
  Qed.

  (** vectors *)
  Lemma vectors_conf p e : maps_read W e -> gradients_full W E e -> defined (vectors_configure W E p e).
  Proof.
    intros MR G. unfold vectors_configure. apply def_bind; [apply run_defined, s_vectors|]. intros c Q. destruct (vectors_parts W E e p c Q) as (_ & _ & SR & _). rewrite SR. apply def_bind; [apply d_points, src_maps, MR|]. intros b _.
    destruct (negb _); [apply def_err|]. destruct (vectors_parts W E e p c Q) as (_ & _ & _ & _ & _ & M).
    assert (GM : good_marks (v_marks c)) by (eapply marks_good; [apply marks_keep, G|exact M|apply good_plain|apply s_mark]).
    apply def_bind; [now apply d_colors|]. intros. apply def_bind; [now apply d_sizes|]. intros; apply def_ret.
  Qed.
  Lemma vectors_conf_wf p e c b cs ss : vectors_configure W E p e = Ret (c, b, cs, ss) ->
    run (vectors_table W E) e (mk_vectors src0 empty empty (p_sx p) (p_sy p) (mk_marks (e_fg E) [] None (pt W E 1) [] None)) = Ret c /\
    wf (fst b) /\ wf (snd b) /\ len (fst b) = len (snd b).
  Proof.
    unfold vectors_configure. intro H. apply bind_ret in H. destruct H as (c' & H1 & H). apply bind_ret in H. destruct H as (b' & H2 & H).
    destruct (Nat.eqb_spec (len (fst b')) (len (snd b'))) as [L|]; [|discriminate]. cbn [negb] in H.
    apply bind_ret in H. destruct H as (? & _ & H). apply bind_ret in H. destruct H as (? & _ & H).
    assert (c' = c /\ b' = b) as (-> & ->) by (injection H; auto).
    destruct (wf_points W _ _ _ _ wf_empty wf_empty H2). auto.
  Qed.
  Lemma magnitudes_length s b l : magnitudes W s b = Ret l -> length l = len b.
  Proof.
    unfold magnitudes, translate_magnitudev. intro H. apply bind_ret in H. destruct H as (vs & H & Q). injection Q as <-.
    rewrite map_length. unfold databuf_to_numbers in H. rewrite (numbers_length _ _ _ _ _ H). reflexivity.
  Qed.
  Lemma vectors_safe p e : maps_read W e -> scales_usable W p e -> gradients_full W E e ->
    (forall c b cs ss, vectors_configure W E p e = Ret (c, b, cs, ss) -> (len (fst b) <= len (v_dx c) /\ len (fst b) <= len (v_dy c))%nat) ->
    defined (vectors_draw W E p e).
  Proof.
    intros MR [UX UY] G LB. unfold vectors_draw. apply def_bind; [now apply vectors_conf|]. intros [[[c b] cs] ss] Q. destruct (LB _ _ _ _ Q) as [LX LY].
    destruct (vectors_conf_wf _ _ _ _ _ _ Q) as (R & F1 & F2 & LE). destruct (vectors_parts W E e p c R) as (SX & SY & _ & DX & DY & _).
    apply column_wf in DX, DY.
    cbv zeta. apply def_bind; [apply d_to_unit; auto|]. intros xs X. apply def_bind; [apply d_to_unit; auto|]. intros ys Y.
    apply def_bind; [now apply d_magnitudes|]. intros dxs MX. apply def_bind; [now apply d_magnitudes|]. intros dys MY.
    apply to_unit_length in X. apply to_unit_length in Y. apply magnitudes_length in MX. apply magnitudes_length in MY.
    apply def_draw_each. intros i I. apply in_seq in I. two. two. apply def_ret.
  Qed.
  Lemma vectors_range p e : maps_read W e -> gradients_full W E e -> defined (vectors_autorange W E p e).
  Proof.
    intros MR G. unfold vectors_autorange. apply def_bind; [now apply vectors_conf|]. intros [[[c b] cs] ss] Q.
    destruct (vectors_conf_wf _ _ _ _ _ _ Q) as (R & F1 & F2 & LE). apply def_bind; [now apply d_fit_x|]. intros; now apply d_fit_y.
  Qed.

  (** rectangles *)
  Lemma rects_conf p e : maps_read W e -> gradients_full W E e -> defined (rects_configure W E p e).
  Proof.
    intros MR G. unfold rects_configure. apply def_bind; [apply run_defined, s_rects|]. intros c Q. destruct (rects_parts W E e p c Q) as (_ & _ & SR & _). rewrite SR. apply def_bind; [apply d_points, src_maps, MR|]. intros b _.
    destruct (negb _); [apply def_err|]. destruct (rects_parts W E e p c Q) as (_ & _ & _ & _ & _ & _ & _ & M).
    assert (GM : good_marks (r_marks c)) by (eapply marks_good; [apply marks_color_keep, G|exact M|apply good_plain|apply s_mark_colors]).
    apply def_bind; [now apply d_colors|]. intros; apply def_ret.
  Qed.
  Lemma rects_conf_wf p e c b cs : rects_configure W E p e = Ret (c, b, cs) ->
    run (rects_table W E) e (mk_rects src0 empty empty (Fin 0) (Fin 0) (p_sx p) (p_sy p) (mk_marks (e_fg E) [] None (Fin 0) [] None)) = Ret c /\
    wf (fst b) /\ wf (snd b) /\ len (fst b) = len (snd b).
  Proof.
    unfold rects_configure. intro H. apply bind_ret in H. destruct H as (c' & H1 & H). apply bind_ret in H. destruct H as (b' & H2 & H).
    destruct (Nat.eqb_spec (len (fst b')) (len (snd b'))) as [L|]; [|discriminate]. cbn [negb] in H.
    apply bind_ret in H. destruct H as (? & _ & H).
    assert (c' = c /\ b' = b) as (-> & ->) by (injection H; auto).
    destruct (wf_points W _ _ _ _ wf_empty wf_empty H2). auto.
  Qed.
  Lemma rects_safe p e : maps_read W e -> scales_usable W p e -> gradients_full W E e -> defined (rectangles_draw W E p e).
  Proof.
    intros MR [UX UY] G. unfold rectangles_draw. apply def_bind; [now apply rects_conf|]. intros [[c b] cs] Q.
    destruct (rects_conf_wf _ _ _ _ _ Q) as (R & F1 & F2 & LE). destruct (rects_parts W E e p c R) as (SX & SY & _ & DX & DY & _).
    apply column_wf in DX, DY.
    cbv zeta. apply def_bind; [apply d_to_unit; auto|]. intros xs X. apply def_bind; [apply d_to_unit; auto|]. intros ys Y.
    apply def_bind; [now apply d_magnitudes|]. intros dxs MX. apply def_bind; [now apply d_magnitudes|]. intros dys MY.
    apply to_unit_length in X. apply to_unit_length in Y.
    apply def_draw_each. intros i I. apply in_seq in I. two. apply def_ret.
  Qed.
  Lemma rects_range p e : maps_read W e -> gradients_full W E e -> defined (rectangles_autorange W E p e).
  Proof.
    intros MR G. unfold rectangles_autorange. apply def_bind; [now apply rects_conf|]. intros [[c b] cs] Q.
    destruct (rects_conf_wf _ _ _ _ _ Q) as (R & F1 & F2 & LE). apply def_bind; [now apply d_fit_x|]. intros; now apply d_fit_y.
  Qed.

  (** polygons *)
  Lemma fit_kind_ vs : forall s, s_kind (fit_values vs s) = s_kind s.
  Proof.
    unfold fit_values. induction vs as [|v vs IH]; intro s; cbn [fold_left]; [reflexivity|]. rewrite IH.
    unfold fit. destruct s. cbn. repeat (match goal with |- context [match ?x with _ => _ end] => destruct x end); reflexivity.
  Qed.
  Lemma polys_safe p e : maps_read W e ->
    (forall s, options (firstn 4 (scale_options W "x")) e (p_sx p) = Ret s -> s_kind s <> Categorical) ->
    (forall s, options (firstn 4 (scale_options W "y")) e (p_sy p) = Ret s -> s_kind s <> Categorical) ->
    defined (polygons_draw W E p e).
  Proof.
    intros MR UX UY. unfold polygons_draw, polys_configure. apply def_bind.
    { apply def_bind; [now apply polys_run|]. intros; apply def_ret. }
    intros [c p1] Q. apply bind_ret in Q. destruct Q as (c0 & R & Q). destruct (polys_parts W E e p c0 R) as (SX & SY & _).
    apply UX in SX. apply UY in SY.
    assert (KX : s_kind (g_sx c) <> Categorical /\ s_kind (g_sy c) <> Categorical).
    { cbv zeta in Q. set (v1 := map vx _) in Q. set (v2 := map vy _) in Q.
      assert (c = set_g_sy (fit_values v2 (g_sy c0)) (set_g_sx (fit_values v1 (g_sx c0)) c0)) as -> by congruence.
      clear -SX SY. clearbody v1 v2. destruct c0. cbn in *. rewrite !fit_kind_. auto. }
    cbv zeta. apply def_bind; [|intros; apply def_ret]. apply def_forM. intros q _. apply def_bind; [|intros; apply def_ret].
    apply def_forM. intros v _.
    assert (D : forall s u, s_kind s <> Categorical -> defined (scale_translate (w_d W) (w_f W) s u)).
    { intros s u N. unfold scale_translate. destruct (s_kind s); try apply def_ret. congruence. }
    apply def_bind; [apply D, KX|]. intros. apply def_bind; [apply D, KX|]. intros; apply def_ret.
  Qed.
  Lemma polys_range p e : maps_read W e -> defined (polygons_autorange W E p e).
  Proof.
    intro MR. unfold polygons_autorange, polys_configure. apply def_bind; [|intros [? ?] _; apply def_ret]. apply def_bind; [now apply polys_run|].
    intros; apply def_ret.
  Qed.
End Elements.
