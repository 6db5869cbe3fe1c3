(** plot_prepare fits the scales to the data of all elements. *)
From Coq Require Import Reals Lra.
From Verif Require Import Base Num Sexpr_Model Dispatch_Model Dispatch_Spec Data_Model Data_Spec Data_Proofs Scale_Model Scale_Spec Scale_Proofs Scale_Proofs4
  Units_Model Color_Model Geo_Model Svg_Model Geojson_Model Cmd_Model Cmd_Spec Cmd_Proofs Style_Model Plot_Model Plot_Spec Plot_Proofs Plot_Parts Plot_Loops Eval_Model Range_Spec.
Local Open Scope R_scope.

Lemma fit_all_app s a b : fit_all s (a ++ b) = fit_all (fit_all s a) b.
Proof. unfold fit_all. now rewrite fold_left_app. Qed.
Lemma fit_kind s vs : s_kind (fit_all s vs) = s_kind s.
Proof. apply (fit_all_fields s vs). Qed.

(** Options of a scale do not touch what has been fitted. *)
Definition refit (s : scale) (lo hi : option xr) : scale :=
  mk_scale (s_kind s) (s_min s) (s_max s) (s_log_base s) (s_inverted s) (s_padding s) lo hi (s_categories s) (s_cmap s).
Lemma fit_all_refit s vs : fit_all s vs = refit s (fold_left low vs (h_min s)) (fold_left high vs (h_max s)).
Proof.
  pose proof (fit_all_fields s vs) as H. cbv zeta in H. destruct (fit_all s vs). cbn in H.
  destruct H as (-> & -> & -> & -> & -> & -> & -> & -> & -> & ->). reflexivity.
Qed.
Definition steady (f : list expr -> scale -> outcome scale) : Prop := forall a s lo hi,
  f a (refit s lo hi) = let* s' := f a s in Ret (refit s' lo hi).
Definition keeps (f : list expr -> scale -> outcome scale) : Prop := forall a s s',
  f a s = Ret s' -> h_min s' = h_min s /\ h_max s' = h_max s.

Section Fit.
  Variables (W : world).
  Lemma limits_steady : steady (rd_limits W).
  Proof.
    intros a s lo hi. unfold rd_limits. cbn [s_min s_max refit].
    destruct (ended _) as [[[x|] [y|]]| | | |]; reflexivity.
  Qed.
  Lemma configure_steady lo hi e : forall s,
    configure_kind (w_stod W) (w_read_file W) e (refit s lo hi) =
    (refit (fst (configure_kind (w_stod W) (w_read_file W) e s)) lo hi, snd (configure_kind (w_stod W) (w_read_file W) e s)).
  Proof.
    induction e as [|x e IH]; intro s; [reflexivity|]. cbn [configure_kind].
    destruct (is_val (x :: e) (s_ "linear")); [exact (IH (set_kind s Linear))|].
    destruct (is_val (x :: e) (s_ "log") || is_val (x :: e) (s_ "logarithmic")); [exact (IH (set_kind s Logarithmic))|].
    destruct (match list_headed (x :: e) (s_ "log") with Some a => Some a | None => list_headed (x :: e) (s_ "logarithmic") end) as [args|].
    { destruct (expr_to_float64 (w_stod W) args) as [b| | | |]; try reflexivity. exact (IH (set_log_base (set_kind s Logarithmic) b)). }
    destruct (is_val (x :: e) (s_ "invert") || is_val (x :: e) (s_ "inverted")); [exact (IH (set_inverted s))|].
    destruct (is_val (x :: e) (s_ "categorical")); [exact (IH (set_categorical s))|].
    destruct (list_headed (x :: e) (s_ "categorical")) as [args|]; [|reflexivity].
    change (s_categories (set_categorical (refit s lo hi))) with (s_categories (set_categorical s)).
    destruct (data_load_strings (w_read_file W) args (s_categories (set_categorical s))) as [c o].
    destruct o; try reflexivity. exact (IH (index_categories (set_categories (set_categorical s) c))).
  Qed.
  Lemma configure_keeps e : forall s s' o, configure_kind (w_stod W) (w_read_file W) e s = (s', o) -> h_min s' = h_min s /\ h_max s' = h_max s.
  Proof.
    induction e as [|x e IH]; intros s s' o; cbn [configure_kind]; [intro H; injection H as <- _; auto|].
    destruct (is_val (x :: e) (s_ "linear")); [intro H; apply IH in H; exact H|].
    destruct (is_val (x :: e) (s_ "log") || is_val (x :: e) (s_ "logarithmic")); [intro H; apply IH in H; exact H|].
    destruct (match list_headed (x :: e) (s_ "log") with Some a => Some a | None => list_headed (x :: e) (s_ "logarithmic") end) as [args|].
    { destruct (expr_to_float64 (w_stod W) args) as [b| | | |]; intro H; try (injection H as <- _; auto; fail). apply IH in H. exact H. }
    destruct (is_val (x :: e) (s_ "invert") || is_val (x :: e) (s_ "inverted")); [intro H; apply IH in H; exact H|].
    destruct (is_val (x :: e) (s_ "categorical")); [intro H; apply IH in H; exact H|].
    destruct (list_headed (x :: e) (s_ "categorical")) as [args|]; [|intro H; injection H as <- _; auto].
    destruct (data_load_strings (w_read_file W) args (s_categories (set_categorical s))) as [c r].
    destruct r; intro H; try (injection H as <- _; auto; fail). apply IH in H. exact H.
  Qed.
  Lemma kind_steady : steady (rd_kind W).
  Proof.
    intros a s lo hi. unfold rd_kind. rewrite configure_steady. destruct (configure_kind _ _ a s) as [s' o]. cbn [fst snd ended].
    destruct o; reflexivity.
  Qed.
  Lemma kind_keeps : keeps (rd_kind W).
  Proof.
    intros a s s'. unfold rd_kind. destruct (configure_kind _ _ a s) as [s1 o] eqn:C. cbn [ended]. destruct o; try discriminate.
    intro H. injection H as <-. now apply configure_keeps in C.
  Qed.
  Lemma limits_keeps : keeps (rd_limits W).
  Proof. intros a s s'. unfold rd_limits. destruct (ended _) as [[[x|] [y|]]| | | |]; try discriminate. intro H. injection H as <-. auto. Qed.

  Lemma fitted (f : cmd scale) : steady f -> keeps f -> forall a s s' vs, f a (fit_all s vs) = Ret s' ->
    exists s1, f a s = Ret s1 /\ s' = fit_all s1 vs.
  Proof.
    intros St K a s s' vs H. rewrite fit_all_refit, St in H. destruct (f a s) as [s1| | | |] eqn:F; try discriminate.
    injection H as <-. exists s1. split; [reflexivity|]. rewrite fit_all_refit. apply K in F as [-> ->]. reflexivity.
  Qed.
End Fit.

(** What an entry of the table of plot_prepare does to an axis. *)
Definition entry_fits (W : world) (ax : axis_) (kf : str * cmd plot) : Prop := forall a p p' s vs,
  snd kf a p = Ret p' -> scale_of ax p = fit_all s vs -> s_kind s <> Categorical ->
  p_margins p' = p_margins p /\ p_stack p' = p_stack p /\
  exists s' vs', match assoc (fst kf) (scale_options W (name ax)) with Some g => g a s | None => Ret s end = Ret s' /\
    match assoc (fst kf) (element_data W ax) with Some g => g a | None => Ret [] end = Ret vs' /\
    scale_of ax p' = fit_all s' (vs ++ vs').

Section Table.
  Variables (W : world) (E : env).

  Lemma fit_data_numbers s b s' : s_kind s <> Categorical -> fit_data W s b = Ret s' -> exists vs, numbers W b = Ret vs /\ s' = fit_all s vs.
  Proof.
    intros K H. unfold fit_data, fit_buf in H. unfold numbers.
    destruct (s_kind s); [| |easy]; (destruct (databuf_to_numbers xr (parse_f64 (w_stod W)) b []) as [vs| | | |]; try discriminate; injection H as <-; eauto).
  Qed.
  (* fitting a column to one axis *)
  Lemma fit_x_ok b p p' : fit_x W b p = Ret p' ->
    p_margins p' = p_margins p /\ p_stack p' = p_stack p /\ p_sy p' = p_sy p /\ fit_data W (p_sx p) b = Ret (p_sx p').
  Proof. unfold fit_x. destruct (fit_data W (p_sx p) b) as [s| | | |]; try discriminate. intro H. injection H as <-. auto. Qed.
  Lemma fit_y_ok b p p' : fit_y W b p = Ret p' ->
    p_margins p' = p_margins p /\ p_stack p' = p_stack p /\ p_sx p' = p_sx p /\ fit_data W (p_sy p) b = Ret (p_sy p').
  Proof. unfold fit_y. destruct (fit_data W (p_sy p) b) as [s| | | |]; try discriminate. intro H. injection H as <-. auto. Qed.

  (** fit_x of [bx] one after the other, then fit_y of [bys]. *)
  Fixpoint fits (f : databuf xr -> plot -> outcome plot) (l : list (databuf xr)) (p : plot) : outcome plot :=
    match l with [] => Ret p | b :: r => let* p := f b p in fits f r p end.
  Lemma fits_x l : forall p p' s vs, fits (fit_x W) l p = Ret p' -> p_sx p = fit_all s vs -> s_kind s <> Categorical ->
    p_margins p' = p_margins p /\ p_stack p' = p_stack p /\ p_sy p' = p_sy p /\
    exists vs', all_numbers W l = Ret vs' /\ p_sx p' = fit_all s (vs ++ vs').
  Proof.
    induction l as [|b l IH]; intros p p' s vs H Q K; cbn [fits all_numbers] in *.
    - injection H as <-. do 3 (split; [reflexivity|]). exists []. now rewrite app_nil_r.
    - inv_bind H. apply fit_x_ok in A as (A1 & A2 & A3 & A4).
      destruct (fit_data_numbers (p_sx p) _ _ ltac:(rewrite Q, fit_kind; exact K) A4) as (us & N & Q').
      rewrite Q, <- fit_all_app in Q'. destruct (IH _ _ _ _ H Q' K) as (B1 & B2 & B3 & vs' & M & R).
      rewrite B1, B2, B3, A1, A2, A3. do 3 (split; [reflexivity|]). exists (us ++ vs'). rewrite N, M. cbn [bind]. split; [reflexivity|].
      now rewrite R, app_assoc.
  Qed.
  Lemma fits_y l : forall p p' s vs, fits (fit_y W) l p = Ret p' -> p_sy p = fit_all s vs -> s_kind s <> Categorical ->
    p_margins p' = p_margins p /\ p_stack p' = p_stack p /\ p_sx p' = p_sx p /\
    exists vs', all_numbers W l = Ret vs' /\ p_sy p' = fit_all s (vs ++ vs').
  Proof.
    induction l as [|b l IH]; intros p p' s vs H Q K; cbn [fits all_numbers] in *.
    - injection H as <-. do 3 (split; [reflexivity|]). exists []. now rewrite app_nil_r.
    - inv_bind H. apply fit_y_ok in A as (A1 & A2 & A3 & A4).
      destruct (fit_data_numbers (p_sy p) _ _ ltac:(rewrite Q, fit_kind; exact K) A4) as (us & N & Q').
      rewrite Q, <- fit_all_app in Q'. destruct (IH _ _ _ _ H Q' K) as (B1 & B2 & B3 & vs' & M & R).
      rewrite B1, B2, B3, A1, A2, A3. do 3 (split; [reflexivity|]). exists (us ++ vs'). rewrite N, M. cbn [bind]. split; [reflexivity|].
      now rewrite R, app_assoc.
  Qed.
  Lemma fits_x_other l : forall p p', fits (fit_x W) l p = Ret p' -> p_margins p' = p_margins p /\ p_stack p' = p_stack p /\ p_sy p' = p_sy p.
  Proof.
    induction l as [|b l IH]; intros p p' H; cbn [fits] in H; [injection H as <-; auto|]. inv_bind H.
    apply fit_x_ok in A as (A1 & A2 & A3 & _). apply IH in H as (B1 & B2 & B3). rewrite B1, B2, B3. auto.
  Qed.
  Lemma fits_y_other l : forall p p', fits (fit_y W) l p = Ret p' -> p_margins p' = p_margins p /\ p_stack p' = p_stack p /\ p_sx p' = p_sx p.
  Proof.
    induction l as [|b l IH]; intros p p' H; cbn [fits] in H; [injection H as <-; auto|]. inv_bind H.
    apply fit_y_ok in A as (A1 & A2 & A3 & _). apply IH in H as (B1 & B2 & B3). rewrite B1, B2, B3. auto.
  Qed.
  Lemma fits_both ax lx ly p p' s vs :
    (let* q := fits (fit_x W) lx p in fits (fit_y W) ly q) = Ret p' -> scale_of ax p = fit_all s vs -> s_kind s <> Categorical ->
    p_margins p' = p_margins p /\ p_stack p' = p_stack p /\
    exists vs', all_numbers W (of ax lx ly) = Ret vs' /\ scale_of ax p' = fit_all s (vs ++ vs').
  Proof.
    intros H Q K. inv_bind H. destruct ax; cbn [of scale_of] in *.
    - destruct (fits_x _ _ _ _ _ A Q K) as (B1 & B2 & B3 & vs' & M & R). destruct (fits_y_other _ _ _ H) as (C1 & C2 & C3).
      split; [congruence|]. split; [congruence|]. exists vs'. split; [exact M|]. congruence.
    - destruct (fits_x_other _ _ _ A) as (C1 & C2 & C3). rewrite <- C3 in Q. destruct (fits_y _ _ _ _ _ H Q K) as (B1 & B2 & B3 & vs' & M & R).
      split; [congruence|]. split; [congruence|]. exists vs'. split; [exact M|]. exact R.
  Qed.
  Lemma all_one b : all_numbers W [b] = numbers W b.
  Proof. cbn. destruct (numbers W b); try reflexivity. cbn. now rewrite app_nil_r. Qed.
  Lemma bind_ret_r {A} (o : outcome A) : (let* x := o in Ret x) = o. Proof. now destruct o. Qed.
  Lemma fits_one f b q : fits f [b] q = f b q.
  Proof. cbn [fits]. apply bind_ret_r. Qed.
  Lemma bind_assoc {A B C} (o : outcome A) (f : A -> outcome B) (g : B -> outcome C) :
    (let* y := (let* x := o in f x) in g y) = let* x := o in let* y := f x in g y.
  Proof. now destruct o. Qed.

  (** An element that loads the columns [lx], [ly] and fits them. *)
  Lemma element_fits ax k (f : plot -> list expr -> outcome plot) (data : list expr -> outcome (list xr)) :
    assoc k (scale_options W (name ax)) = None -> assoc k (element_data W ax) = Some data ->
    (forall p a p', f p a = Ret p' -> exists lx ly,
       (let* q := fits (fit_x W) lx p in fits (fit_y W) ly q) = Ret p' /\ data a = all_numbers W (of ax lx ly)) ->
    entry_fits W ax (k, ranges f).
  Proof.
    intros O D F a p p' s vs H Q K. cbn [fst snd] in *. unfold ranges in H. apply F in H as (lx & ly & H & N).
    destruct (fits_both ax _ _ _ _ _ _ H Q K) as (A & B & vs' & M & R).
    split; [exact A|]. split; [exact B|]. exists s, vs'. rewrite O, D, N. auto.
  Qed.
  Ltac two := unfold fits; rewrite bind_ret_r; apply bind_ret; eauto.

  Lemma lines_fits ax : entry_fits W ax (s_ "lines", ranges (lines_autorange W E)).
  Proof.
    eapply element_fits; [destruct ax; reflexivity|destruct ax; reflexivity|]. intros p a p' H.
    unfold lines_autorange in H. inv_bind H. destruct v as [[c b] g]. exists [fst b], [snd b].
    split; [rewrite fits_one; inv_bind H; rewrite A0; cbn [bind]; now rewrite fits_one|].
    unfold lines_configure in A. inv_bind A. destruct (load_lines W (l_src v)) as [[b' g']| | | |] eqn:L; try discriminate A.
    apply lines_parts in A0 as (_ & _ & S & _). rewrite S in L. rewrite L. cbn [bind].
    assert (b' = b). { cbn [bind] in A. repeat (match type of A with context [if ?c then _ else _] => destruct c end; try discriminate A). now injection A. }
    subst. destruct ax; cbn [of]; rewrite all_one; reflexivity.
  Qed.
  Ltac take A := repeat (match type of A with
    | context [if ?c then _ else _] => destruct c; try discriminate A
    | (let* _ := ?o in _) = Ret _ => destruct o; cbn [bind] in A; try discriminate A
    end).
  Ltac points_like ax parts A := unfold points_data; inv_bind A;
    match goal with R : run _ _ _ = Ret ?c |- _ => apply parts in R as (_ & _ & S & _); rewrite S in A end;
    inv_bind A; match goal with L : load_points W _ _ _ = Ret ?b |- _ => rewrite L; cbn [bind] end;
    take A; injection A; intros; subst; match goal with b : (databuf xr * databuf xr)%type |- _ => destruct b end; destruct ax; cbn [of fst snd]; now rewrite all_one.
  Lemma points_fits ax : entry_fits W ax (s_ "points", ranges (points_autorange W E)).
  Proof.
    eapply element_fits; [destruct ax; reflexivity|destruct ax; reflexivity|]. intros p a p' H.
    unfold points_autorange in H. inv_bind H. destruct v as [[[c b] cols] szs]. exists [fst b], [snd b].
    split; [rewrite fits_one; inv_bind H; rewrite A0; cbn [bind]; now rewrite fits_one|].
    unfold points_configure in A. points_like ax points_parts A.
  Qed.
  Lemma labels_fits ax : entry_fits W ax (s_ "labels", ranges (labels_autorange W E)).
  Proof.
    eapply element_fits; [destruct ax; reflexivity|destruct ax; reflexivity|]. intros p a p' H.
    unfold labels_autorange in H. inv_bind H. destruct v as [c b]. exists [fst b], [snd b].
    split; [rewrite fits_one; inv_bind H; rewrite A0; cbn [bind]; now rewrite fits_one|].
    unfold labels_configure in A. points_like ax labels_parts A.
  Qed.
  Lemma vectors_fits ax : entry_fits W ax (s_ "vectors", ranges (vectors_autorange W E)).
  Proof.
    eapply element_fits; [destruct ax; reflexivity|destruct ax; reflexivity|]. intros p a p' H.
    unfold vectors_autorange in H. inv_bind H. destruct v as [[[c b] cols] szs]. exists [fst b], [snd b].
    split; [rewrite fits_one; inv_bind H; rewrite A0; cbn [bind]; now rewrite fits_one|].
    unfold vectors_configure in A. points_like ax vectors_parts A.
  Qed.
  Lemma rectangles_fits ax : entry_fits W ax (s_ "rectangles", ranges (rectangles_autorange W E)).
  Proof.
    eapply element_fits; [destruct ax; reflexivity|destruct ax; reflexivity|]. intros p a p' H.
    unfold rectangles_autorange in H. inv_bind H. destruct v as [[c b] cols]. exists [fst b], [snd b].
    split; [rewrite fits_one; inv_bind H; rewrite A0; cbn [bind]; now rewrite fits_one|].
    unfold rects_configure in A. points_like ax rects_parts A.
  Qed.
  Lemma bars_fits ax : entry_fits W ax (s_ "bars", ranges (bars_autorange W E)).
  Proof.
    eapply element_fits; [destruct ax; reflexivity|destruct ax; reflexivity|]. intros p a p' H.
    unfold bars_autorange in H. inv_bind H. rename v into c. exists [b_x c; b_xlow c], [b_y c; b_ylow c]. split.
    - cbn [fits]. rewrite !bind_assoc. inv_bind H. rewrite A0. cbn [bind]. inv_bind H. rewrite A1. cbn [bind]. inv_bind H. rewrite A2. cbn [bind].
      now rewrite bind_ret_r.
    - unfold bars_configure in A. inv_bind A. apply bars_parts in A0 as (_ & _ & P1 & P2 & P3 & P4 & _). take A. injection A as ->.
      destruct ax; cbn [of]; rewrite ?P1, ?P2; cbn [bind]; rewrite ?P3, ?P4; reflexivity.
  Qed.
  Lemma areas_fits ax : entry_fits W ax (s_ "areas", ranges (areas_autorange W E)).
  Proof.
    eapply element_fits; [destruct ax; reflexivity|destruct ax; reflexivity|]. intros p a p' H.
    unfold areas_autorange in H. inv_bind H. rename v into c. exists [a_x c; a_xlow c], [a_y c; a_ylow c]. split.
    - cbn [fits]. rewrite !bind_assoc. inv_bind H. rewrite A0. cbn [bind]. inv_bind H. rewrite A1. cbn [bind]. inv_bind H. rewrite A2. cbn [bind].
      now rewrite bind_ret_r.
    - unfold areas_configure in A. inv_bind A. apply areas_parts in A0 as (_ & _ & S & P1 & P2 & P3 & P4 & _).
      rewrite S in A. inv_bind A. cbv zeta in A. take A. injection A as <-. destruct v0 as [bx by_].
      rewrite P1, P2. cbn [bind]. rewrite A0. cbn [bind].
      destruct ax; cbn [of]; rewrite ?P3, ?P4; reflexivity.
  Qed.
  Lemma errorbars_fits ax : entry_fits W ax (s_ "errorbars", ranges (errorbars_autorange W E)).
  Proof.
    eapply element_fits; [destruct ax; reflexivity|destruct ax; reflexivity|]. intros p a p' H.
    unfold errorbars_autorange in H. inv_bind H. destruct v as [c cols]. exists [e_x c; e_xlow c; e_xhigh c], [e_y c; e_ylow c; e_yhigh c]. split.
    - cbn [fits]. rewrite !bind_assoc. do 5 (inv_bind H; match goal with Q : _ = Ret _ |- _ => rewrite Q; clear Q; cbn [bind] end; rewrite ?bind_assoc).
      now rewrite bind_ret_r.
    - unfold err_configure in A. inv_bind A. apply err_parts in A0 as (_ & _ & P1 & P2 & P3 & P4 & P5 & P6 & _). cbv zeta in A. take A. injection A as -> _.
      destruct ax; cbn [of]; rewrite ?P1, ?P2; cbn [bind]; rewrite ?P3, ?P5; cbn [bind]; rewrite ?P4, ?P6; reflexivity.
  Qed.
  Lemma polygons_fits ax : entry_fits W ax (s_ "polygons", ranges (polygons_autorange W E)).
  Proof.
    intros a p p' s vs H Q K. cbn [fst snd] in *. unfold ranges, polygons_autorange, polys_configure in H. inv_bind H. destruct v as [c p1].
    injection H as ->. inv_bind A. apply polys_parts in A0 as (_ & _ & P & _). injection A as _ <-. cbn [p_margins p_stack].
    do 2 (split; [reflexivity|]). exists s, (map (fun v => of ax (vx v) (vy v)) (flat_map fst (g_polys v))).
    split; [destruct ax; reflexivity|]. split.
    - replace (assoc (s_ "polygons") (element_data W ax)) with (Some (fun a => let* ps := options [(s_ "data", load_polys W)] a [] in
        Ret (map (fun v => of ax (vx v) (vy v)) (flat_map fst ps)))) by (destruct ax; reflexivity).
      rewrite P. reflexivity.
    - rewrite fit_all_app. rewrite <- Q. destruct ax; reflexivity.
  Qed.

  Lemma option_fits ax k (get : plot -> scale) (put : scale -> plot -> plot) (f : cmd scale) :
    steady f -> keeps f -> assoc k (element_data W ax) = None ->
    (assoc k (scale_options W (name ax)) = Some f /\ get = scale_of ax /\
       (forall s p, scale_of ax (put s p) = s /\ p_margins (put s p) = p_margins p /\ p_stack (put s p) = p_stack p)) \/
    (assoc k (scale_options W (name ax)) = None /\
       (forall s p, scale_of ax (put s p) = scale_of ax p /\ p_margins (put s p) = p_margins p /\ p_stack (put s p) = p_stack p)) ->
    entry_fits W ax (k, updf get f put).
  Proof.
    intros St Kp D C a p p' s vs H Q K. cbn [fst snd] in *. unfold updf in H. inv_bind H. injection H as <-.
    destruct C as [(O & -> & P)|(O & P)]; rewrite O, D.
    - destruct (P v p) as (P1 & P2 & P3). rewrite P2, P3. do 2 (split; [reflexivity|]). rewrite Q in A.
      destruct (fitted f St Kp _ _ _ _ A) as (s1 & F & ->). exists s1, []. rewrite app_nil_r. auto.
    - destruct (P v p) as (P1 & P2 & P3). rewrite P2, P3. do 2 (split; [reflexivity|]). exists s, []. rewrite app_nil_r, P1. auto.
  Qed.
  Lemma value_steady (g : xr -> scale -> scale) : (forall v s lo hi, g v (refit s lo hi) = refit (g v s) lo hi) ->
    steady (fun e s => let* v := rd_float W e in Ret (g v s)).
  Proof. intros G a s lo hi. destruct (rd_float W a); try reflexivity. cbn. now rewrite G. Qed.
  Lemma value_keeps (g : xr -> scale -> scale) : (forall v s, h_min (g v s) = h_min s /\ h_max (g v s) = h_max s) ->
    keeps (fun e s => let* v := rd_float W e in Ret (g v s)).
  Proof. intros G a s s' H. inv_bind H. injection H as <-. apply G. Qed.

  Lemma table_fits ax : Forall (entry_fits W ax) (prepare_table W E).
  Proof.
    unfold prepare_table, scale_entries. cbn [app].
    repeat (apply Forall_cons; [try (apply option_fits;
      [first [apply limits_steady|apply kind_steady|apply value_steady; reflexivity]
      |first [apply limits_keeps|apply kind_keeps|apply value_keeps; auto]
      |destruct ax; reflexivity
      |destruct ax; (left; split; [reflexivity|split; [reflexivity|now intros s []]]) || (right; split; [reflexivity|now intros s []])])|]).
    all: try apply Forall_nil.
    - apply areas_fits. - apply bars_fits. - apply errorbars_fits. - apply labels_fits. - apply lines_fits. - apply points_fits.
    - apply polygons_fits. - apply rectangles_fits. - apply vectors_fits.
  Qed.

  Lemma fst_options ax k : assoc k (prepare_table W E) = None -> assoc k (scale_options W (name ax)) = None /\ assoc k (element_data W ax) = None.
  Proof.
    rewrite !assoc_none_keys. intro H. split; intro I; apply H; destruct ax; cbn in I |- *; tauto.
  Qed.

  Lemma prepare_data ax e : forall p p' s vs, options (prepare_table W E) e p = Ret p' -> scale_of ax p = fit_all s vs ->
    numeric_axis W ax e s ->
    p_margins p' = p_margins p /\ p_stack p' = p_stack p /\
    exists s' vs', element_scale W (name ax) e s = Ret s' /\ plot_data W ax e = Ret vs' /\ scale_of ax p' = fit_all s' (vs ++ vs').
  Proof.
    induction e as [|x e IH]; intros p p' s vs H Q N.
    - injection H as <-. do 2 (split; [reflexivity|]). exists s, []. rewrite app_nil_r. auto.
    - assert (K : s_kind s <> Categorical) by exact (N [] (x :: e) s eq_refl eq_refl).
      rewrite options_cons in H. unfold element_scale. rewrite options_cons. cbn [plot_data].
      destruct (option_of x) as [[k a]|] eqn:O; [|discriminate].
      assert (Step : exists p1 s1 vs1, p_margins p1 = p_margins p /\ p_stack p1 = p_stack p /\
        options (prepare_table W E) e p1 = Ret p' /\
        match assoc k (scale_options W (name ax)) with Some g => g a s | None => Ret s end = Ret s1 /\
        match assoc k (element_data W ax) with Some g => g a | None => Ret [] end = Ret vs1 /\
        scale_of ax p1 = fit_all s1 (vs ++ vs1)).
      { destruct (assoc k (prepare_table W E)) as [f|] eqn:F.
        - inv_bind H. pose proof (table_fits ax) as T. rewrite Forall_forall in T. apply assoc_In in F. specialize (T _ F a p v s vs A Q K).
          cbn [fst] in T. destruct T as (T1 & T2 & s1 & vs1 & T3). exists v, s1, vs1. tauto.
        - destruct (fst_options ax k F) as [-> ->]. exists p, s, []. rewrite app_nil_r. auto 10. }
      destruct Step as (p1 & s1 & vs1 & M1 & M2 & H1 & G & D & Q1).
      assert (N1 : numeric_axis W ax e s1).
      { intros pre post s2 Eq O2. apply (N (x :: pre) post s2); [now rewrite Eq|]. unfold element_scale in *. rewrite options_cons, O.
        destruct (assoc k (scale_options W (name ax))); [rewrite G; exact O2|]. injection G as ->. exact O2. }
      destruct (IH _ _ _ _ H1 Q1 N1) as (B1 & B2 & s' & vs' & B3 & B4 & B5).
      rewrite B1, B2, M1, M2. do 2 (split; [reflexivity|]). exists s', (vs1 ++ vs').
      split; [|split].
      + destruct (assoc k (scale_options W (name ax))); [rewrite G; exact B3|]. injection G as ->. exact B3.
      + rewrite D. cbn [bind]. rewrite B4. reflexivity.
      + now rewrite B5, app_assoc.
  Qed.
End Table.
