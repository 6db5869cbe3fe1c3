(** C97: what an axis looks like and the space it needs. *)
From Coq Require Import Reals Lra.
From Verif Require Import Base Num Num_Facts Sexpr_Model Dispatch_Model Dispatch_Spec Data_Model Data_Spec Scale_Model Scale_Spec Scale_Proofs4 Scale_Props
  Units_Model Color_Model Geo_Model Geo_Proofs Geo_Props Svg_Model Geojson_Model Format_Model Format_Proofs Cmd_Model Cmd_Spec Cmd_Proofs Style_Model Plot_Model Plot_Spec Plot_Proofs
  Axis_Model Axis_Spec Axis_Place Axis_Table Axis_Proofs Axis_Props Axis_Props2 Axis_Examples Demo Axis_Look_Spec Axis_Look_Proofs.
Local Open Scope R_scope.

(** C97. The axes command: four axes; every setting of an axis is the one of its own options
    (NAME for all axes, NAME-x and NAME-y, NAME-top ...; the last one counts) or the default:
    labels and title outside of the plot area, the labels with the edge that faces it, the ticks
    inside, the title of the axes at the left and right turned. *)
Theorem C97_settings : forall (W : world) (E : env) (p p1 : plot) (e : list expr) (out : list draw_command),
  plot_axes W E p e = Ret (p1, out) ->
  exists axes parts,
    Forall2 (fun g a =>
      axis_set W E (names_at g) g e a (outwards g) (outwards g) (inwards g) (if upright g then -90 else 0) (facing g) /\
      options (map (fun n => (n, rd_kind W)) (names_at g (s_ "scale")) ++ map (fun n => (n, rd_limits W)) (names_at g (s_ "limit"))) e
        (side_scale g p) = Ret (a_scale a)) the_sides axes /\
    Forall2 (fun a part => if a_enable a then draw_aligned W E p1 (axis_set_defaults W a) = Ret part else part = []) axes parts /\
    out = concat parts.
Proof.
  intros W E p p1 e out H. destruct (C92_options_by_side W E p p1 e out H) as (axes & parts & S & D & O).
  exists axes, parts. split; [|split; assumption]. clear D O H.
  assert (G : incl the_sides the_sides) by apply incl_refl. revert G S. generalize the_sides at 1 3 4. intros l G S.
  induction S as [|g a gs r S1 S2 IH]; constructor; [|apply IH; intros x X; apply G; now right]. pose proof (G g (or_introl eq_refl)) as G1. unfold side_axis in S1.
  assert (F : axis0 W E g (side_scale g p) = fresh_axis W E g (outwards g) (outwards g) (inwards g) (if upright g then -90 else 0) (facing g) (side_scale g p)).
  { destruct G1 as [<-|[<-|[<-|[<-|[]]]]]; reflexivity. }
  split; [rewrite F in S1; exact (settings_at W E _ _ _ _ _ _ _ _ _ S1)|].
  rewrite side_table_is in S1.
  apply (field_options a_scale (names_at g) (axis_settings W E) (extra_at W E g)
     (fun m => if String.eqb m "scale" then Some (rd_kind W) else if String.eqb m "limit" then Some (rd_limits W) else None) [] _ _ _ (distinct_at W E g)) in S1;
    [|intros ? []|acts_all|acts_all].
  rewrite app_nil_r, F in S1. exact S1.
Qed.
Print Assumptions C97_settings.

(** C97. The axis command: the same with the option align (x, the middle, if it is missing). *)
Theorem C97_axis_settings : forall (W : world) (E : env) (p : plot) (e : list expr) (out : list draw_command),
  plot_axis W E p e = Ret out ->
  exists g a, set_by [s_ "align"] (expr_to_enum side_words) e AX g /\
    axis_set W E name_only g e a
      (match g with AY => 1 | _ => outwards g end) (match g with AY => 1 | _ => outwards g end)
      (match g with AX => 0 | AY => -1 | _ => inwards g end) (if upright g then -90 else 0) (match g with AY => TRight | _ => facing g end) /\
    options [(s_ "scale", rd_kind W); (s_ "limit", rd_limits W); (s_ "limit-min", fun x s => let* v := rd_float W x in Ret (with_min v s));
             (s_ "limit-max", fun x s => let* v := rd_float W x in Ret (with_max v s))] e scale0 = Ret (a_scale a) /\
    draw_aligned W E p (axis_set_defaults W a) = Ret out.
Proof.
  intros W E p e out H. unfold plot_axis in H. inv_bind H. rename v into a. unfold axis_configure in A.
  assert (Q : exists g, set_by [s_ "align"] (expr_to_enum side_words) e AX g /\ options (axis_table W E) e (axis0 W E g scale0) = Ret a).
  { destruct e as [|x r]; [discriminate|]. inv_bind A. destruct v as [g c]. inv_bind A. destruct v as [a' c']. injection A as <-.
    exists g. split.
    - apply options_set_by. change side_words with align_enum.
      assert (O1 : options [(s_ "align", upd (expr_to_enum align_enum) (fun v _ => v))] (x :: r) AX = Ret g) by (unfold options; now rewrite A0).
      revert O1. apply (options_proj (fun v => v)); [|apply incl_refl]. unfold projects. apply Forall_cons; [|apply Forall_nil].
      intros a1 s1 s1' Q. cbn [fst snd map] in *. unfold upd in Q. inv_bind Q. injection Q as <-. rewrite assoc_index. vm_compute (index_of _ _). cbn [nth_error option_map snd]. assumption.
    - unfold options. rewrite A1. reflexivity. }
  destruct Q as (g & Q & O). exists g, a. split; [exact Q|].
  assert (F : axis0 W E g scale0 = fresh_axis W E g (match g with AY => 1 | _ => outwards g end) (match g with AY => 1 | _ => outwards g end)
      (match g with AX => 0 | AY => -1 | _ => inwards g end) (if upright g then -90 else 0) (match g with AY => TRight | _ => facing g end) scale0).
  { destruct g; reflexivity. }
  rewrite F in O. split; [exact (axis_settings_at W E _ _ _ _ _ _ _ _ _ O)|]. split; [|exact H].
  rewrite axis_table_is in O.
  apply (field_options a_scale name_only (axis_entries W E) (axis_extra W E)
     (fun m => if String.eqb m "scale" then Some (rd_kind W) else if String.eqb m "limit" then Some (rd_limits W)
               else if String.eqb m "limit-min" then Some (fun x s => let* v := rd_float W x in Ret (with_min v s))
               else if String.eqb m "limit-max" then Some (fun x s => let* v := rd_float W x in Ret (with_max v s)) else None) []) in O;
    [|apply distinct_by; vm_compute; reflexivity|intros ? []|acts_all|acts_all].
  rewrite app_nil_r in O. exact O.
Qed.
Print Assumptions C97_axis_settings.

(* ---------------- the numbers ---------------- *)
Lemma nonzero_length m v r : length_or m v r -> nonzero_or m (Fin v) = Fin r.
Proof.
  unfold nonzero_or. intros [[-> ->]|[-> N]]; cbn [xeq]; destruct Req_EM_T; congruence.
Qed.
Lemma clamp_cut v : clamp11 (Fin v) = Fin (cut v).
Proof.
  unfold clamp11, cut, xlt, Rmax, Rmin. repeat (destruct Rlt_dec || destruct Rle_dec); try reflexivity; f_equal; lra.
Qed.
Lemma cos_abs_neg x : cos (- x) = cos x. Proof. apply cos_neg. Qed.
Lemma turned W E fnt size t b r wh : exact_world W -> text_size W E fnt size r t wh -> w_measure W fnt size (dpi E) t = Ret b ->
  rw (rotated W b (Fin r)) = Fin (fst wh) /\ rh (rotated W b (Fin r)) = Fin (snd wh).
Proof.
  intros [D _] (x & y & w & h & M & Pw & Ph & ->) B. rewrite M in B. injection B as <-. cbn [fst snd]. unfold rotated. cbn [xeq].
  destruct Req_EM_T as [->|N].
  - unfold rect. cbn [rw rh]. replace (0 * PI / 180) with 0 by lra. rewrite cos_0, sin_0, Rabs_R0, Rabs_R1. split; f_equal; ring.
  - rewrite D. unfold rect. rewrite box_rotate_fin. cbn [rw rh]. rewrite cos_neg, sin_neg.
    rewrite !Rabs_mult, Rabs_Ropp, (Rabs_pos_eq w), (Rabs_pos_eq h) by lra. split; reflexivity.
Qed.
Lemma largest_max l m : largest l m -> forall acc, 0 <= acc -> fold_left Rmax l acc = Rmax acc m.
Proof.
  assert (G : forall l acc, Forall (fun v => v <= acc) l -> fold_left Rmax l acc = acc).
  { clear. induction l as [|x r IH]; intros acc F; [reflexivity|]. inversion F; subst. cbn [fold_left]. rewrite Rmax_left by assumption. now apply IH. }
  assert (K : forall l acc m, (In m l \/ acc = m) -> Forall (fun v => v <= m) l -> acc <= m -> fold_left Rmax l acc = m).
  { clear - G. induction l as [|x r IH]; intros acc m I F A.
    - destruct I as [[]|I]. exact I.
    - inversion F as [|? ? F1 F2]; subst. cbn [fold_left]. destruct I as [[->|I]|I].
      + rewrite Rmax_right by lra. now apply G.
      + apply IH; [now left|exact F2|]. apply Rmax_lub; lra.
      + subst acc. rewrite Rmax_left by lra. now apply G. }
  intros [I F] acc A. inversion F as [|? ? F1 F2]; subst. destruct (Rle_dec acc m) as [L|L].
  - rewrite Rmax_right by lra. apply K; [|exact F2|exact L]. destruct I as [I|I]; [right; lra|now left].
  - rewrite Rmax_left by lra. apply G. eapply Forall_impl; [|exact F2]. cbv beta. intros v V. lra.
Qed.
Lemma extent_fold W E a r sizes : exact_world W -> a_lrotate a = Fin r ->
  forall its acc, Forall2 (text_size W E (a_lfont a) (a_lsize a) r) (map snd its) sizes ->
  label_extent W E a its (Fin acc) = Ret (Fin (fold_left Rmax (map (across (a_align a)) sizes) acc)).
Proof.
  intros X Rt its. revert sizes. induction its as [|[t l] its IH]; intros sizes acc F; cbn [map snd] in F; inversion F as [|? wh ? rest F1 F2]; subst; [reflexivity|].
  cbn [label_extent map fold_left]. destruct (w_measure W (a_lfont a) (a_lsize a) (dpi E) l) as [b| | | |] eqn:M; try (destruct F1 as (? & ? & ? & ? & M' & _); congruence).
  cbn [bind]. rewrite Rt. destruct (turned W E _ _ _ _ _ _ X F1 M) as [T1 T2].
  replace (if is_horizontal (a_align a) then rh (rotated W b (Fin r)) else rw (rotated W b (Fin r))) with (Fin (across (a_align a) wh)).
  - replace (xmax (Fin acc) (Fin (across (a_align a) wh))) with (Fin (Rmax acc (across (a_align a) wh))).
    + apply IH. exact F2.
    + unfold xmax, xlt, Rmax. destruct Rlt_dec, Rle_dec; try reflexivity; f_equal; lra.
  - unfold across. destruct (a_align a); cbn [is_horizontal upright]; congruence.
Qed.

Section Look.
  Variables (W : world) (E : env) (a : axis) (k : axis_look) (lab : layout).
  Hypotheses (X : exact_world W) (B : call_placement W (a_lplace a) (a_scale a) (a_lformat a) = Ret lab)
             (L : looks W E a (map snd (ticks_of lab)) k).
  Lemma labels_extent : axis_layout_labels W E a = Ret (Fin (k_labels k)).
  Proof.
    destruct L as (_ & _ & _ & _ & _ & _ & (r & sizes & R1 & R2 & R3) & _). unfold axis_layout_labels. rewrite B. cbn [bind].
    rewrite (extent_fold W E a r sizes X R1 _ _ R2), (largest_max _ _ R3) by lra. rewrite Rmax_right; [reflexivity|]. destruct R3 as [_ R3]. now inversion R3.
  Qed.
  Lemma lpad_is : label_pad W a = Fin (k_lpad k).
  Proof.
    destruct L as (_ & _ & _ & _ & (em & E1 & E2) & _). unfold label_pad, em_or, Cmd_Model.k. rewrite E1. destruct X as [-> _].
    apply nonzero_length in E2. rewrite <- E2. reflexivity.
  Qed.
  Lemma tpad_is : title_pad W a (is_horizontal (a_align a)) = Fin (k_tpad k).
  Proof.
    destruct L as (_ & _ & _ & _ & _ & (em & E1 & E2) & _). unfold title_pad, em_or, Cmd_Model.k. rewrite E1. destruct X as [-> _].
    apply nonzero_length in E2. rewrite <- E2. destruct (a_align a); reflexivity.
  Qed.
  Lemma tick_is : length_of W E a = Fin (k_tick k).
  Proof.
    destruct L as ((dp & D1 & D2) & _). unfold length_of. rewrite D1. destruct X as [-> _]. apply nonzero_length in D2. rewrite <- D2.
    cbn. destruct Req_EM_T; [lra|]. reflexivity.
  Qed.
  Lemma title_is : a_title a <> [] -> In (a_align a) the_sides -> axis_layout_title W E a = Ret (Fin (k_title k)).
  Proof.
    destruct L as (_ & _ & _ & _ & _ & _ & _ & T). intros N G. destruct (T N) as (r & wh & R1 & R2 & R3). unfold axis_layout_title.
    destruct (w_measure W (a_tfont a) (a_tsize a) (dpi E) (a_title a)) as [b| | | |] eqn:M; try (destruct R2 as (? & ? & ? & ? & M' & _); congruence).
    cbn [bind]. rewrite R1, R3. destruct (turned W E _ _ _ _ _ _ X R2 M) as [T1 T2]. rewrite T1, T2. destruct G as [G|[G|[G|[G|[]]]]]; rewrite <- G; reflexivity.
  Qed.
End Look.

(** C97. The space for an axis at a side: the distance of the labels, the largest of them, and if there is
    a title its distance and its size. *)
Theorem C97_space : forall (W : world) (E : env) (a : axis) (k : axis_look) (lab : layout),
  exact_world W -> call_placement W (a_lplace a) (a_scale a) (a_lformat a) = Ret lab ->
  looks W E a (map snd (ticks_of lab)) k -> In (a_align a) the_sides \/ a_title a = [] ->
  axis_layout W E a = Ret (Fin (space a k)).
Proof.
  intros W E a k lab X B L G.
  unfold axis_layout, space. rewrite (labels_extent W E a k lab X B L), (lpad_is W E a k lab X L), (tpad_is W E a k lab X L).
  cbn [or_keep]. destruct (a_title a) as [|c t] eqn:T.
  - rewrite !(off_exact W X). do 2 f_equal. ring.
  - rewrite (title_is W E a k lab X L) by (rewrite ?T; solve [congruence | destruct G as [G|G]; [exact G | congruence]]). cbn [or_keep]. rewrite !(off_exact W X). do 2 f_equal. ring.
Qed.
Print Assumptions C97_space.

(** C97. The drawing of an axis at a side. *)
Theorem C97_drawn : forall (W : world) (E : env) (p : plot) (a : axis) (k : axis_look) (lab ticks : layout) (ts : list R) (ls : list (R * str))
    (x0 y0 w h : R) (out : list draw_command),
  exact_world W -> plot_clip W E p = rect x0 y0 w h -> In (a_align a) the_sides \/ a_title a = [] ->
  call_placement W (a_tickplace a) (a_scale a) (a_lformat a) = Ret ticks -> positions ticks = map Fin ts ->
  call_placement W (a_lplace a) (a_scale a) (a_lformat a) = Ret lab -> ticks_of lab = map (fun tl => (Fin (fst tl), snd tl)) ls ->
  looks W E a (map snd ls) k ->
  draw_aligned W E p a = Ret out -> axis_drawn W E x0 y0 w h a k ts ls out.
Proof.
  intros W E p a k lab ticks ts ls x0 y0 w h out X C G T Ts B Ls L H.
  assert (L' : looks W E a (map snd (ticks_of lab)) k) by (rewrite Ls, map_map; exact L).
  set (at_ := on_axis (a_align a) x0 y0 w h).
  assert (K : forall horizontal across u v, horizontal = is_horizontal (a_align a) ->
     draw_axis W E horizontal a (Fin across) (Fin u) (xadd (w_d W) (Fin u) (Fin v)) = Ret out ->
     (forall t off, at_ t off = xy horizontal (Fin (u + t * v)) (Fin (across + off))) -> axis_drawn W E x0 y0 w h a k ts ls out).
  { intros hz across u v Hz D Q. unfold draw_axis in D. cbv zeta in D. pose proof (tick_is W E a k lab X L') as TI. unfold length_of in TI. rewrite TI, T, B in D. cbn [bind] in D. rewrite (labels_extent W E a k lab X B L') in D. cbn [bind] in D.
    destruct (attach_align (a_attach a)) as [hx vy] eqn:At. inv_bind D. inv_bind D. match type of D with Ret ?x = Ret _ => assert (Do : out = x) by congruence; clear D; subst out end.
    apply draw_each_ok in A as (parts & P & ->). exists parts, v1.
    assert (Of : a_tickoff a = Fin (k_tickoff k) /\ a_loff a = Fin (k_loff k) /\ a_toff a = Fin (k_toff k)) by (destruct L as (_ & ? & ? & ? & _); auto).
    destruct Of as (O1 & O2 & O3). split; [|split].
    - rewrite O1, clamp_cut, Ts. unfold draw_line_ at 1. cbn [app]. f_equal.
      + fold at_. rewrite !Q, (off_exact W X). unfold stroke_line. replace (u + 0 * v) with u by ring. replace (u + 1 * v) with (u + v) by ring. replace (across + 0) with across by ring. reflexivity.
      + f_equal. fold at_. clear - X Q. induction ts as [|t r IH]; [reflexivity|]. cbn [map flat_map]. rewrite IH, (tick_exact W X), (along_exact W X), (off_exact W X), !Q.
        
        replace (across + tick_start (k_tick k) (cut (k_tickoff k)) + k_tick k) with (across + k_tick k * (cut (k_tickoff k) + 1) / 2) by (unfold tick_start; lra).
        replace (across + tick_start (k_tick k) (cut (k_tickoff k))) with (across + k_tick k * (cut (k_tickoff k) - 1) / 2) by (unfold tick_start; lra). reflexivity.
    - rewrite Ls in P. fold at_. assert (An : anchor_of (a_attach a) = (hx, vy)) by (rewrite <- At; now destruct (a_attach a)). rewrite An.
      rewrite O2, clamp_cut, (lpad_is W E a k lab X L'), (mul_exact W X), (off_exact W X across) in P. clear - P Q X. revert parts P. induction ls as [|[t l] r IH]; intros parts P; inversion P as [|? ? ? ? P1 P2]; subst; constructor.
      + cbn [fst snd] in *. rewrite (along_exact W X) in P1. now rewrite Q.
      + now apply IH.
    - destruct (a_title a) as [|c t] eqn:Ti; [now injection A0 as <-|].
      rewrite O2, O3, !clamp_cut in A0. rewrite Hz, (tpad_is W E a k lab X L'), (lpad_is W E a k lab X L'), (title_is W E a k lab X L') in A0 by (rewrite ?Ti; solve [congruence | destruct G as [G|G]; [exact G | congruence]]).
      cbn [bind] in A0. rewrite (half_exact W X), (along_exact W X) in A0.
      assert (Dt : exists dist, title_distance k dist /\ (if Bool.eqb (xlt (Fin (cut (k_toff k))) (Fin 0)) (xlt (Fin (cut (k_loff k))) (Fin 0))
          then xadd (w_d W) (Fin (k_tpad k)) (xadd (w_d W) (Fin (k_labels k)) (Fin (k_lpad k))) else Fin (k_tpad k)) = Fin (dist - k_title k / 2)).
      { cbn [xlt]. unfold title_distance. destruct (Rlt_dec (cut (k_toff k)) 0), (Rlt_dec (cut (k_loff k)) 0); cbn [Bool.eqb]; rewrite ?(off_exact W X).
        - exists (k_lpad k + k_labels k + k_tpad k + k_title k / 2). split; [|f_equal; ring]. split; tauto.
        - exists (k_tpad k + k_title k / 2). split; [|f_equal; ring]. split; tauto.
        - exists (k_tpad k + k_title k / 2). split; [|f_equal; ring]. split; tauto.
        - exists (k_lpad k + k_labels k + k_tpad k + k_title k / 2). split; [|f_equal; ring]. split; tauto. }
      destruct Dt as (dist & D1 & D2). exists dist. split; [exact D1|]. rewrite D2, (off_exact W X), (mul_exact W X), (off_exact W X) in A0.
      fold at_. rewrite Q, Hz. replace (dist * cut (k_toff k)) with ((dist - k_title k / 2 + k_title k / 2) * cut (k_toff k)) by (f_equal; ring). exact A0. }
  unfold draw_aligned in H. rewrite C in H. cbn [rx ry rw rh rect] in H.
  assert (HX : forall v, half_ W (Fin v) = Fin (v / 2)) by (apply half_exact, X).
  destruct (a_align a) eqn:Al; rewrite ?HX, ?(off_exact W X) in H.
  - rewrite <- (off_exact W X x0 w) in H. eapply (K true (y0 + h / 2) x0 w); try exact H; reflexivity.
  - rewrite <- (off_exact W X y0 h) in H. eapply (K false (x0 + w / 2) y0 h); try exact H; reflexivity.
  - rewrite <- (off_exact W X x0 w) in H. eapply (K true (y0 + h) x0 w); try exact H; reflexivity.
  - rewrite <- (off_exact W X y0 h) in H. eapply (K false (x0 + w) y0 h); try exact H; reflexivity.
  - rewrite <- (off_exact W X x0 w) in H. eapply (K true y0 x0 w); try exact H; reflexivity.
  - rewrite <- (off_exact W X y0 h) in H. eapply (K false x0 y0 h); try exact H; reflexivity.
Qed.
Print Assumptions C97_drawn.

(** C97. In the middle (axis with align x or y) the title is as far away as if it were turned:
    half of its width from a horizontal axis, half of its height from a vertical one. *)
Theorem C97_middle_title_refuted : forall (W : world) (E : env) (a : axis) (c0 c1 across lpad lsize tpad rot : R) (wh : R * R) (lab ticks : layout) (out : list draw_command),
  exact_world W -> (a_align a = AX \/ a_align a = AY) -> a_title a <> [] -> a_trotate a = Fin rot ->
  text_size W E (a_tfont a) (a_tsize a) rot (a_title a) wh ->
  call_placement W (a_lplace a) (a_scale a) (a_lformat a) = Ret lab -> call_placement W (a_tickplace a) (a_scale a) (a_lformat a) = Ret ticks ->
  axis_layout_labels W E a = Ret (Fin lsize) -> label_pad W a = Fin lpad -> title_pad W a (is_horizontal (a_align a)) = Fin tpad ->
  a_toff a = Fin (-1) -> a_loff a = Fin (-1) ->
  draw_axis W E (is_horizontal (a_align a)) a (Fin across) (Fin c0) (xadd (w_d W) (Fin c0) (Fin c1)) = Ret out ->
  exists rest title, out = rest ++ title /\
    let wrong := match a_align a with AX => fst wh | _ => snd wh end in
    draw_text_ W E (a_tfont a) (a_tsize a) (a_tcolor a) (a_title a)
      (xy (is_horizontal (a_align a)) (Fin (c0 + 1 / 2 * c1)) (Fin (across - (tpad + lsize + lpad + wrong / 2)))) HCenter VCenter (Fin rot) = Ret title.
Proof.
  intros W E a c0 c1 ac lpad lsize tpad rot wh lab ticks out X G N Rt Sz B T Ls Lp Tp O3 O2 D.
  unfold draw_axis in D. cbv zeta in D. rewrite T, B in D. cbn [bind] in D. rewrite Ls in D. cbn [bind] in D.
  destruct (attach_align (a_attach a)) as [hx vy] eqn:At. inv_bind D. inv_bind D. match type of D with Ret ?x = Ret _ => assert (Do : out = x) by congruence; clear D; subst out end.
  rewrite !app_assoc. eexists _, v0. split; [reflexivity|]. cbv zeta.
  assert (Ti : axis_layout_title W E a = Ret (Fin (match a_align a with AX => fst wh | _ => snd wh end))).
  { unfold axis_layout_title. destruct (w_measure W (a_tfont a) (a_tsize a) (dpi E) (a_title a)) as [b| | | |] eqn:M; try (destruct Sz as (? & ? & ? & ? & M' & _); congruence).
    cbn [bind]. rewrite Rt. destruct (turned W E _ _ _ _ _ _ X Sz M) as [T1 T2]. rewrite T1, T2. destruct G as [-> | ->]; reflexivity. }
  destruct (a_title a) as [|c t] eqn:Tt; [congruence|].
  rewrite Tp, Ti, Lp, O2, O3, !clamp_cut in A0. replace (cut (-1)) with (-1) in A0 by (unfold cut, Rmax, Rmin; repeat destruct Rle_dec; lra).
  cbn [bind] in A0. rewrite Bool.eqb_reflx, (half_exact W X), (along_exact W X), !(off_exact W X), (mul_exact W X), (off_exact W X), Rt in A0.
  match type of A0 with context [Fin (ac + ?z)] => match goal with |- context [Fin (ac - ?y)] => assert (Zz : ac - y = ac + z) by ring; rewrite Zz end end. exact A0.
Qed.
Print Assumptions C97_middle_title_refuted.

(** C97. The labels of an axis with align y are drawn over the axis: they are put to its right,
    but with their right edge. *)
Theorem C97_middle_labels_refuted : forall (W : world) (E : env) (p : plot) (out : list draw_command),
  plot_axis W E p [EList [ELit (s_ "align"); ELit (s_ "y")]] = Ret out ->
  exists a, a_align a = AY /\ a_loff a = Fin 1 /\ a_attach a = TRight /\ a_title a = [] /\
    anchor_of (a_attach a) = (HRight, VCenter) /\ draw_aligned W E p (axis_set_defaults W a) = Ret out.
Proof.
  intros W E p out H. destruct (C97_axis_settings W E p _ out H) as (g & a & G & S & _ & D). exists a.
  assert (g = AY) as -> by (vm_compute in G; now injection G as <-).
  destruct S as (Al & Ti & _ & _ & _ & _ & _ & _ & _ & Lo & _ & _ & _ & _ & _ & _ & At & _).
  split; [exact Al|]. vm_compute in Ti. change (a_loff a = Fin 1) in Lo. change (a_attach a = TRight) in At. rewrite At. auto.
Qed.
Print Assumptions C97_middle_labels_refuted.

(** A titled axis at the left of the plot of Demo. *)
Definition titled : axis := set_a_title (s_ "t") (demo_axis ALeft).
Definition em_ : R := 11 / 72 * 192.
Definition titled_look : axis_look := mk_look (4 / 72 * 192) 1 (-1) (-1) (8 / 10 * em_) (6 / 10 * em_) 10 10.
Lemma trig_270 : cos (-90 * PI / 180) = 0 /\ sin (-90 * PI / 180) = -1.
Proof.
  replace (-90 * PI / 180) with (- (PI / 2)) by field. rewrite cos_neg, sin_neg, cos_PI2, sin_PI2. split; reflexivity.
Qed.
Example C97_example : exists lab,
  call_placement demo (a_lplace titled) (a_scale titled) (a_lformat titled) = Ret lab /\ length (labels lab) = 11%nat /\
  looks demo demo_env titled (map snd (ticks_of lab)) titled_look /\ In (a_align titled) the_sides /\
  axis_layout demo demo_env titled = Ret (Fin (14 / 10 * em_ + 20)) /\
  title_distance titled_look (14 / 10 * em_ + 15).
Proof.
  destruct (demo_placed (format_fixed (stod_val demo) 1)) as (l & P & L1 & L2); [intros; eexists; reflexivity|].
  exists l. split; [exact P|]. split; [exact L2|].
  assert (L : looks demo demo_env titled (map snd (ticks_of l)) titled_look).
  { assert (Sz : forall f s t, text_size demo demo_env f s 0 t (10, 10)).
    { intros f s t. exists 0, 0, 10, 10. split; [reflexivity|]. split; [lra|]. split; [lra|]. replace (0 * PI / 180) with 0 by lra. rewrite cos_0, sin_0, Rabs_R0, Rabs_R1. cbv zeta. apply f_equal2; ring. }
    assert (Em : page_font_size demo demo_env = Fin em_) by apply demo_em.
    split; [exists 192; split; [reflexivity|left; split; reflexivity]|]. do 3 (split; [reflexivity|]).
    split; [exists em_; split; [exact Em|left; split; reflexivity]|]. split; [exists em_; split; [exact Em|left; split; reflexivity]|].
    split.
    - exists 0, (map (fun _ => (10, 10)) (map snd (ticks_of l))). split; [reflexivity|]. split.
      + induction (map snd (ticks_of l)) as [|t r IH]; constructor; auto.
      + unfold ticks_of. destruct (positions l) as [|q0 qs]; [discriminate|]. destruct (labels l) as [|l0 ls]; [discriminate|]. cbn [combine map]. split.
        * right. left. reflexivity.
        * constructor; [cbn; lra|]. constructor; [cbn; lra|]. generalize (map snd (combine qs ls)). intro z. induction z; constructor; auto. cbn. lra.
    - intros _. exists (-90), (10, 10). split; [reflexivity|]. split; [|reflexivity]. exists 0, 0, 10, 10. split; [reflexivity|]. split; [lra|]. split; [lra|].
      destruct trig_270 as [-> ->]. rewrite Rabs_R0, Rabs_left by lra. cbv zeta. apply f_equal2; ring. }
  split; [exact L|]. assert (G : In (a_align titled) the_sides) by (right; right; right; now left). split; [exact G|]. split.
  - rewrite (C97_space demo demo_env titled titled_look l demo_exact P L (or_introl G)). do 2 f_equal. unfold space, titled_look. cbn [a_title titled set_a_title s_ k_lpad k_labels k_tpad k_title].
    change (match s_ "t" with [] => 0 | _ => 6 / 10 * em_ + 10 end) with (6 / 10 * em_ + 10). lra.
  - unfold title_distance, titled_look. cbn. split; [lra|]. intro N. exfalso. apply N. unfold cut, Rmax, Rmin. repeat destruct Rle_dec; lra.
Qed.
