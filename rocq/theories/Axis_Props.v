(** C80: the ticks of axes stand where data of the same value stands; C92: the options of the
    axes command go to the axes they name. *)
From Coq Require Import Reals Lra.
From Verif Require Import Base Num Num_Facts Sexpr_Model Dispatch_Model Dispatch_Spec Data_Model Data_Spec Scale_Model Scale_Spec Scale_Proofs4 Scale_Props
  Units_Model Color_Model Geo_Model Svg_Model Geojson_Model Format_Model Cmd_Model Cmd_Spec Cmd_Proofs Style_Model Plot_Model Plot_Spec Plot_Proofs
  Axis_Model Axis_Spec Axis_Place Axis_Table Axis_Proofs.
Local Open Scope R_scope.

Lemma xmul_comm d a b : xmul d a b = xmul d b a.
Proof. destruct a, b; cbn; try reflexivity. now rewrite Rmult_comm. Qed.
Lemma along_any W u len t : exact_world W ->
  along W (Fin u) (xadd (w_d W) (Fin u) (Fin len)) t = xadd exact (Fin u) (xmul exact t (Fin len)).
Proof.
  intros [D _]. unfold along. rewrite D. replace (xsub exact (xadd exact (Fin u) (Fin len)) (Fin u)) with (Fin len).
  - now rewrite xmul_comm.
  - cbn. unfold exact. f_equal. ring.
Qed.

(** Positions and labels of a placement on a linear scale. *)
Lemma valued_ticks W s fm p l a b : exact_world W -> linear_over s a b -> valued p -> placed W p s fm = Ret l -> ticks_for W s fm l.
Proof.
  intros X Li [B|(n & N & N32 & ->)] H; [now apply (ticks_by_value W s fm p)|].
  destruct (ticks_subdivide W s fm n l a b X Li N N32 H) as (P & L & K). unfold ticks_for. rewrite P, L, map_length, seq_length. split; [reflexivity|].
  intros i t lab N1 N2.
  assert (I : (i < S n)%nat) by (rewrite <- L; apply nth_error_Some; congruence).
  rewrite nth_error_map, (nth_error_nth' _ 0%nat), seq_nth in N1 by (rewrite ?seq_length; lia). injection N1 as <-.
  destruct (K i ltac:(lia)) as (U & t' & T & N3). exists (Fin (division (s_inverted s) a b n i)). split; [|congruence].
  destruct X as [-> ->]. rewrite (linear_translate s a b Li), U. reflexivity.
Qed.
Lemma ticks_positions W s fm l : ticks_for W s fm l -> Forall (fun t => exists v, scale_translate (w_d W) (w_f W) s v = Ret t) (positions l).
Proof.
  intros [L K]. apply Forall_forall. intros t I. apply In_nth_error in I as [i N].
  destruct (nth_error (labels l) i) as [lab|] eqn:N2.
  - destruct (K i t lab N N2) as (v & T & _). eauto.
  - exfalso. apply nth_error_None in N2. assert (i < length (positions l))%nat by (apply nth_error_Some; congruence). lia.
Qed.

Lemma defaults_linear W a : s_kind (a_scale a) = Linear ->
  let b := axis_set_defaults W a in
  let lp := match a_lplace a with Some p => p | None => PSubdivide (Fin 10) end in
  a_lplace b = Some lp /\ a_tickplace b = Some (match a_tickplace a with Some p => p | None => lp end) /\
  a_lformat b = Some (label_format W a).
Proof.
  intro K. unfold axis_set_defaults, layout_defaults, default_label, label_format. rewrite K.
  destruct (a_lplace a), (a_tickplace a), (a_lformat a); cbn; auto.
Qed.
Lemma defaults_rest W a : let b := axis_set_defaults W a in
  a_scale b = a_scale a /\ a_align b = a_align a /\ a_title b = a_title a /\ a_border b = a_border a /\ a_lfont b = a_lfont a /\
  a_lsize b = a_lsize a /\ a_lcolor b = a_lcolor a /\ a_attach b = a_attach a /\ a_lrotate b = a_lrotate a.
Proof. unfold axis_set_defaults. destruct (layout_defaults _ _ _). cbn. tauto. Qed.

(** C80. An axis of a linear scale, in exact arithmetic: the marks and the labels stand where data
    of the values would stand, and each label is made from the value of its place. *)
Theorem C80_ticks_at_data : forall (W : world) (E : env) (p : plot) (a : axis) (lo hi x0 y0 w h : R) (out : list draw_command),
  exact_world W -> plot_clip W E p = rect x0 y0 w h -> linear_over (a_scale a) lo hi ->
  (forall q, a_tickplace a = Some q -> valued q) -> (forall q, a_lplace a = Some q -> valued q) ->
  draw_aligned W E p (axis_set_defaults W a) = Ret out ->
  axis_shown W E x0 y0 w h a out.
Proof.
  intros W E p a lo hi x0 y0 w h out X C Li V1 V2 H.
  assert (K : s_kind (a_scale a) = Linear) by apply Li.
  destruct (defaults_linear W a K) as (D1 & D2 & D3). cbn zeta in D1, D2, D3.
  destruct (defaults_rest W a) as (R1 & R2 & R3 & R4 & R5 & R6 & R7 & R8 & R9).
  set (b := axis_set_defaults W a) in *.
  assert (S10 : valued (PSubdivide (Fin 10))).
  { right. exists 10%nat. split; [lia|]. split; [reflexivity|]. f_equal. f_equal. rewrite INR_IZR_INZ. reflexivity. }
  assert (VL : valued (match a_lplace a with Some p => p | None => PSubdivide (Fin 10) end)) by (destruct (a_lplace a); auto).
  assert (VT : valued (match a_tickplace a with Some p => p | None => match a_lplace a with Some p => p | None => PSubdivide (Fin 10) end end))
    by (destruct (a_tickplace a); auto).
  assert (G : forall horizontal across u len, is_horizontal (a_align a) = horizontal ->
     on_axis (a_align a) x0 y0 w h 0 0 = xy horizontal (Fin u) (Fin across) ->
     on_axis (a_align a) x0 y0 w h 1 0 = xy horizontal (Fin (u + len)) (Fin across) ->
     u = (if horizontal then x0 else y0) -> len = (if horizontal then w else h) ->
     draw_axis W E horizontal b (Fin across) (Fin u) (xadd (w_d W) (Fin u) (Fin len)) = Ret out -> axis_shown W E x0 y0 w h a out).
  { intros hz across u len Hz O0 O1 U L D. apply draw_axis_ok in D as (ticks & lab & texts & title & ls & T & B & _ & O & (parts & P1 & P2) & N).
    rewrite D2, D3, R1 in T. rewrite D1, D3, R1 in B. cbn [call_placement] in T, B.
    pose proof (valued_ticks W _ _ _ _ lo hi X Li VT T) as KT. pose proof (valued_ticks W _ _ _ _ lo hi X Li VL B) as KL.
    assert (At : forall t q, xy hz (along W (Fin u) (xadd (w_d W) (Fin u) (Fin len)) t) q = beside (a_align a) exact (rect x0 y0 w h) t q).
    { intros t q. rewrite (along_any W u len t X). unfold beside, spot. rewrite Hz. cbn [vx vy fst snd rx ry rw rh rect]. subst u len. destruct hz; reflexivity. }
    set (len' := length_of W E b) in *.
    set (q0 := xadd (w_d W) (xsub (w_d W) (Fin across) len') (xdiv (w_d W) (xmul (w_d W) len' (xadd (w_d W) (clamp11 (a_tickoff b)) (Fin 1))) (Fin 2))) in *.
    exists (positions ticks), (ticks_of lab), q0, len', (xadd (w_d W) (Fin across) (xmul (w_d W) (label_pad W b) (clamp11 (a_loff b)))), parts, title. split; [|split; [|split; [|split]]].
    - rewrite O, <- P2. unfold draw_line_ at 1. cbn [app]. f_equal.
      + rewrite O0, O1, R4. unfold stroke_line, draw_line_. rewrite (off_exact W X). reflexivity.
      + f_equal. rewrite R4. cbv zeta. clear - X At. induction (positions ticks) as [|t r IH]; [reflexivity|]. cbn [flat_map map]. rewrite IH, !At.
        destruct X as [XD XF]. rewrite XD. reflexivity.
    - apply ticks_positions in KT. destruct X as [XD XF]. rewrite XD, XF in KT. exact KT.
    - clear - P1 At R5 R6 R7 R8 R9. induction P1 as [|[t l0] part lr pr F1 F2 IH]; constructor; [|exact IH].
      cbn [fst snd] in *. rewrite R5, R6, R7, R8, R9, At in F1. exact F1.
    - intros i t l0 Ni. unfold ticks_of in Ni. rewrite combine_nth_error in Ni.
      destruct (nth_error (positions lab) i) as [t'|] eqn:N1; [|discriminate]. destruct (nth_error (labels lab) i) as [l'|] eqn:N2; [|discriminate].
      injection Ni as <- <-. now apply KL.
    - intro Tn. apply N. now rewrite R3. }
  unfold draw_aligned in H. rewrite C in H. cbn [rx ry rw rh rect] in H. rewrite R2 in H.
  assert (HX : forall v, half_ W (Fin v) = Fin (v / 2)) by (apply half_exact, X).
  destruct (a_align a) eqn:Al; rewrite ?HX, ?(off_exact W X) in H.
  - rewrite <- (off_exact W X x0 w) in H. eapply (G true (y0 + h / 2) x0 w); try exact H; try reflexivity; unfold on_axis, xy, vec; f_equal; apply (f_equal Fin); ring.
  - rewrite <- (off_exact W X y0 h) in H. eapply (G false (x0 + w / 2) y0 h); try exact H; try reflexivity; unfold on_axis, xy, vec; f_equal; apply (f_equal Fin); ring.
  - rewrite <- (off_exact W X x0 w) in H. eapply (G true (y0 + h) x0 w); try exact H; try reflexivity; unfold on_axis, xy, vec; f_equal; apply (f_equal Fin); ring.
  - rewrite <- (off_exact W X y0 h) in H. eapply (G false (x0 + w) y0 h); try exact H; try reflexivity; unfold on_axis, xy, vec; f_equal; apply (f_equal Fin); ring.
  - rewrite <- (off_exact W X x0 w) in H. eapply (G true y0 x0 w); try exact H; try reflexivity; unfold on_axis, xy, vec; f_equal; apply (f_equal Fin); ring.
  - rewrite <- (off_exact W X y0 h) in H. eapply (G false x0 y0 h); try exact H; try reflexivity; unfold on_axis, xy, vec; f_equal; apply (f_equal Fin); ring.
Qed.
Print Assumptions C80_ticks_at_data.

(** C92. The axes command: four axes, at the top, right, bottom and left; each is configured by
    exactly the options that name it (NAME-top), its direction (NAME-x) or no axis (NAME), and is
    drawn around the plot area that is left. *)
Theorem C92_options_by_side : forall (W : world) (E : env) (p p1 : plot) (e : list expr) (out : list draw_command),
  plot_axes W E p e = Ret (p1, out) ->
  exists axes parts, Forall2 (side_axis W E p e) the_sides axes /\
    Forall2 (fun a part => if a_enable a then draw_aligned W E p1 (axis_set_defaults W a) = Ret part else part = []) axes parts /\
    out = concat parts.
Proof.
  intros W E p p1 e out H. unfold plot_axes in H. inv_bind H. inv_bind H. inv_bind H. injection H as <- <-.
  destruct (axes_sides W E (axis0 W E AX scale0) p e v A) as (axes & Ax & S). rewrite Ax in *.
  apply draw_each_ok in A1 as (parts & F & O). exists axes, parts. split; [exact S|]. split; [|exact O].
  clear - F. induction F as [|a part l ps F1 F2 IH]; constructor; [|exact IH]. destruct (a_enable a); [exact F1|congruence].
Qed.
Print Assumptions C92_options_by_side.

(** C92. An axis is shown unless the option position leaves it out. *)
Theorem C92_shown : forall (W : world) (E : env) (p : plot) (e : list expr) (g : axis_align) (a : axis),
  side_axis W E p e g a -> a_align a = g /\
  (last_args (s_ "position") e = None -> a_enable a = true).
Proof.
  intros W E p e g a S. unfold side_axis in S. split.
  - rewrite (side_align_kept W E _ _ _ _ S); [|intros k []]. unfold axis0. now destruct g.
  - intro N. rewrite (side_enable_kept W E _ _ _ _ S N). unfold axis0. now destruct (side_defaults g) as [[[[? ?] ?] ?] ?].
Qed.
Print Assumptions C92_shown.

(** C80. The axes command: unless an option gives an axis another scale, it shows the scale of
    the plot, with which the elements are drawn. *)
Theorem C80_axes : forall (W : world) (E : env) (p p1 : plot) (e : list expr) (out : list draw_command) (x0 y0 w h : R),
  exact_world W -> plot_axes W E p e = Ret (p1, out) -> plot_clip W E p1 = rect x0 y0 w h ->
  exists axes parts, Forall2 (side_axis W E p e) the_sides axes /\ out = concat parts /\
    Forall2 (fun a part => if a_enable a
      then forall lo hi, (forall k, In k (side_keys (a_align a) ["scale"; "limit"]%string) -> last_args k e = None) ->
        linear_over (side_scale (a_align a) p) lo hi ->
        (forall q, a_tickplace a = Some q -> valued q) -> (forall q, a_lplace a = Some q -> valued q) ->
        a_scale a = side_scale (a_align a) p /\ axis_shown W E x0 y0 w h a part
      else part = []) axes parts.
Proof.
  intros W E p p1 e out x0 y0 w h X H C. destruct (C92_options_by_side W E p p1 e out H) as (axes & parts & S & F & O).
  exists axes, parts. split; [exact S|]. split; [exact O|]. clear H O.
  assert (S' : Forall (fun a => exists g, side_axis W E p e g a) axes).
  { clear - S. induction S; constructor; eauto. }
  clear S. induction F as [|a part l ps F1 F2 IH]; constructor; [|apply IH; now inversion S'].
  inversion S' as [|? ? (g & G) _]; subst. destruct (a_enable a); [|exact F1]. intros lo hi N Li V1 V2.
  destruct (C92_shown W E p e g a G) as [Al _]. rewrite Al in *.
  assert (Sc : a_scale a = side_scale g p).
  { rewrite (side_scale_kept W E _ _ _ _ G N). unfold axis0. now destruct (side_defaults g) as [[[[? ?] ?] ?] ?]. }
  split; [exact Sc|]. apply (C80_ticks_at_data W E p1 a lo hi); auto. now rewrite Sc.
Qed.
Print Assumptions C80_axes.

(** C80. Where that is: the coordinate along the axis is the one of every element of the plot with
    this value, whatever its other value. *)
Theorem C80_same_place : forall (sx sy : scale) (ax bx ay by_ x0 y0 w h v u q : R),
  linear_over sx ax bx -> linear_over sy ay by_ ->
  (forall t, scale_translate exact exact sx (Fin v) = Ret t ->
     vx (beside ABottom exact (rect x0 y0 w h) t (Fin q)) = vx (on_page sx sy ax bx ay by_ x0 y0 w h (v, u))) /\
  (forall t, scale_translate exact exact sy (Fin v) = Ret t ->
     vy (beside ALeft exact (rect x0 y0 w h) t (Fin q)) = vy (on_page sx sy ax bx ay by_ x0 y0 w h (u, v))).
Proof.
  intros sx sy ax bx ay by_ x0 y0 w h v u q Lx Ly.
  split; intros t T.
  - rewrite (linear_translate sx ax bx Lx) in T. injection T as <-. reflexivity.
  - rewrite (linear_translate sy ay by_ Ly) in T. injection T as <-. reflexivity.
Qed.
Print Assumptions C80_same_place.

(** C80. Without options for ticks, labels and scales an axis has 11 ticks, at the tenths of its
    range, labelled with these values. *)
Theorem C80_default_ticks : forall (W : world) (E : env) (p : plot) (e : list expr) (g : axis_align) (a : axis) (lo hi : R) (l : layout),
  exact_world W -> side_axis W E p e g a -> linear_over (side_scale g p) lo hi ->
  (forall k, In k (side_keys g ["scale"; "limit"; "label-placement"; "tick-placement"]%string) -> last_args k e = None) ->
  let b := axis_set_defaults W a in
  call_placement W (a_tickplace b) (a_scale b) (a_lformat b) = Ret l ->
  call_placement W (a_lplace b) (a_scale b) (a_lformat b) = Ret l /\
  positions l = map (fun i => Fin (INR i / 10)) (seq 0 11) /\ length (labels l) = 11%nat /\
  forall i, (i <= 10)%nat -> let v := division (s_inverted (side_scale g p)) lo hi 10 i in
    unit_pos (s_inverted (side_scale g p)) lo hi v = INR i / 10 /\
    exists t, label_format W a i (w_show W (Fin v)) = Ret t /\ nth_error (labels l) i = Some t.
Proof.
  intros W E p e g a lo hi l X S Li N b H.
  assert (I : forall k n, In n ["scale"; "limit"; "label-placement"; "tick-placement"]%string -> In k (side_keys g [n]) -> last_args k e = None).
  { intros k n I J. apply N. unfold side_keys in *. apply in_flat_map in J as (n' & [<-|[]] & J). apply in_flat_map. eauto. }
  unfold side_axis in S.
  assert (F : a_scale a = side_scale g p /\ a_lplace a = None /\ a_tickplace a = None).
  { rewrite (side_scale_kept W E _ _ _ _ S), (side_lplace_kept W E _ _ _ _ S), (side_tickplace_kept W E _ _ _ _ S).
    - unfold axis0. now destruct (side_defaults g) as [[[[? ?] ?] ?] ?].
    - intros k K. apply (I k "tick-placement"%string); [cbn; tauto|exact K].
    - intros k K. apply (I k "label-placement"%string); [cbn; tauto|exact K].
    - intros k K. unfold side_keys in K. apply in_flat_map in K as (n & K1 & K2). apply (I k n); [cbn in *; tauto|].
      apply in_flat_map. exists n. split; [now left|exact K2]. }
  destruct F as (Sc & Lp & Tp). rewrite <- Sc in *. assert (K : s_kind (a_scale a) = Linear) by apply Li.
  destruct (defaults_linear W a K) as (D1 & D2 & D3). cbn zeta in D1, D2, D3. rewrite Lp in *. rewrite Tp in D2. fold b in D1, D2, D3.
  assert (R1 : a_scale b = a_scale a) by apply (defaults_rest W a). rewrite D2, D3, R1 in H. cbn [call_placement] in H.
  split; [rewrite D1, D3, R1; exact H|].
  replace (Fin 10) with (Fin (INR 10)) in H by (f_equal; rewrite INR_IZR_INZ; reflexivity).
  destruct (ticks_subdivide W _ _ 10 l lo hi X Li ltac:(lia) ltac:(reflexivity) H) as (P & L & Q).
  replace (INR 10) with 10 in * by (rewrite INR_IZR_INZ; reflexivity). split; [exact P|]. split; [exact L|]. exact Q.
Qed.
Print Assumptions C80_default_ticks.

(** C80. On any scale and with any rounding: the placements linear, linear-align, linear-alignat,
    linear-interval and exponential put each tick exactly where the element readers put a value,
    and label it with this value. *)
Theorem C80_ticks_any_scale : forall (W : world) (s : scale) (fm : formatter) (p : placement) (l : layout),
  by_value p -> placed W p s fm = Ret l -> ticks_for W s fm l.
Proof. intros W s fm p l. apply ticks_by_value. Qed.
Print Assumptions C80_ticks_any_scale.
