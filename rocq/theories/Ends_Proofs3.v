(** Axes, grids, legends and backgrounds of a modest program. *)
From Coq Require Import Reals Lra Lia.
From Verif Require Import Base Num Sexpr_Model Dispatch_Model Data_Model Data_Spec Scale_Model
  Units_Model Color_Model Geo_Model Svg_Model Geojson_Model Format_Model Legend_Model Cmd_Model Cmd_Spec Cmd_Proofs Style_Model Plot_Model Plot_Spec Plot_Proofs Plot_Parts
  Axis_Model Eval_Model Eval_Spec Eval_Proofs Safe_Spec Safe_Proofs Safe_Proofs2 Safe_Proofs3 Safe_Props Safe_Props2 Ends_Spec Ends_Proofs Ends_Proofs2.
Local Open Scope R_scope.

Section Ticks.
  Variable W : world.
  Variable E : env.
  Hypothesis T : tame W.
  Hypothesis CW : counts W.
  Variable cat : Prop.
  Hypothesis dec_cat : cat \/ ~ cat.
  Notation okl := (okl W cat).
  Notation fine := (fine cat).
  Notation banned := (banned cat).
  Notation plot_fine := (plot_fine cat).
  Notation keep_cmd := (keep_if (Ends_Proofs.okl W cat)).
  Notation keep_table := (keep_table W cat).

  (** The placements that are used without an option. *)
  Definition given_place (p : placement) : Prop := p = PNone \/ exists n v, p = PSubdivide v /\ to_unsigned 32 v = Ret n.
  Definition usual (s : scale) (p : placement) : Prop :=
    given_place p \/ ((p = PCategorical \/ p = PCategoricalBounds) /\ s_kind s = Categorical).
  Definition total_format (fm : formatter) : Prop := forall i v, exists t, fm i v = Ret t.
  Lemma ten_unsigned : to_unsigned 32 (Fin 10) = Ret 10%nat.
  Proof. unfold to_unsigned. replace (Flocq.Core.Raux.Ztrunc 10) with 10%Z by (symmetry; apply Flocq.Core.Raux.Ztrunc_IZR). reflexivity. Qed.
  Lemma cat_loop_def fmt s cs : fine s -> s_kind s = Categorical -> forall i l, defined (categorical_loop (w_d W) fmt s cs i l).
  Proof.
    intros (_ & F & _) K. destruct (F K) as (_ & N & B). induction cs as [|c cs IH]; intros i l; cbn [categorical_loop]; [apply def_ret|].
    apply def_bind; [now apply d_categorical|]. intros; apply IH.
  Qed.
  Lemma bounds_loop_def s n o is : fine s -> s_kind s = Categorical -> forall l, defined (bounds_loop (w_d W) s n o is l).
  Proof.
    intros (_ & F & _) K. destruct (F K) as (_ & N & B). induction is as [|i is IH]; intro l; cbn [bounds_loop]; [apply def_ret|].
    apply def_bind; [now apply d_categorical|]. intros; apply IH.
  Qed.
  Lemma run_usual fmt n p s : fine s -> usual s p -> defined (run_placement (w_d W) (w_f W) (w_show W) fmt n p s empty_layout).
  Proof.
    intros F [[->|(n0 & v & -> & U)]|[[->| ->] K]]; unfold run_placement.
    - apply def_ret.
    - rewrite U. cbn [bind]. unfold layout_subdivide. cbn [bind]. apply def_ret.
    - unfold layout_categorical. apply def_bind; [|intros [? ?] _; apply def_ret]. apply def_bind; [now apply cat_loop_def|intros; apply def_ret].
    - unfold layout_categorical_bounds. apply def_bind; [|intros [? ?] _; apply def_ret]. apply def_bind; [now apply bounds_loop_def|intros; apply def_ret].
  Qed.
  Definition blank_labels (l : layout) : Prop := Forall (fun t => t = []) (labels l).
  Lemma add_blank l v t : blank_labels l -> t = [] -> blank_labels (add_tick l v t).
  Proof. intros B ->. unfold blank_labels, add_tick. cbn [labels]. apply Forall_app. split; [exact B|]. constructor; [reflexivity|constructor]. Qed.
  Lemma run_blank fmt n p s l : (forall i v, fmt i v = []) -> usual s p ->
    run_placement (w_d W) (w_f W) (w_show W) fmt n p s empty_layout = Ret l -> blank_labels l.
  Proof.
    intros Z U Q. assert (B0 : blank_labels empty_layout) by constructor. destruct U as [[->|(n0 & v & -> & U)]|[[->| ->] K]]; unfold run_placement in Q.
    - cbn [bind] in Q. assert (l = empty_layout) as -> by congruence. exact B0.
    - rewrite U in Q. cbn [bind] in Q. unfold layout_subdivide in Q. cbn [bind] in Q.
      match type of Q with Ret ?x = Ret _ => assert (l = x) as -> by congruence end. revert B0. generalize empty_layout. generalize (seq 0 (S n0)).
      intro is. induction is as [|i is IH]; intros l0 B; cbn [fold_left]; [exact B|]. apply IH. apply add_blank; [exact B|apply Z].
    - apply bind_ret in Q. destruct Q as ([l1 b] & Q & Q0). injection Q0 as <-. apply bind_ret in Q. destruct Q as (l2 & Q & Q0). injection Q0 as <- _.
      revert B0 Q. generalize empty_layout, 0%nat. induction (s_categories s) as [|c cs IH]; intros l0 i B Q; cbn [categorical_loop] in Q; [injection Q as <-; exact B|].
      apply bind_ret in Q. destruct Q as (o & _ & Q). refine (IH _ _ _ Q). apply add_blank; [exact B|apply Z].
    - apply bind_ret in Q. destruct Q as ([l1 b] & Q & Q0). injection Q0 as <-. apply bind_ret in Q. destruct Q as (l2 & Q & Q0). injection Q0 as <- _.
      revert B0 Q. generalize empty_layout. match goal with |- context [bounds_loop _ s ?m ?x ?y _] => generalize m, x, y end. intros m x is.
      induction is as [|i is IH]; intros l0 B Q; cbn [bounds_loop] in Q; [injection Q as <-; exact B|].
      apply bind_ret in Q. destruct Q as (o & _ & Q). refine (IH _ _ Q). now apply add_blank.
  Qed.
  Lemma placed_usual p s fm : fine s -> usual s p -> total_format fm -> defined (placed W p s fm).
  Proof.
    intros F U TF. unfold placed. apply def_bind; [now apply run_usual|]. intros l Q.
    apply run_blank in Q; [|intros i v; destruct (TF i v) as [t ->]; reflexivity|exact U].
    assert (X : existsb (fun l => match l with [] => false | _ => true end) (labels l) = false).
    { unfold blank_labels in Q. induction Q as [|t ts -> Q IH]; [reflexivity|exact IH]. }
    rewrite X. now apply run_usual.
  Qed.

  (** An axis as the options leave it, and with the defaults. *)
  Definition maybe {A} (P : A -> Prop) (o : option A) : Prop := match o with None => True | Some a => P a end.
  Definition axis_fine (a : axis) : Prop :=
    fine (a_scale a) /\ maybe given_place (a_lplace a) /\ maybe given_place (a_tickplace a) /\ maybe total_format (a_lformat a).
  Definition axis_ready (a : axis) : Prop :=
    fine (a_scale a) /\ (exists p, a_lplace a = Some p /\ usual (a_scale a) p) /\ (exists p, a_tickplace a = Some p /\ usual (a_scale a) p) /\
    (exists fm, a_lformat a = Some fm /\ total_format fm).
  Lemma axis_default a : axis_fine a -> axis_ready (axis_set_defaults W a).
  Proof.
    intros (F & L & K & M). assert (TF : total_format (format_fixed (stod_val W) 1)) by (intros i v; eexists; reflexivity).
    assert (TN : total_format format_noop) by (intros i v; eexists; reflexivity).
    assert (GT : given_place (PSubdivide (Fin 10))) by (right; exists 10%nat, (Fin 10); split; [reflexivity|exact ten_unsigned]).
    destruct a as [a1 a2 sc a4 a5 a6 a7 a8 a9 a10 a11 a12 tp lp lf a16 a17 a18 a19 a20 a21 a22 a23]. cbn [a_scale a_lplace a_tickplace a_lformat] in *.
    pose proof (proj1 F) as NL. unfold axis_set_defaults, layout_defaults, default_label. cbn [a_scale a_lplace a_tickplace a_lformat].
    destruct (s_kind sc) eqn:SK; [| |congruence] || (destruct (s_kind sc) eqn:SK; try congruence).
    all: destruct tp as [tp|], lp as [lp|], lf as [lf|]; cbn [maybe] in *; unfold axis_ready; cbn;
      (split; [exact F|]); (split; [eexists; split; [reflexivity|unfold usual; auto]|]);
      (split; [eexists; split; [reflexivity|unfold usual; auto]|]); eexists; (split; [reflexivity|assumption]).
  Qed.
  Lemma ready_call p a : axis_ready a -> (p = a_lplace a \/ p = a_tickplace a) -> defined (call_placement W p (a_scale a) (a_lformat a)).
  Proof.
    intros (F & (p1 & -> & U1) & (p2 & -> & U2) & (fm & -> & TF)) [->| ->]; cbn [call_placement]; now apply placed_usual.
  Qed.
  Lemma extent_def a ts : forall m, defined (label_extent W E a ts m).
  Proof.
    induction ts as [|[v t] ts IH]; intro m; cbn [label_extent]; [apply def_ret|]. apply def_bind; [apply T|]. intros; apply IH.
  Qed.
  Lemma layout_labels_def a : axis_ready a -> defined (axis_layout_labels W E a).
  Proof. intro R. unfold axis_layout_labels. apply def_bind; [apply ready_call; auto|]. intros; apply extent_def. Qed.
  Lemma layout_title_def a : defined (axis_layout_title W E a).
  Proof. unfold axis_layout_title. apply def_bind; [apply T|]. intros; apply def_ret. Qed.
  Lemma keep_or o m next : defined o -> (forall v, defined (next v)) -> defined (or_keep o m next).
  Proof. intros D N. destruct o; cbn [or_keep]; try apply def_ret; try apply def_throw; [apply N|destruct D; congruence..]. Qed.
  Lemma axis_layout_def a : axis_ready a -> defined (axis_layout W E a).
  Proof.
    intro R. unfold axis_layout. apply keep_or; [now apply layout_labels_def|]. intro v. destruct (a_title a); [apply def_ret|].
    apply keep_or; [apply layout_title_def|]. intro; apply def_ret.
  Qed.
  Lemma draw_axis_def h a x c0 c1 : axis_ready a -> defined (draw_axis W E h a x c0 c1).
  Proof.
    intro R. unfold draw_axis. apply def_bind; [apply ready_call; auto|]. intros tk _. apply def_bind; [apply ready_call; auto|]. intros lab _.
    apply def_bind; [now apply layout_labels_def|]. intros ls _. destruct (attach_align (a_attach a)) as [ax ay].
    apply def_bind; [apply def_draw_each; intros; apply d_draw_text; exact T|]. intros tx _. apply def_bind; [|intros; apply def_ret].
    destruct (a_title a); [apply def_ret|]. apply def_bind; [apply layout_title_def|]. intros; apply d_draw_text; exact T.
  Qed.
  Lemma draw_aligned_def p a : axis_ready a -> defined (draw_aligned W E p a).
  Proof. intro R. unfold draw_aligned. destruct (a_align a); now apply draw_axis_def. Qed.

  (** Options of an axis. *)
  Definition axis_cmd (c : cmd axis) : Prop := keep_cmd axis_fine c.
  Lemma part_scale rd : keep_cmd fine rd -> axis_cmd (updf a_scale rd set_a_scale).
  Proof.
    intro K. apply (keep_part W cat axis_fine fine); [exact K|intros a F; apply F|]. intros v a A J. destruct a, A as (? & ? & ? & ?).
    split; [exact J|]. split; [assumption|]. split; assumption.
  Qed.
  Lemma k_scale : axis_cmd (c_scale W). Proof. apply part_scale. now apply kind_keep. Qed.
  Lemma k_limit : axis_cmd (c_limit W). Proof. apply part_scale. apply limits_fine. Qed.
  Lemma k_limit_min : axis_cmd (c_limit_min W). Proof. apply part_scale. apply float_fine; intros; now split. Qed.
  Lemma k_limit_max : axis_cmd (c_limit_max W). Proof. apply part_scale. apply float_fine; intros; now split. Qed.
  Ltac same := let v := fresh in let a := fresh in let A := fresh in intros v a A; destruct a; exact A.
  Ltac rdr := first
    [ apply d_float | apply d_size | apply d_font_size | apply d_measure | apply d_string | apply d_enum | apply d_switch | apply d_color | (apply d_font; exact T) | apply def_ret ].
  Ltac simple_cmd := unfold axis_cmd; first [apply keep_upd; [intro; rdr|same]|apply keep_updf; [intros; rdr|same]].
  Lemma k_lfont : axis_cmd (c_lfont W). Proof. simple_cmd. Qed.
  Lemma k_tfont : axis_cmd (c_tfont W). Proof. simple_cmd. Qed.
  Lemma k_attach : axis_cmd c_attach. Proof. simple_cmd. Qed.
  Lemma k_loff : axis_cmd (c_loff W). Proof. simple_cmd. Qed.
  Lemma k_lpad : axis_cmd (c_lpad W). Proof. simple_cmd. Qed.
  Lemma k_lrotate : axis_cmd (c_lrotate W). Proof. simple_cmd. Qed.
  Lemma k_lsize : axis_cmd (c_lsize W E). Proof. simple_cmd. Qed.
  Lemma k_lcolor : axis_cmd (c_lcolor W E). Proof. simple_cmd. Qed.
  Lemma k_tickoff : axis_cmd (c_tickoff W). Proof. simple_cmd. Qed.
  Lemma k_ticklen : axis_cmd (c_ticklen W). Proof. simple_cmd. Qed.
  Lemma k_title : axis_cmd c_title. Proof. simple_cmd. Qed.
  Lemma k_tsize : axis_cmd (c_tsize W E). Proof. simple_cmd. Qed.
  Lemma k_tcolor : axis_cmd (c_tcolor W E). Proof. simple_cmd. Qed.
  Lemma k_toff : axis_cmd (c_toff W). Proof. simple_cmd. Qed.
  Lemma k_tpad : axis_cmd (c_tpad W). Proof. simple_cmd. Qed.
  Lemma k_trotate : axis_cmd (c_trotate W). Proof. simple_cmd. Qed.
  Lemma k_bwidth : axis_cmd (c_bwidth W E). Proof. simple_cmd. Qed.
  Lemma k_bcolor : axis_cmd (c_bcolor W E). Proof. simple_cmd. Qed.
  Lemma k_bstyle : axis_cmd c_bstyle. Proof. simple_cmd. Qed.
  Lemma is_val_none x : word_ x "none" -> configure_layout (w_stod W) [x] = Ret PNone.
  Proof. intros [-> | ->]; reflexivity. Qed.
  Lemma count_reads n : count_word W n -> exists v m, expr_to_float64 (w_stod W) [n] = Ret v /\ to_unsigned 32 v = Ret m /\ number_arg (stod_val W) 32 n = Ret m.
  Proof.
    intro C. destruct n as [l|t|t]; [destruct C|..]; destruct C as (r & q & S & B).
    all: exists (Fin r), (Z.to_nat (Flocq.Core.Raux.Ztrunc r)).
    all: assert (U : to_unsigned 32 (Fin r) = Ret (Z.to_nat (Flocq.Core.Raux.Ztrunc r))).
    1, 3: unfold to_unsigned; rewrite Flocq.Core.Raux.Ztrunc_floor by lra; pose proof (Flocq.Core.Raux.Zfloor_lb r) as LB;
      assert (0 <= Flocq.Core.Raux.Zfloor r)%Z by (apply Flocq.Core.Raux.Zfloor_lub; lra);
      assert (Flocq.Core.Raux.Zfloor r < 2 ^ 32)%Z by (apply lt_IZR; replace (IZR (2 ^ 32)) with (2 ^ 32) by (rewrite (pow_IZR 2 32); f_equal; reflexivity); lra);
      destruct (Z.leb_spec 0 (Flocq.Core.Raux.Zfloor r)); [|lia]; destruct (Z.ltb_spec (Flocq.Core.Raux.Zfloor r) (2 ^ 32)); [reflexivity|lia].
    all: (split; [unfold expr_to_float64; cbn [value_of]; rewrite S; reflexivity|]); (split; [exact U|]); unfold number_arg, raw_value, stod_val; cbn; rewrite S; exact U.
  Qed.
  Lemma rd_place_plain a : plain_place W a -> exists p, rd_place W a = Ret (Some p) /\ given_place p.
  Proof.
    intros [(x & -> & H)|[(h & -> & H)|(h & n & -> & H & C)]]; unfold rd_place.
    - rewrite is_val_none by exact H. exists PNone. split; [reflexivity|now left].
    - exists (PSubdivide (Fin 8)). split; [destruct H as [-> | ->]; reflexivity|]. right. exists 8%nat, (Fin 8). split; [reflexivity|].
      unfold to_unsigned. replace (Flocq.Core.Raux.Ztrunc 8) with 8%Z by (symmetry; apply Flocq.Core.Raux.Ztrunc_IZR). reflexivity.
    - destruct (count_reads n C) as (v & m & R & U & _). exists (PSubdivide v). split; [|right; eauto].
      assert (Q : configure_layout (w_stod W) [EList [h; n]] = let* n := args1 (w_stod W) [n] in Ret (PSubdivide n)) by (destruct H as [-> | ->]; reflexivity).
      rewrite Q. unfold args1. rewrite R. reflexivity.
  Qed.
  Lemma custom_total ws : total_format (format_custom ws).
  Proof.
    intros i v. unfold format_custom. destruct ws as [|w ws]; [eexists; reflexivity|].
    destruct (nth_error (w :: ws) (i mod length (w :: ws))) eqn:N; [eexists; reflexivity|]. exfalso. apply nth_error_None in N.
    pose proof (Nat.mod_upper_bound i (length (w :: ws)) ltac:(discriminate)). lia.
  Qed.
  Lemma rd_format_plain a : plain_format W a -> defined (rd_format W a) /\ forall o, rd_format W a = Ret o -> maybe total_format o.
  Proof.
    assert (FX : forall p, total_format (format_fixed (stod_val W) p)) by (intros p i v; eexists; reflexivity).
    intros [(x & -> & H)|[(h & -> & H)|[(h & n & -> & H & C)|(h & ws & -> & H)]]]; unfold rd_format.
    - assert (Q : format_configure (w_d W) (stod_val W) (w_strftime W) (w_read_file W) [x] = Ret (format_fixed (stod_val W) 1)) by (destruct H as [-> | ->]; reflexivity).
      rewrite Q. split; [apply def_ret|]. intros o R. injection R as <-. apply FX.
    - assert (Q : format_configure (w_d W) (stod_val W) (w_strftime W) (w_read_file W) [EList [h]] = Ret (format_fixed (stod_val W) 1)) by (destruct H as [-> | ->]; reflexivity).
      rewrite Q. split; [apply def_ret|]. intros o R. injection R as <-. apply FX.
    - destruct (count_reads n C) as (v & m & _ & _ & U).
      assert (Q : format_configure (w_d W) (stod_val W) (w_strftime W) (w_read_file W) [EList [h; n]] = let* p := number_arg (stod_val W) 32 n in Ret (format_fixed (stod_val W) p)) by (destruct H as [-> | ->]; reflexivity).
      rewrite Q, U. split; [apply def_ret|]. intros o R. injection R as <-. apply FX.
    - assert (Q : format_configure (w_d W) (stod_val W) (w_strftime W) (w_read_file W) [EList (h :: ws)] = configure_custom (w_read_file W) ws) by (destruct H as [-> | ->]; reflexivity).
      rewrite Q. unfold configure_custom.
      assert (D0 : forall vs, defined (let* p := Ret (format_custom vs) in Ret (Some p)) /\ forall o, (let* p := Ret (format_custom vs) in Ret (Some p)) = Ret o -> maybe total_format o).
      { intro vs. split; [apply def_ret|]. intros o R. injection R as <-. apply custom_total. }
      destruct ws as [|[l|t|t] ws]; try apply D0.
      pose proof (d_load_strings W (EList l :: ws) []) as DL. destruct (data_load_strings (w_read_file W) (EList l :: ws) []) as [vs o1]. cbn [snd] in DL.
      destruct o1; cbn [bind]; try (split; [first [apply def_err|apply def_throw]|discriminate]); try (destruct DL; congruence). apply (D0 vs).
  Qed.
  Definition placed_args (a : list expr) : Prop := okl a /\ plain_place W a.
  Definition format_args (a : list expr) : Prop := okl a /\ plain_format W a.
  Lemma k_lplace : keep_if placed_args axis_fine (c_lplace W).
  Proof.
    intros a s [_ P] (F & L & K & M). destruct (rd_place_plain a P) as (p & R & G). unfold c_lplace, upd. rewrite R. split; [apply def_ret|].
    intros s' Q. injection Q as <-. destruct s. split; [exact F|]. split; [exact G|]. now split.
  Qed.
  Lemma k_tickplace : keep_if placed_args axis_fine (c_tickplace W).
  Proof.
    intros a s [_ P] (F & L & K & M). destruct (rd_place_plain a P) as (p & R & G). unfold c_tickplace, upd. rewrite R. split; [apply def_ret|].
    intros s' Q. injection Q as <-. destruct s. split; [exact F|]. split; [exact L|]. now split.
  Qed.
  Lemma k_lformat : keep_if format_args axis_fine (c_lformat W).
  Proof.
    intros a s [_ P] (F & L & K & M). destruct (rd_format_plain a P) as [D G]. unfold c_lformat, upd. split; [apply def_bind; [exact D|intros; apply def_ret]|].
    intros s' Q. apply bind_ret in Q. destruct Q as (o & R & Q). injection Q as <-. destruct s. split; [exact F|]. split; [exact L|]. split; [exact K|]. exact (G _ R).
  Qed.
  (** Entries of a table for these options. *)
  Lemma under_place {S} (Inv : S -> Prop) k f : starts "label-placement" k \/ starts "tick-placement" k -> keep_if placed_args Inv f ->
    keep_if (fun a => okl a /\ plain_option W k a) Inv f.
  Proof. intros B K a s [O [P _]]. apply K. split; auto. Qed.
  Lemma under_format {S} (Inv : S -> Prop) k f : starts "label-format" k -> keep_if format_args Inv f -> keep_if (fun a => okl a /\ plain_option W k a) Inv f.
  Proof. intros B K a s [O [_ P]]. apply K. split; auto. Qed.
  Ltac starting := first
    [ match goal with |- starts ?w ?k => let r := eval cbv in (skipn (length (s_ w)) k) in exists r; reflexivity end ].
  Ltac under := apply keep_under; [first [apply under_place; [first [left; solve [starting]|right; solve [starting]]|]|apply under_format; [solve [starting]|]]|].
  Ltac kcmd := first
    [ exact k_scale | exact k_limit | exact k_limit_min | exact k_limit_max | exact k_lfont | exact k_tfont | exact k_attach | exact k_loff | exact k_lpad | exact k_lrotate
    | exact k_lsize | exact k_lcolor | exact k_tickoff | exact k_ticklen | exact k_title | exact k_tsize | exact k_tcolor | exact k_toff | exact k_tpad | exact k_trotate
    | exact k_bwidth | exact k_bcolor | exact k_bstyle ].
  Lemma axis_table_keep : keep_table axis_fine (axis_table W E).
  Proof.
    unfold axis_table. repeat first [under; [first [exact k_lplace|exact k_tickplace|exact k_lformat]|]|apply keep_cons]; try apply keep_nil; try kcmd.
    all: apply keep_each; repeat (apply Forall_cons; [kcmd|]); apply Forall_nil.
  Qed.
  Lemma axis0_fine g s : fine s -> axis_fine (axis0 W E g s).
  Proof. intro F. unfold axis0. destruct (side_defaults g) as [[[[? ?] ?] ?] ?]. split; [exact F|]. split; [exact I|]. split; exact I. Qed.
  Lemma axis_configure_fine e : okl e -> defined (axis_configure W E e) /\ forall a, axis_configure W E e = Ret a -> axis_fine a.
  Proof.
    intro O. unfold axis_configure. destruct e as [|x e]; [split; [apply def_throw|discriminate]|].
    destruct (collect_keep W cat (fun _ => True) [(s_ "align", upd (expr_to_enum align_enum) (fun v _ => v))] (x :: e) AX) as [D1 _]; [|exact O|exact I|].
    { apply keep_cons; [|apply keep_nil]. apply keep_upd; [intro; apply d_enum|auto]. }
    assert (P : forall g, defined (run_collect (axis_table W E) (x :: e) (axis0 W E g scale0)) /\
       forall s' r, run_collect (axis_table W E) (x :: e) (axis0 W E g scale0) = Ret (s', r) -> axis_fine s').
    { intro g. apply (collect_keep W cat axis_fine); [exact axis_table_keep|exact O|apply axis0_fine, fine0]. }
    split.
    - apply def_bind; [exact D1|]. intros [g r] _. apply def_bind; [exact (proj1 (P g))|]. intros [a r'] _. apply def_ret.
    - intros a Q. apply bind_ret in Q. destruct Q as ([g r] & _ & Q). apply bind_ret in Q. destruct Q as ([a' r'] & Q & Q0). injection Q0 as <-.
      exact (proj2 (P g) _ _ Q).
  Qed.
  Lemma plot_axis_def p e : okl e -> defined (plot_axis W E p e).
  Proof.
    intro O. unfold plot_axis. apply def_bind; [now apply axis_configure_fine|]. intros a Q. apply draw_aligned_def, axis_default.
    exact (proj2 (axis_configure_fine e O) a Q).
  Qed.

  (** The four axes. *)
  Definition axes_fine (c : axes_cfg) : Prop := length (x_axes c) = 4%nat /\ Forall axis_fine (x_axes c).
  Lemma set_nth_length {A} (l : list A) v : forall i, length (set_nth i v l) = length l.
  Proof. induction l as [|a l IH]; intros [|i]; cbn [set_nth length]; auto. Qed.
  Lemma set_nth_forall {A} (P : A -> Prop) (l : list A) v : Forall P l -> P v -> forall i, Forall P (set_nth i v l).
  Proof. intros F V. induction F as [|a l PA F IH]; intros [|i]; cbn [set_nth]; try constructor; auto. Qed.
  Lemma on_keep P i c : (i < 4)%nat -> keep_if P axis_fine c -> keep_if P axes_fine (on i c).
  Proof.
    intros I C a s O [L F]. unfold on. destruct (nth_error (x_axes s) i) as [ax|] eqn:N; [|apply nth_error_None in N; lia].
    assert (FA : axis_fine ax) by (rewrite Forall_forall in F; apply F; eapply nth_error_In; eauto). destruct (C a ax O FA) as [C1 C2].
    split; [apply def_bind; [exact C1|intros; apply def_ret]|]. intros s' Q. apply bind_ret in Q. destruct Q as (ax' & Q1 & Q). injection Q as <-.
    split; cbn [x_axes]; [now rewrite set_nth_length|]. apply set_nth_forall; [exact F|]. now apply C2.
  Qed.
  Lemma on_all_keep P is cs : Forall (fun i => (i < 4)%nat) is -> Forall (keep_if P axis_fine) cs -> keep_if P axes_fine (on_all is cs).
  Proof.
    intros I C. apply keep_each. apply Forall_forall. intros f H. apply in_flat_map in H. destruct H as (c & IC & H). apply in_map_iff in H. destruct H as (i & <- & II).
    rewrite Forall_forall in I, C. apply on_keep; auto.
  Qed.
  Lemma xs_lt : Forall (fun i => (i < 4)%nat) xs_. Proof. repeat constructor. Qed.
  Lemma ys_lt : Forall (fun i => (i < 4)%nat) ys_. Proof. repeat constructor. Qed.
  Lemma all_lt : Forall (fun i => (i < 4)%nat) all4. Proof. repeat constructor. Qed.
  Lemma sides_keep n c : axis_cmd c -> keep_table axes_fine (sides n c).
  Proof. intro C. unfold sides. repeat (apply keep_cons; [apply on_keep; [lia|exact C]|]). apply keep_nil. Qed.
  Lemma dims_keep n c : axis_cmd c -> keep_table axes_fine (dims n c).
  Proof.
    intro C. unfold dims. apply keep_cons; [apply on_all_keep; [exact xs_lt|apply Forall_cons; [exact C|apply Forall_nil]]|].
    apply keep_cons; [apply on_all_keep; [exact ys_lt|apply Forall_cons; [exact C|apply Forall_nil]]|]. apply keep_nil.
  Qed.
  Lemma every_keep n c : axis_cmd c -> keep_table axes_fine (every n c).
  Proof. intro C. unfold every. apply keep_cons; [apply on_all_keep; [exact all_lt|apply Forall_cons; [exact C|apply Forall_nil]]|]. apply keep_nil. Qed.
  Lemma enable_keep l : forall axes, length axes = 4%nat -> Forall axis_fine axes ->
    defined (enable_sides l axes) /\ forall a', enable_sides l axes = Ret a' -> length a' = 4%nat /\ Forall axis_fine a'.
  Proof.
    induction l as [|e l IH]; intros axes L F; cbn [enable_sides].
    - split; [apply def_ret|]. intros a' Q. injection Q as <-. now split.
    - destruct (side_index e) as [i|] eqn:S; [|split; [apply def_err|discriminate]].
      destruct (nth_error axes i) as [a|] eqn:N.
      + apply IH; [now rewrite set_nth_length|]. apply set_nth_forall; [exact F|]. rewrite Forall_forall in F. apply nth_error_In in N. specialize (F _ N). destruct a; exact F.
      + exfalso. apply nth_error_None in N. unfold side_index in S. repeat (match type of S with context [if ?b then _ else _] => destruct b end); try discriminate; injection S as <-; lia.
  Qed.
  Lemma position_keep : keep_cmd axes_fine c_position.
  Proof.
    intros a s _ [L F]. unfold c_position.
    destruct (enable_keep a (map (set_a_enable false) (x_axes s))) as [D1 D2]; [now rewrite map_length| |].
    { apply Forall_forall. intros x I. apply in_map_iff in I. destruct I as (y & <- & I). rewrite Forall_forall in F. specialize (F _ I). destruct y; exact F. }
    split; [apply def_bind; [exact D1|intros; apply def_ret]|]. intros s' Q. apply bind_ret in Q. destruct Q as (ax & Q1 & Q). injection Q as <-. exact (D2 _ Q1).
  Qed.
  Lemma margins_keep {S} (Inv : S -> Prop) get put : (forall m s, Inv s -> Inv (put m s)) -> keep_table Inv (margin_entries W E get put).
  Proof.
    intro P. unfold margin_entries. cbv zeta.
    assert (K : forall st, keep_cmd Inv (upd (rd_size W E) (fun v s => put (st v (get s)) s))) by (intro st; apply keep_upd; [intro; apply d_size|auto]).
    repeat (apply keep_cons; [first [apply K|apply keep_each; repeat (apply Forall_cons; [apply K|]); apply Forall_nil]|]). apply keep_nil.
  Qed.
  Lemma axes_table_keep : keep_table axes_fine (axes_table W E).
  Proof.
    unfold axes_table. repeat apply keep_app.
    all: try (first [apply sides_keep|apply dims_keep|apply every_keep]; kcmd).
    all: try (unfold sides, dims, every; repeat (under; [first
      [ apply on_keep; [lia|first [exact k_lplace|exact k_tickplace|exact k_lformat]]
      | apply on_all_keep; [first [exact xs_lt|exact ys_lt|exact all_lt]|apply Forall_cons; [first [exact k_lplace|exact k_tickplace|exact k_lformat]|apply Forall_nil]] ]|]); apply keep_nil).
    - apply keep_cons; [exact position_keep|apply keep_nil].
    - apply margins_keep. intros m s H. exact H.
    - repeat (apply keep_cons; [apply on_all_keep; [exact all_lt|repeat (apply Forall_cons; [kcmd|]); apply Forall_nil]|]). apply keep_nil.
  Qed.
  Lemma plot_axes_def p e : okl e -> plot_fine p ->
    defined (plot_axes W E p e) /\ forall p' l, plot_axes W E p e = Ret (p', l) -> plot_fine p'.
  Proof.
    intros O [FX FY]. assert (A0 : axes_fine (axes0 W E p)).
    { split; [reflexivity|]. unfold axes0. cbn [x_axes]. repeat (apply Forall_cons; [now apply axis0_fine|]); apply Forall_nil. }
    destruct (run_keep W cat axes_fine _ e _ axes_table_keep O A0) as [D1 D2]. unfold plot_axes. split.
    - apply def_bind; [exact D1|]. intros c Q. destruct (D2 c Q) as [_ FC]. rewrite Forall_forall in FC.
      apply def_bind; [apply def_forM; intros a I; unfold axis_padding; destruct (a_enable a); [|apply def_ret]; apply axis_layout_def, axis_default, FC, I|].
      intros pads _. apply def_bind; [|intros; apply def_ret]. apply def_draw_each. intros a I. destruct (a_enable a); [|apply def_ret]. apply draw_aligned_def, axis_default, FC, I.
    - intros p' l Q. apply bind_ret in Q. destruct Q as (c & _ & Q). apply bind_ret in Q. destruct Q as (pads & _ & Q). apply bind_ret in Q. destruct Q as (out & _ & Q).
      injection Q as <- _. split; cbn [p_sx p_sy]; assumption.
  Qed.

  (** Grids. *)
  Definition grid_fine (c : grid_cfg) : Prop := fine (gr_sx c) /\ fine (gr_sy c) /\ maybe given_place (gr_lx c) /\ maybe given_place (gr_ly c).
  Lemma grid_table_keep : keep_table grid_fine (grid_table W E).
  Proof.
    unfold grid_table. cbv zeta. apply keep_app.
    { apply scale_entries_keep; auto; [intros s (A & B & _); now split|]. intros v s (A & B & C & D) F.
      split; (split; [|split; [|split]]); assumption. }
    assert (KX : keep_if placed_args grid_fine (upd (rd_place W) set_gr_lx)).
    { intros a s [_ P] (F & L & K & M). destruct (rd_place_plain a P) as (p & R & G). unfold upd. rewrite R. split; [apply def_ret|].
      intros s' Q. injection Q as <-. split; [exact F|]. split; [exact L|]. now split. }
    assert (KY : keep_if placed_args grid_fine (upd (rd_place W) set_gr_ly)).
    { intros a s [_ P] (F & L & K & M). destruct (rd_place_plain a P) as (p & R & G). unfold upd. rewrite R. split; [apply def_ret|].
      intros s' Q. injection Q as <-. split; [exact F|]. split; [exact L|]. now split. }
    repeat first [under; [first [exact KX|exact KY]|]|apply keep_cons]; try apply keep_nil.
    all: first [apply keep_upd; [intro; rdr|]|apply keep_updf; [intros; first [rdr|apply d_stroke]|]]; intros v c H; exact H.
  Qed.
  Lemma grid_call s o : fine s -> maybe given_place o -> defined (call_placement W (grid_default s o) s (Some format_noop)).
  Proof.
    intros F G. assert (U : maybe (usual s) (grid_default s o)).
    { unfold grid_default, layout_defaults. pose proof (proj1 F) as NL. destruct o as [p|]; cbn; [now left|].
      destruct (s_kind s) eqn:K; cbn; try congruence; unfold usual; rewrite ?K; auto.
      left. right. exists 10%nat, (Fin 10). split; [reflexivity|exact ten_unsigned]. }
    destruct (grid_default s o) as [p|]; cbn [call_placement]; [|apply def_throw].
    apply placed_usual; auto. intros i v. eexists; reflexivity.
  Qed.
  Lemma plot_grid_def p e : okl e -> plot_fine p -> defined (plot_grid W E p e).
  Proof.
    intros O [FX FY]. unfold plot_grid. destruct (run_keep W cat grid_fine _ e (grid0 W E p) grid_table_keep O) as [D1 D2].
    { split; [exact FX|]. split; [exact FY|]. split; exact I. }
    apply def_bind; [exact D1|]. intros c Q. destruct (D2 c Q) as (A & B & GX & GY).
    apply def_bind; [now apply grid_call|]. intros lx _. apply def_bind; [now apply grid_call|]. intros; apply def_ret.
  Qed.
End Ticks.
