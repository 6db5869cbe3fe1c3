(** Numbers and the file, for C106. *)
From Coq Require Import Reals Lra.
From Verif Require Import Base Num Num_Facts Dec Color_Model Color_Spec Color_Proofs Geo_Model Geo_Props Svg_Model Svg_Spec Svg_Embed Svg_Proofs Svg_Props Whole_Spec.
From Flocq Require Import Core.
Local Open Scope R_scope.

Lemma rnd64_abs x : Rabs x <= 65536 -> Rabs (rnd64 x - x) <= bpow radix2 (-37).
Proof.
  intros H. unfold rnd64. eapply Rle_trans; [apply error_le_half_ulp; auto with typeclass_instances|].
  assert (ulp radix2 (FLT_exp (-1074) 53) x <= bpow radix2 (-36)).
  { destruct (Req_dec x 0) as [->|N].
    - rewrite (@ulp_FLT_0 radix2 (-1074) 53 eq_refl). apply bpow_le. lia.
    - rewrite ulp_neq_0 by exact N. apply bpow_le. unfold cexp, FLT_exp.
      assert (mag radix2 x <= 17)%Z by (apply mag_le_bpow; [exact N|eapply Rle_lt_trans; [exact H|cbn; lra]]). lia. }
  replace (bpow radix2 (-37)) with (/ 2 * bpow radix2 (-36)) by (cbn; lra). lra.
Qed.
Lemma rnd64_unit x : 0 <= x <= 1 -> Rabs (rnd64 x - x) <= bpow radix2 (-53).
Proof.
  intros H. unfold rnd64. eapply Rle_trans; [apply error_le_half_ulp; auto with typeclass_instances|].
  assert (ulp radix2 (FLT_exp (-1074) 53) x <= bpow radix2 (-52)).
  { destruct (Req_dec x 0) as [->|N].
    - rewrite (@ulp_FLT_0 radix2 (-1074) 53 eq_refl). apply bpow_le. lia.
    - rewrite ulp_neq_0 by exact N. apply bpow_le. unfold cexp, FLT_exp.
      assert (mag radix2 x <= 1)%Z by (apply mag_le_bpow; [exact N|rewrite Rabs_pos_eq by lra; cbn; lra]). lia. }
  replace (bpow radix2 (-53)) with (/ 2 * bpow radix2 (-52)) by (cbn; lra). lra.
Qed.
Lemma rnd64_range x b : is64 b -> 0 <= x <= b -> 0 <= rnd64 x <= b.
Proof.
  intros B [L U]. pose proof (rnd64_mono _ _ L) as M1. pose proof (rnd64_mono _ _ U) as M2. rewrite rnd64_0 in M1. rewrite (rnd64_id b B) in M2. lra.
Qed.

(** The place of a value in binary64: the four roundings together stay far below a thousandth. *)
Definition placed (lo hi n v : R) : R := rnd64 (rnd64 (rnd64 (v - lo) / rnd64 (hi - lo)) * n).
Lemma placed_ok lo hi n v : is64 lo -> is64 hi -> is64 v -> is64 n -> 0 <= n <= 65536 -> lo < hi -> lo <= v <= hi ->
  0 < rnd64 (hi - lo) /\ 0 <= placed lo hi n v <= n /\ Rabs (placed lo hi n v - along lo hi n v) <= / 1000000000.
Proof.
  intros L H V N Bn LH Bv. unfold placed, along.
  pose proof (plus64 v (- lo) V (generic_format_opp _ _ _ L)) as EA. pose proof (plus64 hi (- lo) H (generic_format_opp _ _ _ L)) as EB.
  change (v + - lo) with (v - lo) in EA. change (hi + - lo) with (hi - lo) in EB.
  pose proof (rnd64_mono 0 (v - lo) ltac:(lra)) as P1. rewrite rnd64_0 in P1. pose proof (rnd64_mono (v - lo) (hi - lo) ltac:(lra)) as P2.
  rewrite (Rabs_pos_eq (v - lo)) in EA by lra. rewrite (Rabs_pos_eq (hi - lo)) in EB by lra.
  set (A := rnd64 (v - lo)) in *. set (B := rnd64 (hi - lo)) in *. set (a := v - lo) in *. set (b := hi - lo) in *.
  assert (U : bpow radix2 (-53) = / 9007199254740992) by reflexivity. rewrite U in EA, EB.
  assert (Pb : 0 < b) by (unfold b; lra). assert (Pa : 0 <= a <= b) by (unfold a, b; lra).
  apply Rabs_le_inv in EA, EB. assert (PB : 0 < B) by lra. split; [exact PB|].
  assert (Q : 0 <= A / B <= 1).
  { split; [apply Rmult_le_pos; [lra|left; now apply Rinv_0_lt_compat]|]. apply (Rmult_le_reg_r B); [exact PB|]. unfold Rdiv. rewrite Rmult_assoc, Rinv_l by lra. lra. }
  assert (T : 0 <= a / b <= 1).
  { split; [apply Rmult_le_pos; [lra|left; now apply Rinv_0_lt_compat]|]. apply (Rmult_le_reg_r b); [exact Pb|]. unfold Rdiv. rewrite Rmult_assoc, Rinv_l by lra. lra. }
  assert (D1 : Rabs (A / B - a / b) <= / 1000000000000000).
  { assert (E : A / B - a / b = ((A - a) - a / b * (B - b)) / B) by (field; lra). rewrite E. unfold Rdiv at 1. rewrite Rabs_mult, (Rabs_pos_eq (/ B)) by (left; now apply Rinv_0_lt_compat).
    apply (Rmult_le_reg_r B); [exact PB|]. rewrite Rmult_assoc, Rinv_l, Rmult_1_r by lra.
    assert (X : a / b * b = a) by (field; lra).
    apply Rabs_le. set (t := a / b) in *. split; nra. }
  pose proof (rnd64_unit _ Q) as D2. rewrite U in D2. pose proof (rnd64_range _ 1 (is64_int 1 ltac:(lia)) Q) as R1.
  set (q := rnd64 (A / B)) in *.
  assert (R2 : 0 <= q * n <= n) by nra. pose proof (rnd64_range _ n N R2) as R3. split; [exact R3|].
  pose proof (rnd64_abs (q * n) ltac:(rewrite Rabs_pos_eq; lra)) as D3.
  assert (U2 : bpow radix2 (-37) = / 137438953472) by reflexivity. rewrite U2 in D3.
  apply Rabs_le_inv in D1, D2, D3. set (t := a / b) in *. apply Rabs_le.
  assert (D4 : - (/ 100000000000000) <= q - t <= / 100000000000000) by lra. nra.
Qed.

(* ---------------- reading the file ---------------- *)
Lemma seg_rel_trans {A B C} (P : A -> B -> Prop) (P' : B -> C -> Prop) (P'' : A -> C -> Prop) x y z :
  (forall a b c, P a b -> P' b c -> P'' a c) -> seg_rel P x y -> seg_rel P' y z -> seg_rel P'' x z.
Proof. intros T H K. destruct H; inversion K; subst; constructor; eauto. Qed.
Lemma forall2_trans {A B C} (P : A -> B -> Prop) (P' : B -> C -> Prop) (P'' : A -> C -> Prop) x y z :
  (forall a b c, P a b -> P' b c -> P'' a c) -> Forall2 P x y -> Forall2 P' y z -> Forall2 P'' x z.
Proof. intros T H. revert z. induction H; intros z K; inversion K; subst; constructor; eauto. Qed.
Lemma paint_rel_trans {A B C K1 K2 K3} (P : A -> B -> Prop) (P' : B -> C -> Prop) (P'' : A -> C -> Prop)
    (Q : K1 -> K2 -> Prop) (Q' : K2 -> K3 -> Prop) (Q'' : K1 -> K3 -> Prop) x y z :
  (forall a b c, P a b -> P' b c -> P'' a c) -> (forall a b c, Q a b -> Q' b c -> Q'' a c) ->
  paint_rel P Q x y -> paint_rel P' Q' y z -> paint_rel P'' Q'' x z.
Proof.
  intros T TQ H K. destruct H; inversion K; subst; constructor; eauto.
  - eapply forall2_trans; [|eassumption|eassumption]. intros. eapply seg_rel_trans; eassumption.
  - eapply forall2_trans; [|eassumption|eassumption]. intros. eapply seg_rel_trans; eassumption.
  - eapply forall2_trans; eassumption.
Qed.
(** Numbers that differ by little more than nothing; a colour that is only shown as one level. *)
Definition almost (x y : R) : Prop := Rabs (y - x) <= / 10000000.
Definition only (l : level) (c : rgba) : Prop := forall l', shown c l' -> l = l'.
Lemma almost_close x y q : almost x y -> close y q -> near x q.
Proof. unfold almost, close, near. intros A [C _]. apply Rabs_le_inv in A, C. apply Rabs_le. lra. Qed.
Lemma only_shown l c l' : only l c -> shown c l' -> l = l'.
Proof. auto. Qed.
Lemma channel_int n m : (n <= 255)%nat -> channel (INR n / 255) m -> rnd64 (INR n / 255 * 255) = INR n -> n = m.
Proof.
  intros N [L U] E. rewrite E in L, U. apply INR_le in L. rewrite <- (S_INR m) in U. apply INR_lt in U. lia.
Qed.
Lemma only_black : only black_ (mk_rgba 0 0 0 1).
Proof.
  intros [[r g] b] (R & G & B). cbn [q_r q_g q_b fst snd] in *. unfold channel in *. rewrite Rmult_0_l, rnd64_0 in *.
  assert (X : forall n, INR n <= 0 < INR n + 1 -> n = 0%nat) by (intros [|n] [L _]; [reflexivity|rewrite S_INR in L; pose proof (pos_INR n); lra]).
  now rewrite (X _ R), (X _ G), (X _ B).
Qed.
Lemma only_white : only white_ (mk_rgba 1 1 1 1).
Proof.
  intros [[r g] b] (R & G & B). cbn [q_r q_g q_b fst snd] in *. unfold channel in *. rewrite Rmult_1_l, (rnd64_id 255 (is64_int 255 ltac:(lia))) in *.
  assert (X : forall n, INR n <= 255 < INR n + 1 -> n = 255%nat).
  { intros n [L U]. rewrite INR_IZR_INZ in *. apply le_IZR in L. rewrite <- (plus_IZR _ 1) in U. apply lt_IZR in U. lia. }
  now rewrite (X _ R), (X _ G), (X _ B).
Qed.
Lemma almost_refl x : almost x x.
Proof. unfold almost. rewrite Rminus_diag_eq by reflexivity. rewrite Rabs_R0. lra. Qed.

(** A document whose paints are almost [ps]. *)
Lemma svg_shows sort_cw fuel version w h l ps :
  ~ In "-"%char version -> is64 h -> small w -> small h -> Forall (good_item sort_cw fuel) l -> Forall small_item l ->
  Forall2 (paint_rel almost only) ps (flat_map (fun i => expected h (i_shape i) (i_lines i)) l) ->
  exists t, export_svg rnd64 sort_cw fuel (Fin w) (Fin h) version (mk_color (Fin 1) (Fin 1) (Fin 1) (Fin 1)) (map item_cmd l) = Ret t /\
    shows_picture t w h (Fill (page_of_size w h) white_ 1 false :: ps).
Proof.
  intros V H SW SH G S F. assert (U : unit_interval (mk_rgba 1 1 1 1)) by (unfold unit_interval; cbn; lra).
  destruct (C48_written sort_cw fuel version w h (mk_rgba 1 1 1 1) l H SW SH U G S) as [t T]. exists t. split; [exact T|].
  destruct (C48_document sort_cw fuel version w h (mk_rgba 1 1 1 1) l t V H U G T) as (qw & qh & qs & R & W & HH & P).
  exists qw, qh, qs. split; [exact R|]. split; [eapply almost_close; [apply almost_refl|exact W]|]. split; [eapply almost_close; [apply almost_refl|exact HH]|].
  eapply forall2_trans; [|constructor; [|exact F]|exact P].
  - intros a b c. apply paint_rel_trans; [exact almost_close|exact only_shown].
  - constructor; [|exact only_white|apply almost_refl]. unfold page_of_size, rect. repeat (constructor; [constructor; apply almost_refl|]). constructor; constructor.
Qed.

(** One line through points with coordinates in the page, which are doubles. *)
Definition seg_line (pts : list (R * R)) : list (seg R) := through pts.
Definition good_point (w h : R) (q : R * R) : Prop := is64 (fst q) /\ is64 (snd q) /\ 0 <= fst q <= w /\ 0 <= snd q <= h.
Lemma svg_line sort_cw fuel version w h width width' pts ideal :
  ~ In "-"%char version -> is64 h -> 0 <= w <= 65536 -> 0 <= h <= 65536 -> 0 < width < 65536 -> almost width' width ->
  Forall (good_point w h) pts ->
  Forall2 (fun a q => almost (fst a) (fst q) /\ almost (snd a) (rnd64 (h - snd q))) ideal pts ->
  exists t, export_svg rnd64 sort_cw fuel (Fin w) (Fin h) version (mk_color (Fin 1) (Fin 1) (Fin 1) (Fin 1))
      [draw_shape (mk_cmd (map command (through pts)) (mk_compound [] [] [] []) (mk_stroke_style (Fin width) black false (Fin 0) []) fill0 None)] = Ret t /\
    shows_picture t w h (line_picture w h width' ideal).
Proof.
  intros V H Bw Bh Bs Aw G F.
  destruct (C48_draw (mk_shape (through pts) [] [] [] [] None) NoFill (Line (mk_rgba 0 0 0 1) width)) as (ss & fs & E).
  { intros c w0 E. injection E as <- <-. lra. } { discriminate. }
  change (draw_shape _) with (draw_shape (command_of (mk_shape (through pts) [] [] [] [] None) (stroke_style_of (Line (mk_rgba 0 0 0 1) width)) (fill_style_of NoFill))).
  rewrite E. change ([command_of ?s ss fs]) with (map item_cmd [mk_item s [] ss fs]).
  apply svg_shows; try assumption.
  - unfold small. rewrite Rabs_pos_eq; lra.
  - unfold small. rewrite Rabs_pos_eq; lra.
  - constructor; [|constructor]. split; [|split; constructor]. cbn [i_shape with_style]. split; [|repeat constructor; cbn; lra].
    cbn [sh_outline]. unfold good_outline, through. destruct G as [|p r [A [B _]] G]; [constructor|]. constructor; [(constructor; [assumption|constructor; [assumption|constructor]])|].
    rewrite Forall_map. eapply Forall_impl; [|exact G]. intros a (X & Y & _). (constructor; [assumption|constructor; [assumption|constructor]]).
  - assert (SM : forall q, good_point w h q -> small (fst q) /\ small (snd q)).
    { intros q (_ & _ & X & Y). unfold small. rewrite !Rabs_pos_eq by lra. lra. }
    constructor; [|constructor]. unfold small_item. cbn [i_shape with_style i_lines sh_outline sh_strokes sh_dashes]. split; [|split; [constructor|split; [|constructor]]].
    + unfold small_outline, through. destruct G as [|p r GP G]; [constructor|]. constructor; [destruct (SM _ GP); (constructor; [assumption|constructor; [assumption|constructor]])|].
      rewrite Forall_map. eapply Forall_impl; [|exact G]. intros a GA. destruct (SM _ GA). (constructor; [assumption|constructor; [assumption|constructor]]).
    + constructor; [|constructor]. unfold small. cbn [snd]. rewrite Rabs_pos_eq; lra.
  - cbn [flat_map i_shape i_lines with_style]. unfold expected. cbn [sh_fills sh_hatches sh_strokes sh_dashes sh_outline sh_aa map app combine fst snd q_a].
    constructor; [|constructor]. constructor; [|exact only_black|apply almost_refl|exact Aw|constructor|apply almost_refl].
    unfold through. destruct F as [|a q l m [X Y] F]; cbn [map]; [constructor|]. constructor; [now constructor|].
    clear - F. induction F as [|a q l m [X Y] F IH]; cbn [map]; constructor; [now constructor|exact IH].
Qed.
