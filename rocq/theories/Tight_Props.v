(** Further theorems about settings with several effects (C05), log scales that begin at 0 (C22),
    values on categorical scales (C23), white space in colours (C39), the default styles (C48) and
    numbers that are not finite (C50). *)
From Coq Require Import Reals Lra.
From Verif Require Import Base Num Num_Facts Sexpr_Model Dispatch_Model Data_Model Scale_Model Scale_Spec Scale_Proofs Scale_Proofs5
  Color_Model Color_Spec Color_Proofs Geo_Model Svg_Model Format_Model Cmd_Model Style_Model Str_Model.
Local Open Scope R_scope.

(* ------------------------------------------------------------------ C05 *)
(** Functions that are called in turn, and all succeed. *)
Inductive in_turn {S} : list (S -> S * bool) -> S -> S -> Prop :=
| turn_nil s : in_turn [] s s
| turn_cons f r s s1 s' : f s = (s1, true) -> in_turn r s1 s' -> in_turn (f :: r) s s'.
(** C05. A keyword that stands for several settings makes them all, in order; at the first one that
    fails it stops and reports the error, with the settings before it made. *)
Theorem C05_several : forall (S : Type) (fns : list (S -> S * bool)) (s s' : S),
  (calln fns s = (s', true) <-> in_turn fns s s') /\
  (calln fns s = (s', false) <-> exists pre f post s1, fns = pre ++ f :: post /\ in_turn pre s s1 /\ f s1 = (s', false)).
Proof.
  intros S fns. induction fns as [|f r IH]; intros s s'; cbn [calln].
  - split; split.
    + intro H. injection H as <-. constructor.
    + intro H. inversion H; subst. reflexivity.
    + discriminate.
    + intros (pre & f & post & s1 & E & _). destruct pre; discriminate.
  - destruct (f s) as [s1 [|]] eqn:F.
    + destruct (IH s1 s') as [A B]. rewrite A, B. split; split.
      * intro H. econstructor; eassumption.
      * intro H. inversion H as [|f' r' a b c F' K]; subst. rewrite F in F'. injection F' as <-. exact K.
      * intros (pre & g & post & s2 & -> & T & G). exists (f :: pre), g, post, s2. split; [reflexivity|]. split; [econstructor; eassumption|exact G].
      * intros (pre & g & post & s2 & E & T & G). destruct pre as [|f' pre]; cbn [app] in E.
        -- injection E as -> ->. inversion T; subst. congruence.
        -- injection E as -> ->. inversion T as [|f'' r' a b c F' K]; subst. rewrite F in F'. injection F' as <-. exists pre, g, post, s2. auto.
    + split; split.
      * discriminate.
      * intro H. inversion H as [|f' r' a b c F' K]; subst. congruence.
      * intro H. injection H as <-. exists [], f, r, s. repeat split; [constructor|exact F].
      * intros (pre & g & post & s2 & E & T & G). destruct pre as [|f' pre]; cbn [app] in E.
        -- injection E as -> ->. inversion T; subst. congruence.
        -- injection E as -> ->. inversion T as [|f'' r' a b c F' K]; subst. congruence.
Qed.
Print Assumptions C05_several.
Example C05_several_case :
  calln [fun n => (S n, true); fun n => (S n, Nat.ltb n 5); fun n => (S n, true)] 3%nat = (6%nat, true) /\
  calln [fun n => (S n, true); fun n => (S n, Nat.ltb n 5); fun n => (S n, true)] 4%nat = (6%nat, false).
Proof. split; reflexivity. Qed.

(* ------------------------------------------------------------------ C22 *)
(** C22. Refuted for scales from 0: the minimum 0 counts as 1, so that 1 stands at the beginning and
    the values between 0 and 1, which are inside of the limits, stand outside of the axis. *)
Theorem C22_zero_refuted : forall (s : scale) (base b : R),
  s_kind s = Logarithmic -> s_log_base s = Fin base -> 1 < base -> s_inverted s = false ->
  scale_min exact exact s = Fin 0 -> scale_max exact exact s = Fin b -> 1 < b ->
  scale_translate exact exact s (Fin 0) = Ret (Fin 0) /\
  scale_translate exact exact s (Fin 1) = Ret (Fin 0) /\
  (forall v, 0 < v < 1 -> exists t, scale_translate exact exact s (Fin v) = Ret (Fin t) /\ t < 0).
Proof.
  intros s base b K LB B0 I A B L.
  assert (LN : 0 < ln base) by (rewrite <- ln_1; apply ln_increasing; lra).
  assert (LNb : 0 < ln b) by (rewrite <- ln_1; apply ln_increasing; lra).
  assert (G : forall v, 0 < v -> scale_translate exact exact s (Fin v) = Ret (Fin (ln v / ln b))).
  { intros v V. unfold scale_translate, translate_log. rewrite K, A, B, LB, I.
    replace (xle (Fin v) (Fin 0)) with false by (unfold xle; destruct (Rle_dec v 0); [lra|reflexivity]).
    unfold log_of. assert (Z : xeq (Fin 0) (Fin 0) = true) by (unfold xeq; destruct (Req_EM_T 0 0); [reflexivity|congruence]). rewrite Z.
    assert (Q : forall x, 0 < x -> (if xeq (Fin x) (Fin 0) then Fin 0 else xdiv exact (xlog exact (Fin x)) (xlog exact (Fin base))) = Fin (ln x / ln base)).
    { intros x X. replace (xeq (Fin x) (Fin 0)) with false by (unfold xeq; destruct (Req_EM_T x 0); [lra|reflexivity]).
      unfold xlog. destruct (Rlt_dec 0 x); [|lra]. destruct (Rlt_dec 0 base); [|lra]. unfold exact. apply xdiv_fin. lra. }
    rewrite !Q by lra. unfold xsub, xneg, xadd, exact. rewrite xdiv_fin.
    - f_equal. f_equal. field. split; lra.
    - assert (0 < ln b / ln base) by (apply Rdiv_lt_0_compat; lra). lra. }
  split; [|split].
  - unfold scale_translate, translate_log. rewrite K. unfold xle. destruct (Rle_dec 0 0); [reflexivity|lra].
  - rewrite G, ln_1 by lra. do 2 f_equal. field. lra.
  - intros v V. rewrite G by lra. eexists. split; [reflexivity|].
    assert (ln v < 0) by (rewrite <- ln_1; apply ln_increasing; lra).
    unfold Rdiv. assert (0 < / ln b) by (now apply Rinv_0_lt_compat). nra.
Qed.
Print Assumptions C22_zero_refuted.
Example C22_zero_case : exists s, s_kind s = Logarithmic /\ s_log_base s = Fin 10 /\ s_inverted s = false /\
  scale_min exact exact s = Fin 0 /\ scale_max exact exact s = Fin 100.
Proof. exists (mk_scale Logarithmic (Some (Fin 0)) (Some (Fin 100)) (Fin 10) false (Fin 0) None None [] []). repeat split. Qed.

(* ------------------------------------------------------------------ C23 *)
(** C23. Refuted for ticks that subdivide a categorical scale: all of them are labelled 0. *)
Theorem C23_subdivide_refuted : forall (d f : R -> R) (show : xr -> str) (fmt : nat -> str -> str) (s : scale) (n : nat) (l : layout),
  s_kind s = Categorical ->
  exists l', layout_subdivide d f show fmt s n l = Ret (l', true) /\ labels l' = map (fun i => fmt i (show (Fin 0))) (seq 0 (S n)).
Proof.
  intros d f show fmt s n l K. eexists. split; [apply subdivide_layout|]. cbn [labels]. apply map_ext. intro i. unfold scale_untranslate. now rewrite K.
Qed.
Print Assumptions C23_subdivide_refuted.

(* ------------------------------------------------------------------ C39 *)
(** White space as the C library sees it. *)
Definition white (c : ascii) : Prop := In (nat_of_ascii c) [9; 10; 11; 12; 13; 32]%nat.
(** C39. Refuted for colours with white space: before a digit it is accepted and counts as nothing. *)
Theorem C39_blank_refuted : forall w1 w2 w3 c1 c2 c3 n1 n2 n3 old, white w1 -> white w2 -> white w3 ->
  hexd c1 n1 -> hexd c2 n2 -> hexd c3 n3 ->
  parse rnd32 ["#"%char; w1; c1; w2; c2; w3; c3] old = Ret (true, mk_color (part n1 255) (part n2 255) (part n3 255) (Fin 1)).
Proof.
  intros w1 w2 w3 c1 c2 c3 n1 n2 n3 old W1 W2 W3 C1 C2 C3.
  assert (SP : forall w, white w -> space_char w = true).
  { intros w W. unfold white in W. unfold space_char. cbn [In] in W. destruct W as [<-|[<-|[<-|[<-|[<-|[<-|[]]]]]]]; reflexivity. }
  assert (H : forall w c n, white w -> hexd c n -> hex_component rnd32 [w; c] 255 = Ret (part n 255)).
  { intros w c n W C. pose proof (stoi_one c n C) as O. unfold hex_component, part.
    assert (stoi 16 [w; c] = stoi 16 [c]) as ->.
    { unfold stoi, sto. assert (strtol 16 [w; c] = strtol 16 [c]) as ->; [|reflexivity]. unfold strtol. cbn [skip_space]. rewrite (SP w W). reflexivity. }
    rewrite O. cbn [bind]. rewrite xdiv_fin by lra. now rewrite <- INR_IZR_INZ. }
  unfold parse. change (Str_Model.begins_with ["#"%char; w1; c1; w2; c2; w3; c3] (s_ "#")) with true. cbn [length].  cbv iota.
  unfold parse_hex. cbn [length Nat.eqb negb]. unfold substr. cbn [skipn firstn].
  rewrite (H w1 c1 n1), (H w2 c2 n2), (H w3 c3 n3) by assumption. reflexivity.
Qed.
Print Assumptions C39_blank_refuted.
Example C39_blank_case : white (ascii_of_nat 9) /\ white " " /\ hexd "f" 15.
Proof. split; [|split]; [cbv; tauto|cbv; tauto|now left]. Qed.

(** C39. Refuted for colours with signs: + before a digit is accepted and counts as nothing, - gives a
    channel below zero. *)
Theorem C39_sign_refuted : forall c1 c2 c3 n1 n2 n3 old, hexd c1 n1 -> hexd c2 n2 -> hexd c3 n3 ->
  parse rnd32 ["#"%char; "+"%char; c1; "+"%char; c2; "+"%char; c3] old = Ret (true, mk_color (part n1 255) (part n2 255) (part n3 255) (Fin 1)) /\
  parse rnd32 ["#"%char; "-"%char; c1; "+"%char; c2; "+"%char; c3] old = Ret (true, mk_color (Fin (rnd32 (- INR n1 / 255))) (part n2 255) (part n3 255) (Fin 1)).
Proof.
  intros c1 c2 c3 n1 n2 n3 old C1 C2 C3.
  assert (SG : forall (neg : bool) c n, hexd c n -> stoi 16 [if neg then "-"%char else "+"%char; c] = Ret (if neg then (- Z.of_nat n)%Z else Z.of_nat n)).
  { intros neg c n C. apply hexd_inv in C as (La & Da & Sa & Ma & Pa & Xa & Ya & _).
    assert (T : strtol 16 [if neg then "-"%char else "+"%char; c] = Some (if neg then (- Z.of_nat n)%Z else Z.of_nat n)).
    { unfold strtol. assert (skip_space [if neg then "-"%char else "+"%char; c] = [if neg then "-"%char else "+"%char; c]) as -> by (destruct neg; reflexivity).
      destruct neg; cbn [Ascii.eqb Bool.eqb]; unfold skip_0x; cbn [starts_digit read_digits Ascii.eqb Bool.eqb andb]; rewrite Da; f_equal; lia. }
    unfold stoi, sto. rewrite T.
    assert ((- 2 ^ 31 <=? (if neg then - Z.of_nat n else Z.of_nat n)) && ((if neg then - Z.of_nat n else Z.of_nat n) <=? 2 ^ 31 - 1) = true)%Z as ->; [|reflexivity].
    apply andb_true_iff. destruct neg; split; apply Z.leb_le; lia. }
  assert (HP : forall c n, hexd c n -> hex_component rnd32 ["+"%char; c] 255 = Ret (part n 255)).
  { intros c n C. unfold hex_component, part. rewrite (SG false c n C). cbn [bind]. rewrite xdiv_fin by lra. now rewrite <- INR_IZR_INZ. }
  assert (HM : forall c n, hexd c n -> hex_component rnd32 ["-"%char; c] 255 = Ret (Fin (rnd32 (- INR n / 255)))).
  { intros c n C. unfold hex_component. rewrite (SG true c n C). cbn [bind]. rewrite xdiv_fin by lra. now rewrite opp_IZR, <- INR_IZR_INZ. }
  split; (unfold parse; match goal with |- context [Str_Model.begins_with ?a ?b] => change (Str_Model.begins_with a b) with true end; cbn [length]; cbv iota;
    unfold parse_hex; cbn [length Nat.eqb negb]; unfold substr; cbn [skipn firstn]).
  - rewrite (HP c1 n1), (HP c2 n2), (HP c3 n3) by assumption. reflexivity.
  - rewrite (HM c1 n1), (HP c2 n2), (HP c3 n3) by assumption. reflexivity.
Qed.
Print Assumptions C39_sign_refuted.

(* ------------------------------------------------------------------ C48 *)
(** C48. Styles of which only one thing has been said: a width gives a solid black line, a colour a
    plain fill, and without a width or a colour nothing is painted. *)
Theorem C48_default_styles : forall (p : path) (aa : option bool) (w : R) (col : color),
  (w <> 0 -> dc_style (draw_shape (mk_cmd p no_style (ss_with_width (Fin w) stroke0) fill0 aa)) = mk_compound [] [] [mk_stroke black (Fin w)] []) /\
  dc_style (draw_shape (mk_cmd p no_style stroke0 (fs_with_color (Some col) fill0) aa)) = mk_compound [col] [] [] [] /\
  dc_style (draw_shape (mk_cmd p no_style stroke0 fill0 aa)) = no_style /\
  (w <> 0 -> dc_style (draw_shape (mk_cmd p no_style (ss_with_dashed true (ss_with_width (Fin w) stroke0)) fill0 aa)) =
     mk_compound [] [] [] [mk_dash black (Fin w) [] (Fin 0)]) /\
  dc_style (draw_shape (mk_cmd p no_style stroke0 (mk_fill (Some col) true (f_angle fill0) (f_offset fill0) (f_stride fill0) (f_width fill0)) aa)) =
    mk_compound [] [mk_hatch col (Fin 0) (Fin 0) (Fin 0) (Fin 0)] [] [].
Proof.
  intros p aa w col.
  assert (Z : xeq (Fin 0) (Fin 0) = true) by (unfold xeq; destruct (Req_EM_T 0 0); [reflexivity|congruence]).
  assert (N : w <> 0 -> xeq (Fin w) (Fin 0) = false) by (intro; unfold xeq; destruct (Req_EM_T w 0); [contradiction|reflexivity]).
  unfold draw_shape. cbn [dc_style dc_fill dc_stroke f_color fill0 stroke0 ss_with_width ss_with_dashed fs_with_color s_width s_dashed f_hatch fills hatches strokes dashes].
  rewrite Z. split; [|split; [|split; [|split]]]; try (intro W; rewrite (N W)); reflexivity.
Qed.
Print Assumptions C48_default_styles.

(* ------------------------------------------------------------------ C50 *)
(** C50. The "fixed" format prints numbers that are not finite as words. *)
Theorem C50_not_finite : forall (stod : str -> option xr) (p i : nat) (t : str),
  (stod t = Some PInf -> format_fixed stod p i t = Ret (s_ "inf")) /\
  (stod t = Some NInf -> format_fixed stod p i t = Ret (s_ "-inf")) /\
  (stod t = Some NaN -> format_fixed stod p i t = Ret (s_ "nan")).
Proof. intros stod p i t. unfold format_fixed, value_to_float. repeat split; intros ->; reflexivity. Qed.
Print Assumptions C50_not_finite.
