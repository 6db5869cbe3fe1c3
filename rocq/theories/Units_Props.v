(** C26, C27, C53-C55: lengths, paper sizes, size maps. *)
From Verif Require Import Base Sexpr_Model Dispatch_Model Dispatch_Spec Dispatch_Proofs Num Num_Facts Units_Model Units_Spec Units_Proofs.
Local Open Scope R_scope.

(* ------------------------------------------------------------------ C26 *)
(** C26. Points to device units and back is the identity, both ways (exact arithmetic). *)
Theorem C26_pt_inverse : forall v x dpi : R, dpi <> 0 ->
  unit_to_pt exact (unit_from_pt exact (Fin v) (Fin dpi)) (Fin dpi) = Fin v /\
  unit_from_pt exact (unit_to_pt exact (Fin x) (Fin dpi)) (Fin dpi) = Fin x.
Proof.
  intros v x dpi H. rewrite from_pt_exact, !to_pt_exact, from_pt_exact by auto.
  split; f_equal; field; auto.
Qed.
Print Assumptions C26_pt_inverse.

(** C26. All units agree on the physical length: x inches are 25.4 x mm, 72 x pt and
    dpi * x px, and each of these is 72 x points. *)
Theorem C26_consistent : forall x dpi : R, dpi <> 0 ->
  unit_from_mm exact (Fin (254 / 10 * x)) (Fin dpi) = Fin (dpi * x) /\
  unit_from_pt exact (Fin (72 * x)) (Fin dpi) = Fin (dpi * x) /\
  unit_from_px (Fin (dpi * x)) = Fin (dpi * x) /\
  unit_to_pt exact (Fin (dpi * x)) (Fin dpi) = Fin (72 * x).
Proof.
  intros x dpi H. rewrite from_mm_exact, from_pt_exact, to_pt_exact by auto.
  repeat split; f_equal; field; auto.
Qed.
Print Assumptions C26_consistent.

(** C26. In double precision the way to device units and back is accurate to 2^-50. *)
Theorem C26_binary64_partial : forall v dpi : R,
  bpow radix2 (-900) <= Rabs v -> bpow radix2 (-100) <= dpi <= bpow radix2 100 ->
  exists r, unit_to_pt rnd64 (unit_from_pt rnd64 (Fin v) (Fin dpi)) (Fin dpi) = Fin r /\
    Rabs (r - v) <= bpow radix2 (-50) * Rabs v.
Proof. exact pt_round_trip. Qed.
Print Assumptions C26_binary64_partial.

(** C26. It is not exact: 17 pt at 96 dpi come back smaller than 17. *)
Theorem C26_binary64_refuted : exists r, r < 17 /\
  unit_to_pt rnd64 (unit_from_pt rnd64 (Fin 17) (Fin 96)) (Fin 96) = Fin r.
Proof. eexists. split; [|exact pt_round_17]. cbn. lra. Qed.
Print Assumptions C26_binary64_refuted.

(** C26. A resolution of 0 loses everything: 0/0 is not a number. *)
Theorem C26_zero_dpi_refuted : forall v : R,
  unit_to_pt exact (unit_from_pt exact (Fin v) (Fin 0)) (Fin 0) = NaN.
Proof.
  intro v. rewrite from_pt_exact. unfold unit_to_pt. cbn [xdiv]. destruct (Req_EM_T 0 0); [|lra].
  replace (v / 72 * 0) with 0 by ring. unfold xsign_inf. destruct (Rlt_dec 0 0); [lra|reflexivity].
Qed.
Print Assumptions C26_zero_dpi_refuted.

Example C26_example : bpow radix2 (-900) <= Rabs 17 /\ bpow radix2 (-100) <= 96 <= bpow radix2 100.
Proof.
  assert (A : bpow radix2 (-900) <= bpow radix2 0) by (apply bpow_le; lia).
  assert (B : bpow radix2 (-100) <= bpow radix2 0) by (apply bpow_le; lia).
  assert (C : bpow radix2 7 <= bpow radix2 100) by (apply bpow_le; lia). cbn in A, B, C.
  rewrite Rabs_pos_eq by lra. cbn. lra.
Qed.

(* ------------------------------------------------------------------ C27 *)
(** C27. Reading: a measure is a number followed by nothing (user units), mm, px, pt, em,
    rem, % or rel; nothing else is accepted. *)
Theorem C27_read : forall (d : R -> R) (stod : str -> option (xr * nat)) (s : str) (m : measure),
  parse_measure d stod s = Ret m <->
  exists v n, stod s = Some (v, n) /\
    ((n = length s /\ m = mk_measure USER v) \/
     (n <> length s /\
      ((skipn n s = s_ "mm" /\ m = mk_measure MM v) \/
       (skipn n s = s_ "px" /\ m = mk_measure PX v) \/
       (skipn n s = s_ "pt" /\ m = mk_measure PT v) \/
       ((skipn n s = s_ "em" \/ skipn n s = s_ "rem") /\ m = mk_measure REM v) \/
       (skipn n s = s_ "%" /\ m = mk_measure REL (xdiv d v (Fin 100))) \/
       (skipn n s = s_ "rel" /\ m = mk_measure REL v)))).
Proof. exact parse_measure_ok. Qed.
Print Assumptions C27_read.

(** C27. Reading never throws and never crashes. *)
Theorem C27_read_total : forall (d : R -> R) (stod : str -> option (xr * nat)) (s : str),
  parse_measure d stod s = Err \/ exists m, parse_measure d stod s = Ret m.
Proof.
  intros. unfold parse_measure. destruct (stod s) as [[v n]|]; [|now left].
  repeat match goal with |- context [if ?b then _ else _] => destruct b end; eauto.
Qed.
Print Assumptions C27_read_total.

(** C27. Printing and reading gives the measure back, for every measure the reader can
    produce; percentages in exact arithmetic. [show] and [stod] are the C++ library's: we
    only use that a printed number followed by a unit is read back as that number. *)
Theorem C27_print_read : forall (d : R -> R) (stod : str -> option (xr * nat)) (show : xr -> str)
    (u : unit_t) (v : xr),
  (forall x suffix, In suffix [s_ ""; s_ "mm"; s_ "px"; s_ "pt"; s_ "rem"; s_ "%"] ->
     stod (show x ++ suffix) = Some (x, length (show x))) ->
  In u [MM; PX; PT; REM; USER] \/ (u = REL /\ d = exact) ->
  parse_measure d stod (measure_to_string d show (mk_measure u v)) = Ret (mk_measure u v).
Proof.
  intros d stod show u v H U. apply C27_read.
  assert (L : forall x suffix, suffix <> [] -> length (show x) <> length (show x ++ suffix)).
  { intros x s N. rewrite app_length. destruct s; [congruence|cbn; lia]. }
  assert (K : forall x suffix, skipn (length (show x)) (show x ++ suffix) = suffix).
  { intros x s. rewrite skipn_app, skipn_all, Nat.sub_diag. reflexivity. }
  destruct U as [U|[-> ->]].
  - cbn in U. destruct U as [<-|[<-|[<-|[<-|[<-|[]]]]]]; cbn [measure_to_string m_unit m_value].
    + exists v, (length (show v)). rewrite K. split; [apply H; cbn; auto 10|]. right. split; [now apply L|auto 10].
    + exists v, (length (show v)). rewrite K. split; [apply H; cbn; auto 10|]. right. split; [now apply L|auto 10].
    + exists v, (length (show v)). rewrite K. split; [apply H; cbn; auto 10|]. right. split; [now apply L|auto 10].
    + exists v, (length (show v)). rewrite K. split; [apply H; cbn; auto 10|]. right. split; [now apply L|auto 10].
    + exists v, (length (show v)). split; [rewrite <- (app_nil_r (show v)) at 1; apply H; cbn; auto|]. left. auto.
  - cbn [measure_to_string m_unit m_value]. set (w := xmul exact v (Fin 100)).
    exists w, (length (show w)). rewrite K. split; [apply H; cbn; auto 10|]. right. split; [now apply L|].
    do 4 right. left. split; [reflexivity|]. f_equal. subst w. destruct v as [x| | |]; cbn [xmul].
    + rewrite xdiv_fin by lra. unfold exact. f_equal. field.
    + unfold xsign_inf. destruct (Rlt_dec 0 100); [|lra]. cbn. destruct (Rle_dec 0 100); [reflexivity|lra].
    + unfold xsign_inf. destruct (Rlt_dec 0 100); [|lra]. cbn. destruct (Rle_dec 0 100); [reflexivity|lra].
    + reflexivity.
Qed.
Print Assumptions C27_print_read.

(** A number format as the theorem wants it: "5" for every number, read by a matching reader. *)
Example C27_print_read_example : exists (stod : str -> option (xr * nat)) (show : xr -> str) (x : xr),
  stod (show x ++ s_ "mm") = Some (x, length (show x)) /\ stod (show x) = Some (x, length (show x)).
Proof. exists (fun _ => Some (Fin 5, 1%nat)), (fun _ => s_ "5"), (Fin 5). now split. Qed.

(** C27. In double precision a percentage need not survive printing and reading. *)
Theorem C27_percent_refuted : forall (stod : str -> option (xr * nat)) (show : xr -> str),
  (forall x suffix, stod (show x ++ suffix) = Some (x, length (show x))) ->
  exists v, is64 v /\ parse_measure rnd64 stod (measure_to_string rnd64 show (mk_measure REL (Fin v))) <>
    Ret (mk_measure REL (Fin v)).
Proof.
  intros stod show H. exists odd_percent. split; [apply is64_int; [reflexivity|lia]|].
  cbn [measure_to_string m_unit m_value]. intro E. apply C27_read in E as (v & n & A & B).
  rewrite H in A. injection A as <- <-.
  assert (K : forall x suffix, skipn (length (show x)) (show x ++ suffix) = suffix).
  { intros x s. rewrite skipn_app, skipn_all, Nat.sub_diag. reflexivity. }
  rewrite K in B. destruct B as [[B _]|[_ B]].
  { rewrite app_length in B. cbn in B. lia. }
  repeat (destruct B as [B|B]); destruct B as [B1 B2]; try discriminate; try (destruct B1; discriminate).
  apply (f_equal m_value) in B2. cbn [m_value] in B2.
  pose proof percent_round as PR. cbn [xmul] in PR. rewrite PR in B2. injection B2 as B2. unfold odd_percent in B2. cbn in B2. lra.
Qed.
Print Assumptions C27_percent_refuted.

(** C27. A measure in device units is printed like one in user units and read as that. *)
Theorem C27_unit_refuted : forall (stod : str -> option (xr * nat)) (show : xr -> str) (v : xr),
  stod (show v) = Some (v, length (show v)) ->
  parse_measure exact stod (measure_to_string exact show (mk_measure UNIT v)) = Ret (mk_measure USER v).
Proof. intros stod show v H. unfold parse_measure. cbn. now rewrite H, Nat.eqb_refl. Qed.
Print Assumptions C27_unit_refuted.

(** C27. Lengths read by the size settings (stroke widths, paddings, font sizes ...): the
    documented device length for px, mm, pt and em. *)
Theorem C27_size : forall (stod : str -> option (xr * nat)) (w h fs : measure) (dpi font parent : R) (s u : str) (v r : R) (n : nat) e rest,
  let l := mk_layer w h (Fin dpi) fs in
  layer_get_font_size exact l = Fin font ->
  (e = ELit s \/ e = EVal s) -> stod s = Some (Fin v, n) -> skipn n s = u ->
  In u [s_ "px"; s_ "mm"; s_ "pt"; s_ "em"] -> device_length dpi font parent u v = Some r ->
  expr_to_size exact stod l (e :: rest) = Ret (Fin r) /\
  expr_to_font_size exact stod l (e :: rest) = Ret (Fin r).
Proof.
  intros stod w h fs dpi font parent s u v r n e rest l F E S K U D.
  assert (X : expr_to_size exact stod l (e :: rest) = Ret (Fin r)); [|now split].
  unfold expr_to_size, to_number. apply number_ok. exists e, rest, s, (Fin v), n.
  split; [reflexivity|]. split; [exact E|]. split; [exact S|]. right.
  assert (NL : n <> length s). { intros ->. rewrite skipn_all in K. subst u. cbn in U. intuition discriminate. }
  split; [exact NL|]. rewrite K. cbn in U.
  destruct U as [<-|[<-|[<-|[<-|[]]]]]; cbn in D; injection D as <-; do 2 eexists; (split; [reflexivity|]; split; [reflexivity|]).
  - reflexivity.
  - subst l. cbn [l_dpi]. now rewrite from_mm_exact.
  - subst l. cbn [l_dpi]. now rewrite from_pt_exact.
  - rewrite F. cbn. unfold exact. f_equal. ring.
Qed.
Print Assumptions C27_size.

(** C27. Positions: the same, and percentages of the layer's width (height). *)
Theorem C27_position : forall (stod : str -> option (xr * nat)) (mw mh fs : measure) (dpi w h : R) (s1 u1 s2 u2 : str)
    (v1 r1 v2 r2 : R) (n1 n2 : nat) a b old,
  let l := mk_layer mw mh (Fin dpi) fs in
  layer_get_width exact l = Fin w -> layer_get_height exact l = Fin h ->
  (a = ELit s1 \/ a = EVal s1) -> stod s1 = Some (Fin v1, n1) -> skipn n1 s1 = u1 ->
  (b = ELit s2 \/ b = EVal s2) -> stod s2 = Some (Fin v2, n2) -> skipn n2 s2 = u2 ->
  In u1 [s_ "px"; s_ "mm"; s_ "pt"; s_ "%"] -> In u2 [s_ "px"; s_ "mm"; s_ "pt"; s_ "%"] ->
  device_length dpi 0 w u1 v1 = Some r1 -> device_length dpi 0 h u2 v2 = Some r2 ->
  expr_to_position exact stod l [a; b] old = ((Fin r1, Fin r2), Ret tt).
Proof.
  intros stod mw mh fs dpi w h s1 u1 s2 u2 v1 r1 v2 r2 n1 n2 a b old l W H A1 A2 A3 B1 B2 B3 U1 U2 D1 D2.
  unfold expr_to_position. apply vec2_ok. exists a, b. split; [reflexivity|]. cbn [fst snd].
  split; apply number_ok.
  - exists a, [], s1, (Fin v1), n1. split; [reflexivity|]. split; [exact A1|]. split; [exact A2|]. right.
    assert (NL : n1 <> length s1). { intros ->. rewrite skipn_all in A3. subst u1. cbn in U1. intuition discriminate. }
    split; [exact NL|]. rewrite A3. cbn in U1.
    destruct U1 as [<-|[<-|[<-|[<-|[]]]]]; cbn in D1; injection D1 as <-; do 2 eexists; (split; [reflexivity|]; split; [reflexivity|]).
    + reflexivity.
    + subst l. cbn [l_dpi]. now rewrite from_mm_exact.
    + subst l. cbn [l_dpi]. now rewrite from_pt_exact.
    + now rewrite W, from_percent_exact.
  - exists b, [], s2, (Fin v2), n2. split; [reflexivity|]. split; [exact B1|]. split; [exact B2|]. right.
    assert (NL : n2 <> length s2). { intros ->. rewrite skipn_all in B3. subst u2. cbn in U2. intuition discriminate. }
    split; [exact NL|]. rewrite B3. cbn in U2.
    destruct U2 as [<-|[<-|[<-|[<-|[]]]]]; cbn in D2; injection D2 as <-; do 2 eexists; (split; [reflexivity|]; split; [reflexivity|]).
    + reflexivity.
    + subst l. cbn [l_dpi]. now rewrite from_mm_exact.
    + subst l. cbn [l_dpi]. now rewrite from_pt_exact.
    + now rewrite H, from_percent_exact.
Qed.
Print Assumptions C27_position.

(** On the default layer (1600 x 800 px), "50%" of both axes is the point (800, 400). *)
Example C27_position_example :
  expr_to_position exact (fun _ => Some (Fin 50, 2%nat)) layer0 [EVal (s_ "50%"); EVal (s_ "50%")] (Fin 0, Fin 0)
  = ((Fin 800, Fin 400), Ret tt).
Proof.
  apply (C27_position _ (from_px (Fin 1600)) (from_px (Fin 800)) (from_pt (Fin 11)) 192 1600 800 (s_ "50%") (s_ "%") (s_ "50%") (s_ "%") 50 800 50 400 2 2);
    try reflexivity; auto; try (cbn; tauto); cbn; f_equal; lra.
Qed.

(** C27. A number without a unit is accepted as a size or in a position only if it is zero. *)
Theorem C27_no_unit : forall (stod : str -> option (xr * nat)) (l : layer) (s : str) (v : R) e rest b n old,
  (e = ELit s \/ e = EVal s) -> stod s = Some (Fin v, length s) -> (b = ELit n \/ b = EVal n) -> stod n = Some (Fin v, length n) ->
  (v = 0 -> expr_to_size exact stod l (e :: rest) = Ret (Fin 0) /\ expr_to_position exact stod l [e; b] old = ((Fin 0, Fin 0), Ret tt)) /\
  (v <> 0 -> expr_to_size exact stod l (e :: rest) = Err /\ snd (expr_to_position exact stod l [e; b] old) = Err).
Proof.
  intros stod l s v e rest b n old E S B N.
  assert (V : forall r, value_of (e :: r) = Some s) by (intro r; destruct E; subst; reflexivity).
  assert (W : value_of [b] = Some n) by (destruct B; subst; reflexivity).
  assert (Z : xeq (Fin v) (Fin 0) = true <-> v = 0) by apply xeq_fin.
  assert (G : forall c r, expr_to_number (Fin 0) (fun v => xeq v (Fin 0)) stod unit_parse c (e :: r) = if xeq (Fin v) (Fin 0) then Ret (Fin 0) else Err).
  { intros c r. unfold expr_to_number. now rewrite V, S, Nat.eqb_refl. }
  assert (H : forall c, expr_to_number (Fin 0) (fun v => xeq v (Fin 0)) stod unit_parse c [b] = if xeq (Fin v) (Fin 0) then Ret (Fin 0) else Err).
  { intros c. unfold expr_to_number. now rewrite W, N, Nat.eqb_refl. }
  unfold expr_to_size, to_number, expr_to_position, expr_to_vec2. rewrite !G. rewrite H. split; intro K.
  - apply Z in K. rewrite K. auto.
  - destruct (xeq (Fin v) (Fin 0)); [|auto]. exfalso. tauto.
Qed.
Print Assumptions C27_no_unit.
(** C27. The default of a length is used exactly when the length is zero, whatever its unit. *)
Theorem C27_default : forall (u : unit_t) (v : R) (fallback : measure),
  (v = 0 -> measure_or (mk_measure u (Fin v)) fallback = fallback) /\
  (v <> 0 -> measure_or (mk_measure u (Fin v)) fallback = mk_measure u (Fin v)).
Proof.
  intros u v fb. unfold measure_or. cbn [m_value]. destruct (xeq (Fin v) (Fin 0)) eqn:E.
  - apply xeq_fin in E. split; [auto|contradiction].
  - split; [intros ->; exfalso|auto]. assert (xeq (Fin 0) (Fin 0) = true) by now apply xeq_fin. congruence.
Qed.
Print Assumptions C27_default.

(** C27. Sizes do not accept percentages and positions do not accept em. *)
Theorem C27_percent_size_refuted : forall (stod : str -> option (xr * nat)) (l : layer) (v : xr),
  stod (s_ "5%") = Some (v, 1%nat) -> stod (s_ "5em") = Some (v, 1%nat) ->
  expr_to_size exact stod l [EVal (s_ "5%")] = Err /\
  forall b old, expr_to_position exact stod l [EVal (s_ "5em"); b] old = (old, Err).
Proof.
  intros stod l v H1 H2. split.
  - unfold expr_to_size, to_number, expr_to_number. cbn [value_of]. now rewrite H1.
  - intros b old. unfold expr_to_position, expr_to_vec2, expr_to_number. cbn [value_of]. now rewrite H2.
Qed.
Print Assumptions C27_percent_size_refuted.

(** C27. Resolving a measure against font and parent size: the documented device length for
    every unit except millimetres. *)
Theorem C27_normalize_partial : forall (c : conv) (dpi font parent v r : R) (u : unit_t) (name : str),
  c_dpi c = Fin dpi -> font_size exact c = Fin font -> parent_size exact c = Fin parent ->
  (u, name) = (PX, s_ "px") \/ (u, name) = (PT, s_ "pt") \/ (u, name) = (REM, s_ "em") ->
  device_length dpi font parent name v = Some r ->
  measure_normalize exact c (mk_measure u (Fin v)) = from_unit (Fin r) /\
  measure_normalize exact c (mk_measure REL (Fin (v / 100))) = from_unit (Fin (v / 100 * parent)).
Proof.
  intros c dpi font parent v r u name D F P U L. split.
  - destruct U as [U|[U|U]]; injection U as -> ->; cbn in L; injection L as <-;
      unfold measure_normalize; cbn [m_unit m_value]; rewrite ?D, ?F.
    + reflexivity.
    + now rewrite xdiv_exact by lra.
    + reflexivity.
  - unfold measure_normalize. cbn [m_unit m_value]. now rewrite P.
Qed.
Print Assumptions C27_normalize_partial.

(** C27. The sizes themselves: a font size of 36 pt at 144 dpi is 72 px, in a parent of 2 in. *)
Example C27_normalize_example :
  let c := mk_conv (Fin 144) (from_pt (Fin 36)) (from_px (Fin 288)) in
  font_size exact c = Fin 72 /\ parent_size exact c = Fin 288.
Proof. split; [|reflexivity]. unfold font_size. cbn [m_unit m_value c_font c_dpi from_pt]. rewrite xdiv_exact by lra. cbn. unfold exact. f_equal. lra. Qed.

(** C27. Millimetres are not resolved at all: the number stays as it is, whatever the
    resolution. *)
Theorem C27_mm_refuted : forall (d : R -> R) (c : conv) (v : xr),
  measure_normalize d c (mk_measure MM v) = mk_measure MM v.
Proof. reflexivity. Qed.
Print Assumptions C27_mm_refuted.

(** C27. A font size in mm or em, and a parent size in mm, count as 0. *)
Theorem C27_font_mm_refuted : forall (d : R -> R) (dpi v p : xr),
  font_size d (mk_conv dpi (from_mm v) (from_unit p)) = Fin 0 /\
  font_size d (mk_conv dpi (from_em v) (from_unit p)) = Fin 0 /\
  parent_size d (mk_conv dpi (from_unit p) (from_mm v)) = Fin 0.
Proof. auto. Qed.
Print Assumptions C27_font_mm_refuted.

(** C27. Dash patterns and offsets (measure_readn) resolve every percentage to 0. *)
Theorem C27_dash_percent_refuted : forall (stod : str -> option (xr * nat)) (l : layer) (v : R) (s : str) (n : nat),
  stod s = Some (Fin v, n) -> skipn n s = s_ "%" ->
  measure_readn exact stod l [EVal s] = Ret (from_unit (Fin 0)).
Proof.
  intros stod l v s n S K. unfold measure_readn, measure_read. cbn [value_of].
  assert (P : parse_measure exact stod s = Ret (mk_measure REL (xdiv exact (Fin v) (Fin 100)))).
  { apply C27_read. exists (Fin v), n. split; [exact S|]. right. split; [|auto 10].
    intros ->. now rewrite skipn_all in K. }
  rewrite P. cbn [bind]. unfold measure_normalize. cbn [m_unit m_value parent_size c_parent from_unit].
  rewrite xdiv_exact by lra. cbn. unfold exact. do 3 f_equal. lra.
Qed.
Print Assumptions C27_dash_percent_refuted.

(** C27. The converters for chart elements: user, then typographic, then relative converters
    resolve every measure the reader can produce except pixels, which stay tagged as pixels
    with their number. *)
Theorem C27_converters : forall (dpi fs range : R) (g : R -> R) (v : R) (u : unit_t),
  In u [MM; PX; PT; REM; REL; USER; UNIT] ->
  convert_unit [convert_user (fun x => match x with Fin y => Fin (g y) | _ => x end);
                convert_typographic exact (Fin dpi) (from_unit (Fin fs));
                convert_relative exact (Fin range)] (mk_measure u (Fin v)) =
  match u with
  | MM => from_unit (Fin (v / (254 / 10) * dpi))
  | PT => from_unit (Fin (v / 72 * dpi))
  | REM => from_unit (Fin (v * fs))
  | REL => from_unit (Fin (v * range))
  | USER => from_unit (Fin (g v * range))
  | _ => mk_measure u (Fin v)
  end.
Proof.
  intros dpi fs range g v u H. cbn in H.
  destruct H as [<-|[<-|[<-|[<-|[<-|[<-|[<-|[]]]]]]]]; cbn [convert_unit fold_left];
    unfold convert_user, convert_typographic, convert_relative, k25_4; cbn [m_unit m_value from_unit from_rel]; try reflexivity.
  - unfold exact at 2. rewrite xdiv_exact by (unfold exact; lra). reflexivity.
  - now rewrite xdiv_exact by lra.
Qed.
Print Assumptions C27_converters.

(** C27. The layer's size: mm, pt and px are resolved; every other unit gives size 0 without
    an error. *)
Theorem C27_layer_size_partial : forall (w h fs : measure) (dpi v : R),
  layer_get_width exact (mk_layer (from_mm (Fin v)) h (Fin dpi) fs) = Fin (v / (254 / 10) * dpi) /\
  layer_get_width exact (mk_layer (from_pt (Fin v)) h (Fin dpi) fs) = Fin (v / 72 * dpi) /\
  layer_get_width exact (mk_layer (from_px (Fin v)) h (Fin dpi) fs) = Fin v /\
  layer_get_height exact (mk_layer w (from_mm (Fin v)) (Fin dpi) fs) = Fin (v / (254 / 10) * dpi) /\
  layer_get_height exact (mk_layer w (from_pt (Fin v)) (Fin dpi) fs) = Fin (v / 72 * dpi) /\
  layer_get_height exact (mk_layer w (from_px (Fin v)) (Fin dpi) fs) = Fin v.
Proof.
  intros. unfold layer_get_width, layer_get_height, device_size. cbn [l_width l_height l_dpi m_unit m_value from_mm from_pt from_px].
  rewrite from_mm_exact, from_pt_exact. auto 10.
Qed.
Print Assumptions C27_layer_size_partial.

Theorem C27_layer_em_refuted : forall (stod : str -> option (xr * nat)) (l : layer) (v : xr),
  stod (s_ "9em") = Some (v, 1%nat) -> exists l',
  layer_resize_cmd exact stod l [EVal (s_ "9em"); EVal (s_ "9em")] = (l', Ret tt) /\
  layer_get_width exact l' = Fin 0 /\ layer_get_height exact l' = Fin 0.
Proof.
  intros stod l v H. eexists. split; [|split].
  - unfold layer_resize_cmd, measure_read, parse_measure. cbn [value_of]. rewrite H. cbn. reflexivity.
  - reflexivity.
  - reflexivity.
Qed.
Print Assumptions C27_layer_em_refuted.

(* ------------------------------------------------------------------ C53 *)
(** C53. Paper sizes: `A0` ... `A6` are the ISO 216 sizes (each half the previous one), the
    starred names the same turned by 90 degrees; any other name is an error and changes
    nothing. *)
Theorem C53_paper_sizes : forall (l : layer) (n : nat), (n <= 6)%nat ->
  let '(w, h) := iso216 n in
  layer_resize_paper l (s_ "A" ++ digit n) = (with_size l (from_mm (Fin (IZR w))) (from_mm (Fin (IZR h))), Ret tt) /\
  layer_resize_paper l (s_ "A" ++ digit n ++ s_ "*") = (with_size l (from_mm (Fin (IZR h))) (from_mm (Fin (IZR w))), Ret tt).
Proof.
  intros l n H. do 7 (destruct n as [|n]; [split; reflexivity|]). lia.
Qed.
Print Assumptions C53_paper_sizes.

Theorem C53_other_names : forall (l : layer) (name : str),
  (forall n, (n <= 6)%nat -> name <> s_ "A" ++ digit n /\ name <> s_ "A" ++ digit n ++ s_ "*") ->
  layer_resize_paper l name = (l, Err).
Proof.
  intros l name H. unfold layer_resize_paper.
  assert (E : assoc name paper_sizes = None); [|now rewrite E].
  assert (A : forall n, (n <= 6)%nat -> str_eqb name (s_ "A" ++ digit n) = false /\ str_eqb name (s_ "A" ++ digit n ++ s_ "*") = false).
  { intros n N. destruct (H n N) as [X Y]. split; [destruct (str_eqb_spec name (s_ "A" ++ digit n))|destruct (str_eqb_spec name (s_ "A" ++ digit n ++ s_ "*"))]; congruence. }
  pose proof (A 0%nat ltac:(lia)) as [X0 Y0]. pose proof (A 1%nat ltac:(lia)) as [X1 Y1]. pose proof (A 2%nat ltac:(lia)) as [X2 Y2].
  pose proof (A 3%nat ltac:(lia)) as [X3 Y3]. pose proof (A 4%nat ltac:(lia)) as [X4 Y4]. pose proof (A 5%nat ltac:(lia)) as [X5 Y5].
  pose proof (A 6%nat ltac:(lia)) as [X6 Y6].
  change (s_ "A" ++ digit 0) with (s_ "A0") in X0. change (s_ "A" ++ digit 0 ++ s_ "*") with (s_ "A0*") in Y0.
  change (s_ "A" ++ digit 1) with (s_ "A1") in X1. change (s_ "A" ++ digit 1 ++ s_ "*") with (s_ "A1*") in Y1.
  change (s_ "A" ++ digit 2) with (s_ "A2") in X2. change (s_ "A" ++ digit 2 ++ s_ "*") with (s_ "A2*") in Y2.
  change (s_ "A" ++ digit 3) with (s_ "A3") in X3. change (s_ "A" ++ digit 3 ++ s_ "*") with (s_ "A3*") in Y3.
  change (s_ "A" ++ digit 4) with (s_ "A4") in X4. change (s_ "A" ++ digit 4 ++ s_ "*") with (s_ "A4*") in Y4.
  change (s_ "A" ++ digit 5) with (s_ "A5") in X5. change (s_ "A" ++ digit 5 ++ s_ "*") with (s_ "A5*") in Y5.
  change (s_ "A" ++ digit 6) with (s_ "A6") in X6. change (s_ "A" ++ digit 6 ++ s_ "*") with (s_ "A6*") in Y6.
  unfold paper_sizes, assoc. now rewrite X0, X1, X2, X3, X4, X5, X6, Y0, Y1, Y2, Y3, Y4, Y5, Y6.
Qed.
Print Assumptions C53_other_names.

Example C53_example : forall n, (n <= 6)%nat -> s_ "B5" <> s_ "A" ++ digit n /\ s_ "B5" <> s_ "A" ++ digit n ++ s_ "*".
Proof. intros n _. split; discriminate. Qed.

(** C53. The resize command: one argument names a paper size, two are width and height; on
    any error the size is unchanged. *)
Theorem C53_resize_error : forall (d : R -> R) (stod : str -> option (xr * nat)) (l l' : layer) (args : list expr) (o : outcome unit),
  layer_resize_cmd d stod l args = (l', o) -> (o = Ret tt \/ o = Err) /\ (o = Err -> l' = l).
Proof.
  intros d stod l l' args o H. unfold layer_resize_cmd, layer_resize_paper in H.
  repeat match type of H with
         | context [match ?x with _ => _ end] => destruct x
         end; injection H as <- <-; split; auto; discriminate.
Qed.
Print Assumptions C53_resize_error.

Theorem C53_resize_two : forall (d : R -> R) (stod : str -> option (xr * nat)) (l : layer) (a b : expr) (s t : str) (w h : measure),
  (a = ELit s \/ a = EVal s) -> (b = ELit t \/ b = EVal t) ->
  parse_measure d stod s = Ret w -> parse_measure d stod t = Ret h ->
  layer_resize_cmd d stod l [a; b] = (mk_layer w h (l_dpi l) (l_font_size l), Ret tt).
Proof. intros d stod l a b s t w h [->| ->] [->| ->] W H; unfold layer_resize_cmd, measure_read; cbn [value_of]; now rewrite W, H. Qed.
Print Assumptions C53_resize_two.

(* ------------------------------------------------------------------ C54 *)
(** C54. Changing the resolution by a factor k scales every length given in mm or pt (and,
    with a font size in mm or pt, in em) by k, and leaves pixels alone. *)
Theorem C54_resolution : forall (w h fs : measure) (dpi k v : R) (u : unit_t) (f : xr -> xr) (x : R),
  let l dpi := mk_layer w h (Fin dpi) fs in
  In (m_unit fs) [MM; PT] -> m_value fs = Fin x ->
  uconv_size exact (l dpi) u = Some f -> exists f', uconv_size exact (l (k * dpi)) u = Some f' /\
  exists r, f (Fin v) = Fin r /\ f' (Fin v) = Fin (if match u with PX => true | _ => false end then r else k * r).
Proof.
  intros w h [fu fv] dpi k v u f x l FU FV H. cbn [m_unit m_value] in *. subst fv. subst l.
  assert (FS : exists s, layer_get_font_size exact (mk_layer w h (Fin dpi) (mk_measure fu (Fin x))) = Fin s /\
      layer_get_font_size exact (mk_layer w h (Fin (k * dpi)) (mk_measure fu (Fin x))) = Fin (k * s)).
  { unfold layer_get_font_size, device_size. cbn [l_font_size l_dpi m_unit m_value].
    destruct FU as [<-|[<-|[]]]; rewrite ?from_mm_exact, ?from_pt_exact; eexists; (split; [reflexivity|]); f_equal; ring. }
  destruct FS as (s & F1 & F2).
  destruct u; cbn in H; try discriminate; injection H as <-; cbn; eexists; (split; [reflexivity|]).
  - rewrite !from_mm_exact. eexists. split; [reflexivity|]. f_equal. ring.
  - eexists. split; reflexivity.
  - rewrite !from_pt_exact. eexists. split; [reflexivity|]. f_equal. ring.
  - rewrite F1, F2. cbn. eexists. split; [reflexivity|]. unfold exact. f_equal. ring.
  - rewrite F1, F2. cbn. eexists. split; [reflexivity|]. unfold exact. f_equal. ring.
Qed.
Print Assumptions C54_resolution.

Example C54_example : exists f, uconv_size exact layer0 EM = Some f /\ f (Fin 2) = Fin (2 * (11 / 72 * 192)).
Proof.
  eexists. split; [reflexivity|]. cbn. unfold layer_get_font_size, device_size. cbn [l_font_size layer0 m_unit m_value from_pt l_dpi].
  rewrite from_pt_exact. cbn. unfold exact. f_equal. ring.
Qed.

(* ------------------------------------------------------------------ C55 *)
(** C55. A linear size map sends 0 to the first measure, 1 to the second, is linear between
    and clamps values outside [0,1]; text that is not a number is an error. *)
Theorem C55_size_map : forall (stod : str -> option (xr * nat)) (a b v : R) (ua ub : unit_t) (t : str) (n : nat),
  stod t = Some (Fin v, n) ->
  measure_map_linear exact stod (mk_measure ua (Fin a)) (mk_measure ub (Fin b)) t =
    Ret (from_unit (Fin (a + (b - a) * Rmax 0 (Rmin 1 v)))).
Proof.
  intros stod a b v ua ub t n H. unfold measure_map_linear. rewrite H. cbn [m_value].
  assert (C : clamp01 (Fin v) = Fin (Rmax 0 (Rmin 1 v))).
  { unfold clamp01. cbn. destruct (Rlt_dec v 0).
    - rewrite Rmin_right by lra. now rewrite Rmax_left by lra.
    - destruct (Rlt_dec 1 v).
      + rewrite Rmin_left by lra. now rewrite Rmax_right by lra.
      + rewrite Rmin_right by lra. now rewrite Rmax_right by lra. }
  rewrite C. reflexivity.
Qed.
Print Assumptions C55_size_map.

(** C55. Hence the result always lies between the two measures ... *)
Theorem C55_between : forall (stod : str -> option (xr * nat)) (a b v : R) (ua ub : unit_t) (t : str) (n : nat),
  stod t = Some (Fin v, n) -> a <= b ->
  exists r, measure_map_linear exact stod (mk_measure ua (Fin a)) (mk_measure ub (Fin b)) t = Ret (from_unit (Fin r)) /\ a <= r <= b.
Proof.
  intros stod a b v ua ub t n H L. rewrite (C55_size_map _ a b v ua ub t n H). eexists. split; [reflexivity|].
  assert (0 <= Rmax 0 (Rmin 1 v) <= 1).
  { split; [apply Rmax_l|]. apply Rmax_lub; [lra|apply Rmin_l]. }
  nra.
Qed.
Print Assumptions C55_between.

Theorem C55_not_a_number : forall (d : R -> R) (stod : str -> option (xr * nat)) (mn mx : measure) (t : str),
  stod t = None -> measure_map_linear d stod mn mx t = Err.
Proof. intros d stod mn mx t H. unfold measure_map_linear. now rewrite H. Qed.
Print Assumptions C55_not_a_number.

(** ... but a datum written "nan" is accepted and gives a size that is not a number. *)
Theorem C55_nan_refuted : forall (d : R -> R) (stod : str -> option (xr * nat)) (a b : R) (ua ub : unit_t) (t : str) (n : nat),
  stod t = Some (NaN, n) ->
  measure_map_linear d stod (mk_measure ua (Fin a)) (mk_measure ub (Fin b)) t = Ret (from_unit NaN).
Proof. intros d stod a b ua ub t n H. unfold measure_map_linear. rewrite H. reflexivity. Qed.
Print Assumptions C55_nan_refuted.

(** C55. Reading `(linear A B)`: the map between the two measures in device units. *)
Theorem C55_reader : forall (stod : str -> option (xr * nat)) (l : layer) (h a b : expr) (s t : str) (ma mb : measure) rest,
  (h = ELit (s_ "linear") \/ h = EVal (s_ "linear")) -> (a = ELit s \/ a = EVal s) -> (b = ELit t \/ b = EVal t) ->
  measure_readn exact stod l [EVal s] = Ret ma -> measure_readn exact stod l [EVal t] = Ret mb ->
  measure_map_read exact stod l (EList [h; a; b] :: rest) = Ret (measure_map_linear exact stod ma mb).
Proof.
  intros stod l h a b s t ma mb rest H A B MA MB. unfold measure_map_read.
  replace (value_of [h; a; b]) with (Some (s_ "linear")) by (destruct H as [->| ->]; reflexivity).
  rewrite str_eqb_refl. cbn [tl].
  assert (E1 : measure_readn exact stod l [a; b] = Ret ma) by (rewrite <- MA; destruct A as [->| ->]; reflexivity).
  assert (E2 : measure_readn exact stod l [b] = Ret mb) by (rewrite <- MB; destruct B as [->| ->]; reflexivity).
  rewrite E1. cbn [bind]. rewrite E2. reflexivity.
Qed.
Print Assumptions C55_reader.

(** C27: converting a list of measures converts the measure at each position. *)
Theorem C27_lists : forall d cs c ms i,
  nth_error (convert_units cs ms) i = option_map (convert_unit cs) (nth_error ms i) /\
  nth_error (measure_normalizev d c ms) i = option_map (measure_normalize d c) (nth_error ms i).
Proof. intros. split; apply nth_error_map. Qed.
Print Assumptions C27_lists.

(** C27. The font and parent sizes of such a resolution: points by the resolution, pixels
    and plain numbers as they are, and a relative font size as that share of the parent. *)
Theorem C27_font_parent : forall (dpi v p r : R) (u pu : unit_t),
  (pu = PX \/ pu = UNIT \/ pu = USER) -> (u = PX \/ u = UNIT \/ u = USER) ->
  parent_size exact (mk_conv (Fin dpi) (mk_measure u (Fin v)) (mk_measure pu (Fin p))) = Fin p /\
  parent_size exact (mk_conv (Fin dpi) (mk_measure u (Fin v)) (mk_measure PT (Fin p))) = Fin (p / 72 * dpi) /\
  font_size exact (mk_conv (Fin dpi) (mk_measure u (Fin v)) (mk_measure pu (Fin p))) = Fin v /\
  font_size exact (mk_conv (Fin dpi) (mk_measure PT (Fin v)) (mk_measure pu (Fin p))) = Fin (v / 72 * dpi) /\
  font_size exact (mk_conv (Fin dpi) (mk_measure REL (Fin r)) (mk_measure pu (Fin p))) = Fin (r * p).
Proof.
  intros dpi v p r u pu [->|[->| ->]] [->|[->| ->]]; unfold font_size, parent_size; cbn [c_dpi c_font c_parent m_unit m_value];
    rewrite !xdiv_exact by lra; rewrite ?xmul_exact; repeat split; f_equal; ring.
Qed.
Print Assumptions C27_font_parent.

(** C27. Dash patterns and offsets: the documented device length for pixels, points and em,
    with the layer's font size. *)
Theorem C27_dash_partial : forall (stod : str -> option (xr * nat)) (w h fs : measure) (dpi font parent v r : R) (s u : str) (n : nat) e rest,
  (e = ELit s \/ e = EVal s) ->
  layer_get_font_size exact (mk_layer w h (Fin dpi) fs) = Fin font ->
  stod s = Some (Fin v, n) -> skipn n s = u -> (u = s_ "px" \/ u = s_ "pt" \/ u = s_ "em") ->
  device_length dpi font parent u v = Some r ->
  measure_readn exact stod (mk_layer w h (Fin dpi) fs) (e :: rest) = Ret (from_unit (Fin r)).
Proof.
  intros stod w h fs dpi font parent v r s u n e rest E F S K U L. unfold measure_readn, measure_read.
  replace (value_of (e :: rest)) with (Some s) by (destruct E as [->| ->]; reflexivity).
  assert (N : n <> length s).
  { intros ->. rewrite skipn_all in K. subst u. destruct U as [U|[U|U]]; discriminate. }
  set (m := if str_eqb u (s_ "px") then mk_measure PX (Fin v) else if str_eqb u (s_ "pt") then mk_measure PT (Fin v) else mk_measure REM (Fin v)).
  assert (P : parse_measure exact stod s = Ret m).
  { apply C27_read. exists (Fin v), n. split; [exact S|]. right. split; [exact N|].
    unfold m. destruct U as [U|[U|U]]; rewrite U in *; cbn; auto 10. }
  rewrite P. cbn [bind]. f_equal. rewrite F. cbn [l_dpi]. clear P K. subst m.
  destruct U as [U|[U|U]]; rewrite U in *; cbn in L; injection L as <-; cbn.
  - reflexivity.
  - unfold measure_normalize. cbn [m_unit m_value c_dpi]. destruct (Req_EM_T 72 0); [lra|reflexivity].
  - reflexivity.
Qed.
Print Assumptions C27_dash_partial.

(** C53. Before any command the layer is 1600 x 800 px at 192 dpi with an 11 pt font. *)
Theorem C53_defaults :
  layer_get_width exact layer0 = Fin 1600 /\ layer_get_height exact layer0 = Fin 800 /\
  l_dpi layer0 = Fin 192 /\ layer_get_font_size exact layer0 = Fin (11 / 72 * 192).
Proof.
  repeat split. unfold layer_get_font_size, device_size. cbn [l_font_size layer0 m_unit m_value from_pt l_dpi].
  now rewrite from_pt_exact.
Qed.
Print Assumptions C53_defaults.

(** C53. The `dpi` command with one number sets the resolution and nothing else; `font-size`
    with one measure sets the font size and nothing else; anything else is an error and
    changes nothing. *)
Theorem C53_dpi_font_size : forall (d : R -> R) (stod : str -> option (xr * nat)) (l : layer) (args : list expr),
  (forall v, (exists s n, stod s = Some (v, n) /\ (args = [ELit s] \/ args = [EVal s])) ->
     layer_set_dpi_cmd stod l args = (mk_layer (l_width l) (l_height l) v (l_font_size l), Ret tt)) /\
  (forall m, (exists s, parse_measure d stod s = Ret m /\ (args = [ELit s] \/ args = [EVal s])) ->
     layer_set_font_size_cmd d stod l args = (mk_layer (l_width l) (l_height l) (l_dpi l) m, Ret tt)) /\
  ((forall s, (args = [ELit s] \/ args = [EVal s]) -> stod s = None) ->
     layer_set_dpi_cmd stod l args = (l, Err) /\ layer_set_font_size_cmd d stod l args = (l, Err)).
Proof.
  intros d stod l args. split; [|split].
  - intros v (s & n & S & [->| ->]); unfold layer_set_dpi_cmd, expr_to_float64; cbn [value_of]; now rewrite S.
  - intros m (s & S & [->| ->]); unfold layer_set_font_size_cmd, measure_read; cbn [value_of]; now rewrite S.
  - intro H. destruct args as [|a [|b r]]; [now split| |now split].
    destruct a as [es|s|s]; [now split| |];
      assert (K := H s ltac:(auto)); unfold layer_set_dpi_cmd, layer_set_font_size_cmd, expr_to_float64, measure_read, parse_measure;
      cbn [value_of]; now rewrite K.
Qed.
Print Assumptions C53_dpi_font_size.
