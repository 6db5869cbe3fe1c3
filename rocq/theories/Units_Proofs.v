(** Lemmas about lengths. *)
From Verif Require Import Base Sexpr_Model Dispatch_Model Dispatch_Spec Dispatch_Proofs Num Num_Facts Units_Model Units_Spec.
Local Open Scope R_scope.

Lemma xmul_exact x y : xmul exact (Fin x) (Fin y) = Fin (x * y).
Proof. reflexivity. Qed.
Lemma xdiv_exact x y : y <> 0 -> xdiv exact (Fin x) (Fin y) = Fin (x / y).
Proof. intro H. now rewrite xdiv_fin. Qed.

Lemma from_mm_exact v dpi : unit_from_mm exact (Fin v) (Fin dpi) = Fin (v / (254 / 10) * dpi).
Proof. unfold unit_from_mm, k25_4, exact at 2. rewrite xdiv_exact by (unfold exact; lra). apply xmul_exact. Qed.
Lemma from_pt_exact v dpi : unit_from_pt exact (Fin v) (Fin dpi) = Fin (v / 72 * dpi).
Proof. unfold unit_from_pt. rewrite xdiv_exact by lra. apply xmul_exact. Qed.
Lemma to_pt_exact v dpi : dpi <> 0 -> unit_to_pt exact (Fin v) (Fin dpi) = Fin (v / dpi * 72).
Proof. intro H. unfold unit_to_pt. now rewrite xdiv_exact by auto. Qed.
Lemma from_percent_exact v b : unit_from_percent exact (Fin v) (Fin b) = Fin (v / 100 * b).
Proof. unfold unit_from_percent. rewrite xdiv_exact by lra. apply xmul_exact. Qed.

(** 17 pt at 96 dpi, in double precision. *)
Lemma pt_round_17 : unit_to_pt rnd64 (unit_from_pt rnd64 (Fin 17) (Fin 96)) (Fin 96)
  = Fin (IZR 4785074604081151 * bpow radix2 (-48)).
Proof.
  unfold unit_to_pt, unit_from_pt. rewrite xdiv_fin by lra.
  rewrite (rnd64_calc (17 / 72) 8506799296144270 (-55)) by rnd_side.
  cbn [xmul].
  rewrite (rnd64_calc _ 6380099472108202 (-48)) by rnd_side.
  rewrite xdiv_fin by lra.
  rewrite (rnd64_calc _ 8506799296144269 (-55)) by rnd_side.
  cbn [xmul].
  rewrite (rnd64_calc _ 4785074604081151 (-48)) by rnd_side.
  reflexivity.
Qed.

(** A percentage printed and read back in double precision. *)
Definition odd_percent : R := IZR 7428758924244592 * bpow radix2 (-53).
Lemma percent_round : xdiv rnd64 (xmul rnd64 (Fin odd_percent) (Fin 100)) (Fin 100)
  = Fin (IZR 7428758924244593 * bpow radix2 (-53)).
Proof.
  unfold odd_percent. cbn [xmul].
  rewrite (rnd64_calc _ 5803717909566088 (-46)) by rnd_side.
  rewrite xdiv_fin by lra.
  rewrite (rnd64_calc _ 7428758924244593 (-53)) by rnd_side.
  reflexivity.
Qed.

(** Four roundings. *)
Lemma four_roundings e1 e2 e3 e4 u : 0 <= u <= / 1000 ->
  Rabs e1 <= u -> Rabs e2 <= u -> Rabs e3 <= u -> Rabs e4 <= u ->
  Rabs ((1 + e1) * (1 + e2) * (1 + e3) * (1 + e4) - 1) <= 5 * u.
Proof.
  intros U H1 H2 H3 H4.
  assert (forall a x k, Rabs (a - 1) <= k * u -> 0 <= k <= 4 -> Rabs x <= u -> Rabs (a * (1 + x) - 1) <= (k + 1 + k * u) * u).
  { intros a x k A K X. replace (a * (1 + x) - 1) with ((a - 1) + x + (a - 1) * x) by ring.
    eapply Rle_trans; [apply Rabs_triang|]. eapply Rle_trans; [apply Rplus_le_compat_r, Rabs_triang|].
    rewrite Rabs_mult. assert (Rabs (a - 1) * Rabs x <= (k * u) * u).
    { apply Rmult_le_compat; auto using Rabs_pos. } nra. }
  assert (A1 : Rabs ((1 + e1) - 1) <= 1 * u) by (replace (1 + e1 - 1) with e1 by ring; lra).
  assert (A2 := H _ e2 1 A1 ltac:(lra) H2).
  assert (A2' : Rabs ((1 + e1) * (1 + e2) - 1) <= (2 + /100) * u) by (eapply Rle_trans; [exact A2|]; nra).
  assert (A3 := H _ e3 _ A2' ltac:(lra) H3).
  assert (A3' : Rabs ((1 + e1) * (1 + e2) * (1 + e3) - 1) <= (3 + /10) * u) by (eapply Rle_trans; [exact A3|]; nra).
  assert (A4 := H _ e4 _ A3' ltac:(lra) H4).
  eapply Rle_trans; [exact A4|]. nra.
Qed.

Lemma u_small : 0 <= bpow radix2 (-53) <= / 1000.
Proof. cbn. lra. Qed.

Lemma factor_ge e : Rabs e <= bpow radix2 (-53) -> / 2 <= Rabs (1 + e).
Proof.
  intro H. assert (U := u_small). apply Rabs_le_inv in H. rewrite Rabs_pos_eq by lra. lra.
Qed.

Lemma pt_round_trip v dpi :
  bpow radix2 (-900) <= Rabs v -> bpow radix2 (-100) <= dpi <= bpow radix2 100 ->
  exists r, unit_to_pt rnd64 (unit_from_pt rnd64 (Fin v) (Fin dpi)) (Fin dpi) = Fin r /\
    Rabs (r - v) <= bpow radix2 (-50) * Rabs v.
Proof.
  intros Hv Hd. assert (P : 0 < dpi) by (eapply Rlt_le_trans; [apply (bpow_gt_0 radix2 (-100))|apply Hd]).
  assert (V0 := Rabs_pos v).
  unfold unit_to_pt, unit_from_pt. rewrite xdiv_fin by lra. cbn [xmul].
  assert (B900 : 0 < bpow radix2 (-900)) by apply bpow_gt_0.
  assert (L : forall k x, (-122 <= k)%Z -> bpow radix2 k * bpow radix2 (-900) <= Rabs x -> bpow radix2 (-1022) <= Rabs x).
  { intros k x K X. eapply Rle_trans; [|exact X]. rewrite <- bpow_plus. apply bpow_le. lia. }
  destruct (rnd64_rel (v / 72)) as (e1 & E1 & ->).
  { apply (L (-7)%Z); [lia|]. unfold Rdiv. rewrite Rabs_mult, (Rabs_pos_eq (/ 72)) by lra.
    change (bpow radix2 (-7)) with (/ 128). nra. }
  assert (F1 := factor_ge _ E1).
  assert (M1 : / 256 * Rabs v <= Rabs (v / 72 * (1 + e1))).
  { unfold Rdiv. rewrite !Rabs_mult, (Rabs_pos_eq (/ 72)) by lra. nra. }
  assert (D1 : bpow radix2 (-100) * (/256 * Rabs v) <= Rabs (v / 72 * (1 + e1) * dpi)).
  { rewrite Rabs_mult, (Rabs_pos_eq dpi) by lra. rewrite Rmult_comm. apply Rmult_le_compat; try lra. apply bpow_ge_0. }
  destruct (rnd64_rel (v / 72 * (1 + e1) * dpi)) as (e2 & E2 & ->).
  { apply (L (-108)%Z); [lia|]. eapply Rle_trans; [|exact D1].
    replace (bpow radix2 (-108)) with (bpow radix2 (-100) * / 256).
    - rewrite Rmult_assoc. apply Rmult_le_compat_l; [apply bpow_ge_0|]. lra.
    - replace (-108)%Z with (-100 + -8)%Z by lia. rewrite bpow_plus. f_equal. }
  rewrite xdiv_fin by lra. cbn [xmul].
  replace (v / 72 * (1 + e1) * dpi * (1 + e2) / dpi) with (v / 72 * (1 + e1) * (1 + e2)) by (field; lra).
  assert (F2 := factor_ge _ E2).
  assert (M2 : / 512 * Rabs v <= Rabs (v / 72 * (1 + e1) * (1 + e2))) by (rewrite Rabs_mult; nra).
  destruct (rnd64_rel (v / 72 * (1 + e1) * (1 + e2))) as (e3 & E3 & ->).
  { apply (L (-9)%Z); [lia|]. change (bpow radix2 (-9)) with (/ 512). lra. }
  assert (F3 := factor_ge _ E3).
  assert (M3 : / 1024 * Rabs v <= Rabs (v / 72 * (1 + e1) * (1 + e2) * (1 + e3))) by (rewrite Rabs_mult; nra).
  destruct (rnd64_rel (v / 72 * (1 + e1) * (1 + e2) * (1 + e3) * 72)) as (e4 & E4 & ->).
  { apply (L (-10)%Z); [lia|]. change (bpow radix2 (-10)) with (/ 1024). rewrite Rabs_mult, (Rabs_pos_eq 72) by lra. nra. }
  eexists. split; [reflexivity|].
  replace (v / 72 * (1 + e1) * (1 + e2) * (1 + e3) * 72 * (1 + e4) - v)
    with (((1 + e1) * (1 + e2) * (1 + e3) * (1 + e4) - 1) * v) by field.
  rewrite Rabs_mult. apply Rmult_le_compat_r; [exact V0|].
  eapply Rle_trans; [apply (four_roundings _ _ _ _ (bpow radix2 (-53)) u_small E1 E2 E3 E4)|].
  cbn. lra.
Qed.

(* ---------------- reading ---------------- *)
Lemma parse_measure_ok d stod s m : parse_measure d stod s = Ret m <->
  exists v n, stod s = Some (v, n) /\
    ((n = length s /\ m = mk_measure USER v) \/
     (n <> length s /\
      ((skipn n s = s_ "mm" /\ m = mk_measure MM v) \/
       (skipn n s = s_ "px" /\ m = mk_measure PX v) \/
       (skipn n s = s_ "pt" /\ m = mk_measure PT v) \/
       ((skipn n s = s_ "em" \/ skipn n s = s_ "rem") /\ m = mk_measure REM v) \/
       (skipn n s = s_ "%" /\ m = mk_measure REL (xdiv d v (Fin 100))) \/
       (skipn n s = s_ "rel" /\ m = mk_measure REL v)))).
Proof.
  unfold parse_measure. destruct (stod s) as [[v n]|]; [|split; [discriminate|intros (? & ? & ? & _); discriminate]].
  destruct (Nat.eqb_spec n (length s)) as [->|N].
  { split.
    - intro H. injection H as <-. exists v, (length s). auto.
    - intros (v' & n' & H & [[_ ->]|[X _]]); injection H as <- <-; [reflexivity|congruence]. }
  set (u := skipn n s).
  destruct (str_eqb_spec u (s_ "mm")) as [U1|U1]; [|destruct (str_eqb_spec u (s_ "px")) as [U2|U2];
    [|destruct (str_eqb_spec u (s_ "pt")) as [U3|U3]; [|destruct (str_eqb_spec u (s_ "em")) as [U4|U4];
    [|destruct (str_eqb_spec u (s_ "rem")) as [U5|U5]; [|destruct (str_eqb_spec u (s_ "%")) as [U6|U6];
    [|destruct (str_eqb_spec u (s_ "rel")) as [U7|U7]]]]]]]; cbn [orb];
  (split;
   [ intro H; first [discriminate | injection H as <-; exists v, n; split; [reflexivity|]; right; fold u; auto 12]
   | intros (v' & n' & H & [[X _]|[_ D]]); injection H as <- <-; [congruence|fold u in D;
     repeat (destruct D as [D|D]); destruct D as [Y Z]; try destruct Y as [Y|Y]; subst m; try reflexivity; rewrite Y in *; try discriminate; congruence] ]).
Qed.
