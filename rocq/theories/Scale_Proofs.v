From Verif Require Import Base Sexpr_Model Dispatch_Model Dispatch_Proofs Csv_Model Data_Model Data_Spec Data_Proofs Num Scale_Model Scale_Spec.
From Coq Require Import Permutation.
Local Open Scope R_scope.

(* ---------- order on non-NaN values ---------- *)
Definition num_ok (a : xr) : Prop := a <> NaN.

Lemma xlt_trans a b c : xlt a b = true -> xlt b c = true -> xlt a c = true.
Proof.
  destruct a, b, c; cbn; try discriminate; auto.
  destruct (Rlt_dec r r0), (Rlt_dec r0 r1), (Rlt_dec r r1); auto; try discriminate; lra.
Qed.
Lemma xlt_asym a b : xlt a b = true -> xlt b a = false.
Proof.
  destruct a, b; cbn; try discriminate; auto.
  destruct (Rlt_dec r r0), (Rlt_dec r0 r); auto; try discriminate; lra.
Qed.
Lemma xlt_irrefl a : xlt a a = false.
Proof. destruct a; cbn; auto. destruct (Rlt_dec r r); auto; lra. Qed.
Lemma xlt_total a b : num_ok a -> num_ok b -> xlt a b = false -> xlt b a = false -> a = b.
Proof.
  unfold num_ok. destruct a, b; cbn; try discriminate; try tauto.
  destruct (Rlt_dec r r0), (Rlt_dec r0 r); try discriminate. intros. f_equal. lra.
Qed.
(* strict weak order: not less is transitive *)
Lemma xnlt_trans a b c : num_ok b -> xlt a b = false -> xlt b c = false -> xlt a c = false.
Proof.
  unfold num_ok. destruct a, b, c; cbn; try discriminate; auto; try tauto.
  destruct (Rlt_dec r r0), (Rlt_dec r0 r1), (Rlt_dec r r1); auto; try discriminate; lra.
Qed.

(* lowest and highest so far *)
Definition low (o : option xr) (v : xr) : option xr :=
  match o with None => Some v | Some m => if xlt v m then Some v else Some m end.
Definition high (o : option xr) (v : xr) : option xr :=
  match o with None => Some v | Some m => if xlt m v then Some v else Some m end.

Lemma fit_all_fields s vs :
  let s' := fit_all s vs in
  h_min s' = fold_left low vs (h_min s) /\ h_max s' = fold_left high vs (h_max s) /\
  s_kind s' = s_kind s /\ s_min s' = s_min s /\ s_max s' = s_max s /\
  s_log_base s' = s_log_base s /\ s_inverted s' = s_inverted s /\ s_padding s' = s_padding s /\
  s_categories s' = s_categories s /\ s_cmap s' = s_cmap s.
Proof.
  cbn zeta. unfold fit_all. revert s. induction vs as [|v vs IH]; intro s; cbn [fold_left].
  - tauto.
  - destruct (IH (fit s v)) as (A & B & C). rewrite A, B. cbn in *. unfold low at 2, high at 2. tauto.
Qed.

Definition okopt (o : option xr) := match o with Some m => num_ok m | None => True end.

Lemma low_ok o v : okopt o -> num_ok v -> okopt (low o v).
Proof. destruct o; cbn; auto. destruct (xlt v x); auto. Qed.
Lemma high_ok o v : okopt o -> num_ok v -> okopt (high o v).
Proof. destruct o; cbn; auto. destruct (xlt x v); auto. Qed.

Lemma low_comm o a b : okopt o -> num_ok a -> num_ok b -> low (low o a) b = low (low o b) a.
Proof.
  intros Ho Ha Hb.
  assert (AB : xlt a b = false -> xlt b a = false -> a = b) by (now apply xlt_total).
  destruct o as [m|]; cbn.
  - destruct (xlt a m) eqn:E1; destruct (xlt b m) eqn:E2; cbn; try rewrite E1; try rewrite E2; auto.
    + destruct (xlt b a) eqn:E3; destruct (xlt a b) eqn:E4; auto.
      * apply xlt_asym in E3. congruence.
      * f_equal; auto.
    + destruct (xlt b a) eqn:E3; auto. rewrite (xlt_trans b a m) in E2; auto; discriminate.
    + destruct (xlt a b) eqn:E3; auto. rewrite (xlt_trans a b m) in E1; auto; discriminate.
  - destruct (xlt b a) eqn:E3; destruct (xlt a b) eqn:E4; auto.
    + apply xlt_asym in E3. congruence.
    + f_equal; auto.
Qed.
Lemma high_comm o a b : okopt o -> num_ok a -> num_ok b -> high (high o a) b = high (high o b) a.
Proof.
  intros Ho Ha Hb.
  assert (AB : xlt a b = false -> xlt b a = false -> a = b) by (now apply xlt_total).
  destruct o as [m|]; cbn.
  - destruct (xlt m a) eqn:E1; destruct (xlt m b) eqn:E2; cbn; try rewrite E1; try rewrite E2; auto.
    + destruct (xlt a b) eqn:E3; destruct (xlt b a) eqn:E4; auto.
      * apply xlt_asym in E3. congruence.
      * f_equal; auto.
    + destruct (xlt a b) eqn:E3; auto. rewrite (xlt_trans m a b) in E2; auto; discriminate.
    + destruct (xlt b a) eqn:E3; auto. rewrite (xlt_trans m b a) in E1; auto; discriminate.
  - destruct (xlt b a) eqn:E3; destruct (xlt a b) eqn:E4; auto.
    + apply xlt_asym in E3. congruence.
    + f_equal; auto.
Qed.

Lemma fold_perm (g : option xr -> xr -> option xr) vs vs' :
  (forall o v, okopt o -> num_ok v -> okopt (g o v)) ->
  (forall o a b, okopt o -> num_ok a -> num_ok b -> g (g o a) b = g (g o b) a) ->
  Permutation vs vs' -> Forall num_ok vs -> forall o, okopt o -> fold_left g vs o = fold_left g vs' o.
Proof.
  intros OK C P. induction P; intros F o Ho; cbn; auto.
  - inversion F; subst. apply IHP; auto.
  - inversion F as [|? ? F1 F2]; subst. inversion F2; subst. now rewrite C.
  - rewrite IHP1 by auto. apply IHP2; auto. eapply Permutation_Forall; eauto.
Qed.

Lemma fit_perm d f s vs vs' : Permutation vs vs' -> Forall num_ok vs -> okopt (h_min s) -> okopt (h_max s) ->
  scale_min d f (fit_all s vs) = scale_min d f (fit_all s vs') /\
  scale_max d f (fit_all s vs) = scale_max d f (fit_all s vs').
Proof.
  intros P F A B. destruct (fit_all_fields s vs) as (X1 & X2 & _ & X3 & X4 & _ & _ & X5 & _).
  destruct (fit_all_fields s vs') as (Y1 & Y2 & _ & Y3 & Y4 & _ & _ & Y5 & _).
  unfold scale_min, scale_max. rewrite X1, X2, X3, X4, X5, Y1, Y2, Y3, Y4, Y5.
  rewrite (fold_perm low vs vs'), (fold_perm high vs vs'); auto using low_ok, high_ok, low_comm, high_comm.
Qed.

(* NaN first: stuck *)
Lemma low_nan vs : fold_left low vs (Some NaN) = Some NaN.
Proof. induction vs as [|v vs IH]; cbn; auto. destruct v; cbn; exact IH. Qed.
Lemma high_nan vs : fold_left high vs (Some NaN) = Some NaN.
Proof. induction vs as [|v vs IH]; cbn; auto. Qed.

Lemma fit_nan d f s vs : h_min s = None -> h_max s = None -> s_min s = None -> s_max s = None ->
  scale_min d f (fit_all s (NaN :: vs)) = NaN /\ scale_max d f (fit_all s (NaN :: vs)) = NaN.
Proof.
  intros A B C D. destruct (fit_all_fields s (NaN :: vs)) as (X1 & X2 & _ & X3 & X4 & _ & _ & X5 & _).
  unfold scale_min, scale_max. rewrite X1, X2, X3, X4, A, B, C, D. cbn [fold_left low high].
  rewrite low_nan, high_nan. unfold xsub, xadd. now destruct (s_padding _).
Qed.

(* the fitted extremes of finite values *)
Lemma low_fin vs : forall m, exists m', fold_left low (map Fin vs) (Some (Fin m)) = Some (Fin m') /\
  least m' (m :: vs).
Proof.
  induction vs as [|v vs IH]; intro m; cbn [map fold_left].
  - exists m. split; auto. split; [now left|]. intros v [->|[]]; lra.
  - cbn [low]. destruct (xlt (Fin v) (Fin m)) eqn:E.
    + apply xlt_fin in E. destruct (IH v) as (m' & -> & I & L). exists m'. split; auto. split.
      * destruct I; [subst; now right; left|now right; right].
      * intros w [Hw|[Hw|H]]; try (apply L; cbn; now auto); subst w. assert (m' <= v) by (apply L; now left). lra.
    + apply xlt_fin_f in E. destruct (IH m) as (m' & -> & I & L). exists m'. split; auto. split.
      * destruct I; [subst; now left|now right; right].
      * intros w [Hw|[Hw|H]]; try (apply L; cbn; now auto); subst w. assert (m' <= m) by (apply L; now left). lra.
Qed.
Lemma high_fin vs : forall m, exists m', fold_left high (map Fin vs) (Some (Fin m)) = Some (Fin m') /\
  greatest m' (m :: vs).
Proof.
  induction vs as [|v vs IH]; intro m; cbn [map fold_left].
  - exists m. split; auto. split; [now left|]. intros v [->|[]]; lra.
  - cbn [high]. destruct (xlt (Fin m) (Fin v)) eqn:E.
    + apply xlt_fin in E. destruct (IH v) as (m' & -> & I & L). exists m'. split; auto. split.
      * destruct I; [subst; now right; left|now right; right].
      * intros w [Hw|[Hw|H]]; try (apply L; cbn; now auto); subst w. assert (v <= m') by (apply L; now left). lra.
    + apply xlt_fin_f in E. destruct (IH m) as (m' & -> & I & L). exists m'. split; auto. split.
      * destruct I; [subst; now left|now right; right].
      * intros w [Hw|[Hw|H]]; try (apply L; cbn; now auto); subst w. assert (m <= m') by (apply L; now left). lra.
Qed.

(** A scale that has not been fitted yet and has no explicit limits, with padding [p]. *)
Definition unfitted (s : scale) (p : R) : Prop :=
  h_min s = None /\ h_max s = None /\ s_min s = None /\ s_max s = None /\ s_padding s = Fin p.

Lemma fit_bounds d f s p vs : unfitted s p -> vs <> [] ->
  exists lo hi, least lo vs /\ greatest hi vs /\
    scale_min d f (fit_all s (map Fin vs)) = Fin (f (d (lo - p))) /\
    scale_max d f (fit_all s (map Fin vs)) = Fin (f (d (hi + p))).
Proof.
  intros (A & B & C & D & P) NE. destruct vs as [|v vs]; [easy|].
  destruct (fit_all_fields s (map Fin (v :: vs))) as (X1 & X2 & _ & X3 & X4 & _ & _ & X5 & _).
  destruct (low_fin vs v) as (lo & L & LL), (high_fin vs v) as (hi & H & HH).
  exists lo, hi. split; auto. split; auto.
  unfold scale_min, scale_max. rewrite X1, X2, X3, X4, X5, A, B, C, D, P. cbn [map fold_left low high].
  rewrite L, H. split; reflexivity.
Qed.

Lemma fit_covers s p vs v : unfitted s p -> 0 <= p -> Forall is32 vs -> In v vs ->
  exists lo hi, scale_min rnd64 rnd32 (fit_all s (map Fin vs)) = Fin lo /\
    scale_max rnd64 rnd32 (fit_all s (map Fin vs)) = Fin hi /\ lo <= v <= hi.
Proof.
  intros U P F I. destruct (fit_bounds rnd64 rnd32 s p vs U) as (lo & hi & (IL & LL) & (IH & LH) & E1 & E2).
  { intro; subst; destruct I. }
  rewrite E1, E2. eexists _, _. split; [reflexivity|]. split; [reflexivity|].
  rewrite Forall_forall in F. pose proof (F _ IL) as Fl. pose proof (F _ IH) as Fh.
  pose proof (LL _ I). pose proof (LH _ I). split.
  - apply Rle_trans with lo; auto. rewrite <- (rnd32_id lo Fl) at 2. apply rnd32_mono.
    rewrite <- (rnd64_id lo (is32_is64 _ Fl)) at 2. apply rnd64_mono. lra.
  - apply Rle_trans with hi; auto. rewrite <- (rnd32_id hi Fh) at 1. apply rnd32_mono.
    rewrite <- (rnd64_id hi (is32_is64 _ Fh)) at 1. apply rnd64_mono. lra.
Qed.

Lemma fit_covers_rounded s p vs v : unfitted s p -> 0 <= p -> Forall is64 vs -> In v vs ->
  exists lo hi, scale_min rnd64 rnd32 (fit_all s (map Fin vs)) = Fin lo /\
    scale_max rnd64 rnd32 (fit_all s (map Fin vs)) = Fin hi /\ lo <= rnd32 v <= hi.
Proof.
  intros U P F I. destruct (fit_bounds rnd64 rnd32 s p vs U) as (lo & hi & (IL & LL) & (IH & LH) & E1 & E2).
  { intro; subst; destruct I. }
  rewrite E1, E2. eexists _, _. split; [reflexivity|]. split; [reflexivity|].
  rewrite Forall_forall in F. pose proof (F _ I) as Fv.
  pose proof (LL _ I). pose proof (LH _ I).
  rewrite <- (rnd64_id v Fv). split; apply rnd32_mono; apply rnd64_mono; lra.
Qed.

Lemma fit_attained s vs : unfitted s 0 -> vs <> [] -> Forall is32 vs ->
  exists lo hi, scale_min rnd64 rnd32 (fit_all s (map Fin vs)) = Fin lo /\
    scale_max rnd64 rnd32 (fit_all s (map Fin vs)) = Fin hi /\ least lo vs /\ greatest hi vs.
Proof.
  intros U NE F. destruct (fit_bounds rnd64 rnd32 s 0 vs U NE) as (lo & hi & L & H & E1 & E2).
  rewrite E1, E2. rewrite Rminus_0_r, Rplus_0_r. rewrite Forall_forall in F.
  rewrite (rnd64_id lo), (rnd64_id hi) by (apply is32_is64, F; first [apply L|apply H]).
  rewrite (rnd32_id lo), (rnd32_id hi) by (apply F; first [apply L|apply H]).
  exists lo, hi. auto.
Qed.

(** 2^24 + 1 is not a binary32 number and is rounded to 2^24. *)
Lemma rnd32_tie : rnd32 16777217 = 16777216.
Proof.
  unfold rnd32, round, scaled_mantissa, cexp.
  assert (M : mag radix2 16777217 = 25%Z :> Z).
  { apply mag_unique_pos. cbn. lra. }
  rewrite M. replace (FLT_exp (-149) 24 25) with 1%Z by reflexivity.
  assert (Fl : Zfloor (16777217 * bpow radix2 (- (1))) = 8388608%Z).
  { apply Zfloor_imp. cbn. split; lra. }
  assert (N : ZnearestE (16777217 * bpow radix2 (- (1))) = 8388608%Z).
  { unfold Znearest. rewrite Fl. rewrite Rcompare_Eq by (cbn; lra). reflexivity. }
  rewrite N. unfold F2R. cbn. lra.
Qed.
Lemma is64_16777217 : is64 16777217.
Proof. apply (is64_IZR 16777217). reflexivity. Qed.

Lemma fit_refuted :
  scale_max rnd64 rnd32 (fit_all scale0 [Fin 16777217]) = Fin 16777216.
Proof.
  unfold scale_max. cbn [fit_all fold_left fit scale0 h_min h_max s_max s_padding xadd xround].
  rewrite Rplus_0_r, (rnd64_id _ is64_16777217), rnd32_tie. reflexivity.
Qed.

(* a sequence of columns *)
Section Columns.
  Variable show : xr -> str.
  Variable stod : str -> option (xr * nat).
  Notation fit_buf d := (fit_buf d show stod).
  Notation cell := (as_num xr (parse_f64 stod)).

  Fixpoint fit_bufs (d : R -> R) (s : scale) (bs : list (databuf xr)) : outcome scale :=
    match bs with
    | [] => Ret s
    | b :: r => let* s' := fit_buf d s b in fit_bufs d s' r
    end.

  Lemma fit_buf_numeric d s b l : s_kind s <> Categorical -> repr xr b l ->
    fit_buf d s b = Ret (fit_all s (map cell l)).
  Proof.
    intros K R. unfold Scale_Model.fit_buf, databuf_to_numbers.
    destruct (s_kind s); [| |easy]; rewrite (repr_numbers xr (parse_f64 stod) b _ l [] R); reflexivity.
  Qed.

  Lemma fit_bufs_numeric d bs ls : Forall2 (repr xr) bs ls -> forall s, s_kind s <> Categorical ->
    fit_bufs d s bs = Ret (fit_all s (map cell (concat ls))).
  Proof.
    induction 1 as [|b l bs ls R F IH]; intros s K; cbn [fit_bufs concat map]; auto.
    rewrite (fit_buf_numeric d s b l K R). cbn [bind]. rewrite IH.
    - unfold fit_all. now rewrite map_app, fold_left_app.
    - destruct (fit_all_fields s (map cell l)) as (_ & _ & -> & _). exact K.
  Qed.
End Columns.
