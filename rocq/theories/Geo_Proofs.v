(** Lemmas about the geometry model. *)
From Verif Require Import Base Num Num_Facts Geo_Model Geo_Spec.
From Flocq Require Import Plus_error Relative.
From Coq Require Import Ratan.
Local Open Scope R_scope.

(** A point of the model with real coordinates. *)
Definition P (q : pt) : vec2 := mk_vec2 (Fin (fst q)) (Fin (snd q)).
Definition M (a b c e f g h i j : R) : mat3 := mk_mat3 (Fin a) (Fin b) (Fin c) (Fin e) (Fin f) (Fin g) (Fin h) (Fin i) (Fin j).

Ltac ex := unfold exact in *.

Ltac split_all :=
  repeat match goal with
  | |- context [Rle_dec ?a ?b] =>
      lazymatch a with context [Rle_dec _ _] => fail | _ => lazymatch b with context [Rle_dec _ _] => fail | _ => destruct (Rle_dec a b) end end
  | |- context [Rcase_abs ?a] => destruct (Rcase_abs a)
  end.

(* ---------------- rotations ---------------- *)
Lemma deg_rad a : xmul exact (xdiv exact (xneg (Fin a)) (Fin 180)) (m_pi exact) = Fin (- (a * PI / 180)).
Proof. unfold m_pi. cbn [xneg]. rewrite xdiv_fin by lra. cbn. ex. f_equal. lra. Qed.
Lemma deg_rad' a : xmul exact (xdiv exact (xneg (Fin a)) (Fin 360)) (tau exact) = Fin (- (a * PI / 180)).
Proof. unfold tau, m_pi. cbn [xneg]. rewrite xdiv_fin by lra. cbn. ex. f_equal. lra. Qed.
Lemma deg_rad'' a : xdiv exact (xmul exact (xneg (Fin a)) (m_pi exact)) (Fin 180) = Fin (- (a * PI / 180)).
Proof. unfold m_pi. cbn [xneg xmul]. rewrite xdiv_fin by lra. ex. f_equal. lra. Qed.

Lemma rotate2_fin a : rotate2 exact (Fin a) =
  M (cos (a * PI / 180)) (sin (a * PI / 180)) 0 (- sin (a * PI / 180)) (cos (a * PI / 180)) 0 0 0 1.
Proof.
  unfold rotate2. rewrite deg_rad'. unfold xcos, xsin. cbn. ex. rewrite cos_neg, sin_neg. unfold M. f_equal. f_equal. lra.
Qed.
Lemma from_deg_fin a : from_deg exact (Fin a) = P (cos (a * PI / 180), - sin (a * PI / 180)).
Proof. unfold from_deg. rewrite deg_rad. unfold xcos, xsin, P. ex. cbn. now rewrite cos_neg, sin_neg. Qed.

(* ---------------- min and max ---------------- *)
Lemma xmax_fin a b : xmax (Fin a) (Fin b) = Fin (Rmax a b).
Proof.
  unfold xmax. cbn. destruct (Rlt_dec a b); f_equal; [rewrite Rmax_right; lra|rewrite Rmax_left; lra].
Qed.
Lemma xmin_fin a b : xmin (Fin a) (Fin b) = Fin (Rmin a b).
Proof.
  unfold xmin. cbn. destruct (Rlt_dec b a); f_equal; [rewrite Rmin_right; lra|rewrite Rmin_left; lra].
Qed.
Lemma max4_abs u v : max4 (Fin (u - v)) (Fin (u + v)) (Fin (- u + v)) (Fin (- u - v)) = Fin (Rabs u + Rabs v).
Proof.
  unfold max4. rewrite !xmax_fin. f_equal. unfold Rmax, Rabs.
  split_all; lra.
Qed.
Lemma min4_abs u v : min4 (Fin (u - v)) (Fin (u + v)) (Fin (- u + v)) (Fin (- u - v)) = Fin (- (Rabs u + Rabs v)).
Proof.
  unfold min4. rewrite !xmin_fin. f_equal. unfold Rmin, Rabs.
  split_all; lra.
Qed.
Lemma max4_abs' u v : max4 (Fin (u + v)) (Fin (- u + v)) (Fin (- u - v)) (Fin (u - v)) = Fin (Rabs u + Rabs v).
Proof.
  unfold max4. rewrite !xmax_fin. f_equal. unfold Rmax, Rabs.
  split_all; lra.
Qed.
Lemma min4_abs' u v : min4 (Fin (u + v)) (Fin (- u + v)) (Fin (- u - v)) (Fin (u - v)) = Fin (- (Rabs u + Rabs v)).
Proof.
  unfold min4. rewrite !xmin_fin. f_equal. unfold Rmin, Rabs.
  split_all; lra.
Qed.

Lemma box_rotate_fin x y w h a :
  let t := - (a * PI / 180) in
  let W := Rabs (cos t * w) + Rabs (sin t * h) in
  let H := Rabs (cos t * h) + Rabs (sin t * w) in
  box_rotate_bounds exact (mk_rect (Fin x) (Fin y) (Fin w) (Fin h)) (Fin a) =
  mk_rect (Fin (x + w / 2 - W / 2)) (Fin (y + h / 2 - H / 2)) (Fin W) (Fin H).
Proof.
  intros t W H. unfold box_rotate_bounds. rewrite deg_rad''. fold t. cbn [xsin xcos rx ry rw rh xmul xadd xsub xneg]. ex.
  set (u := cos t * (w * / 2)). set (v := sin t * (h * / 2)).
  set (u' := cos t * (h * / 2)). set (v' := sin t * (w * / 2)).
  replace (u + - v) with (u - v) by ring.
  replace (u + - (sin t * (h * - / 2))) with (u + v) by (unfold v; ring).
  replace (cos t * (w * - / 2) + - (sin t * (h * - / 2))) with (- u + v) by (unfold u, v; ring).
  replace (cos t * (w * - / 2) + - v) with (- u - v) by (unfold u; ring).
  replace (cos t * (h * - / 2) + v') with (- u' + v') by (unfold u'; ring).
  replace (cos t * (h * - / 2) + sin t * (w * - / 2)) with (- u' - v') by (unfold u', v'; ring).
  replace (u' + sin t * (w * - / 2)) with (u' - v') by (unfold v'; ring).
  rewrite max4_abs, min4_abs, max4_abs', min4_abs'. cbn. ex.
  assert (A : forall p q, Rabs (p * (q * / 2)) = Rabs (p * q) / 2).
  { intros p q. replace (p * (q * / 2)) with (p * q * / 2) by ring. rewrite Rabs_mult, (Rabs_pos_eq (/ 2)) by lra. lra. }
  unfold u, v, u', v'. rewrite !A. unfold W, H. f_equal; f_equal; lra.
Qed.

(* ---------------- normalisation, angles ---------------- *)
Definition norm (v : pt) : R := sqrt (inner v v).
Lemma inner_nonneg v : 0 <= inner v v.
Proof. unfold inner. nra. Qed.
Lemma inner_pos v : v <> (0, 0) -> 0 < inner v v.
Proof.
  destruct v as [a b]. intro N. unfold inner. cbn.
  destruct (Req_dec a 0) as [->|A]; [destruct (Req_dec b 0) as [->|B]; [congruence|]|]; nra.
Qed.
Lemma norm_pos v : v <> (0, 0) -> 0 < norm v.
Proof. intro N. apply sqrt_lt_R0, inner_pos, N. Qed.
Lemma norm_sq v : norm v * norm v = inner v v.
Proof. apply sqrt_sqrt, inner_nonneg. Qed.

Definition unit_of (v : pt) : pt := (fst v / norm v, snd v / norm v).
Lemma magnitude_fin v : magnitude exact (P v) = Fin (norm v).
Proof.
  unfold magnitude, P. cbn. ex. destruct (Rlt_dec _ 0) as [L|]; [|reflexivity].
  pose proof (inner_nonneg v) as K. unfold inner in K. lra.
Qed.
Lemma normalize_fin v : v <> (0, 0) -> normalize exact (P v) = P (unit_of v).
Proof.
  intro N. unfold normalize. rewrite magnitude_fin. pose proof (norm_pos v N).
  unfold P. cbn [vx vy]. rewrite !xdiv_fin by lra. reflexivity.
Qed.
Lemma unit_inner v : v <> (0, 0) -> inner (unit_of v) (unit_of v) = 1.
Proof.
  intro N. pose proof (norm_pos v N) as K. pose proof (norm_sq v) as Q. unfold inner, unit_of in *. cbn.
  replace (fst v / norm v * (fst v / norm v) + snd v / norm v * (snd v / norm v))
    with ((fst v * fst v + snd v * snd v) / (norm v * norm v)) by (field; lra).
  rewrite <- Q. field. lra.
Qed.
Lemma unit_nonzero v : v <> (0, 0) -> unit_of v <> (0, 0).
Proof. intros N E. pose proof (unit_inner v N) as K. rewrite E in K. unfold inner in K. cbn in K. lra. Qed.
Lemma unit_unit v : v <> (0, 0) -> unit_of (unit_of v) = unit_of v.
Proof.
  intro N. pose proof (unit_inner v N) as K. unfold unit_of at 1. unfold norm. rewrite K, sqrt_1.
  destruct (unit_of v). cbn. f_equal; field.
Qed.
Lemma unit_range v w : v <> (0, 0) -> w <> (0, 0) -> -1 <= inner (unit_of v) (unit_of w) <= 1.
Proof.
  intros N1 N2. pose proof (unit_inner v N1) as A. pose proof (unit_inner w N2) as B. unfold inner in *.
  destruct (unit_of v) as [a b]. destruct (unit_of w) as [c e]. cbn in *.
  assert ((a * c + b * e) * (a * c + b * e) <= 1).
  { replace 1 with ((a * a + b * b) * (c * c + e * e)) by (rewrite A, B; ring).
    assert (0 <= (a * e - b * c) * (a * e - b * c)) by apply Rle_0_sqr. lra. }
  nra.
Qed.
Lemma cross_inner v w : cross v w * cross v w + inner v w * inner v w = inner v v * inner w w.
Proof. unfold cross, inner. ring. Qed.

(** The angle between two directions, 0..PI. *)
Definition angle_between (v w : pt) : R := acos (inner (unit_of v) (unit_of w)).
Lemma dot_fin v w : dot exact (P v) (P w) = Fin (inner v w).
Proof. reflexivity. Qed.

Lemma fmod_pi x : 0 <= x < PI -> xfmod (Fin x) (Fin PI) = Fin x.
Proof.
  intro H. cbn. pose proof PI_RGT_0. destruct (Req_EM_T PI 0); [lra|]. f_equal.
  assert (0 <= x / PI < 1).
  { split; [apply Rmult_le_pos; [lra|]; left; now apply Rinv_0_lt_compat|].
    apply Rmult_lt_reg_r with PI; [lra|]. unfold Rdiv. rewrite Rmult_assoc, Rinv_l by lra. lra. }
  rewrite Ztrunc_floor by lra. rewrite (Zfloor_imp 0) by (cbn; lra). cbn. lra.
Qed.
Lemma fmod_pi_pi : xfmod (Fin PI) (Fin PI) = Fin 0.
Proof.
  cbn. pose proof PI_RGT_0. destruct (Req_EM_T PI 0); [lra|]. f_equal.
  replace (PI / PI) with (IZR 1) by (unfold Rdiv; rewrite Rinv_r; lra). rewrite Ztrunc_IZR. lra.
Qed.

(** The "parallel" test. *)
Lemma parallel_test v w : v <> (0, 0) -> w <> (0, 0) ->
  xlt (xfmod (xsub exact (m_pi exact) (xacos exact (dot exact (P (unit_of v)) (P (unit_of w))))) (m_pi exact)) (eps exact) = true <->
  angle_between v w = 0 \/ PI - angle_between v w < 1 / 1000.
Proof.
  intros N1 N2. pose proof (unit_range v w N1 N2) as R. rewrite dot_fin. unfold xacos.
  destruct (Rlt_dec _ (-1)); [lra|]. destruct (Rlt_dec 1 _); [lra|].
  unfold m_pi, eps. rewrite xsub_fin. ex. fold (angle_between v w).
  pose proof (acos_bound (inner (unit_of v) (unit_of w))) as B. fold (angle_between v w) in B.
  destruct (Req_dec (angle_between v w) 0) as [Z|Z].
  - rewrite Z, Rminus_0_r, fmod_pi_pi. rewrite xlt_fin. split; [intro; now left|lra].
  - rewrite fmod_pi by lra. rewrite xlt_fin. split; [intro; now right|intros [X|X]; [contradiction|exact X]].
Qed.

(** Parallel directions have a zero cross product. *)
Lemma cross_zero_test v w : v <> (0, 0) -> w <> (0, 0) -> cross (unit_of v) (unit_of w) = 0 ->
  angle_between v w = 0 \/ PI - angle_between v w < 1 / 1000.
Proof.
  intros N1 N2 C. pose proof (cross_inner (unit_of v) (unit_of w)) as K.
  rewrite C, !unit_inner in K by assumption.
  assert (E : inner (unit_of v) (unit_of w) = 1 \/ inner (unit_of v) (unit_of w) = -1).
  { set (z := inner (unit_of v) (unit_of w)) in *. assert ((z - 1) * (z + 1) = 0) by lra.
    apply Rmult_integral in H. destruct H; [left|right]; lra. }
  unfold angle_between. destruct E as [-> | ->]; [left; apply acos_1|right].
  assert (A : acos (-1) = PI) by (replace (-1) with (- (1)) by lra; rewrite acos_opp, acos_1; ring). rewrite A. lra.
Qed.

(** Cramer's rule. *)
Definition crossing (p0 v0 p1 v1 : pt) : pt :=
  let c0 := cross v0 p0 in let c1 := cross v1 p1 in let dd := cross v0 v1 in
  ((fst v1 * c0 - fst v0 * c1) / dd, (snd v1 * c0 - snd v0 * c1) / dd).

Lemma crossing_on p0 v0 p1 v1 : cross v0 v1 <> 0 ->
  on_line p0 v0 (crossing p0 v0 p1 v1) /\ on_line p1 v1 (crossing p0 v0 p1 v1).
Proof. intro N. unfold on_line, crossing, cross, minus in *. cbn. split; field; lra. Qed.
Lemma crossing_unique p0 v0 p1 v1 q : cross v0 v1 <> 0 -> on_line p0 v0 q -> on_line p1 v1 q -> q = crossing p0 v0 p1 v1.
Proof.
  intros N A B. unfold on_line, crossing, cross, minus in *. cbn in *. destruct q as [x y]. cbn in *.
  assert (A' : fst v0 * y - snd v0 * x = fst v0 * snd p0 - snd v0 * fst p0) by lra.
  assert (B' : fst v1 * y - snd v1 * x = fst v1 * snd p1 - snd v1 * fst p1) by lra.
  rewrite <- A', <- B'. f_equal; field; lra.
Qed.
Lemma on_line_scale p v q k : k <> 0 -> on_line p (fst v * k, snd v * k) q <-> on_line p v q.
Proof.
  intro K. unfold on_line. set (w := minus q p). unfold cross. cbn [fst snd].
  assert (E : fst v * k * snd w - snd v * k * fst w = k * (fst v * snd w - snd v * fst w)) by ring. rewrite E.
  split; intro H; [apply Rmult_integral in H; tauto|rewrite H; ring].
Qed.
Lemma on_line_unit p v q : v <> (0, 0) -> on_line p (unit_of v) q <-> on_line p v q.
Proof. intro N. apply (on_line_scale p v q (/ norm v)). pose proof (norm_pos v N). apply Rinv_neq_0_compat. lra. Qed.

Definition nearly_parallel (v w : pt) : Prop := angle_between v w = 0 \/ PI - angle_between v w < 1 / 1000.
Lemma intersect_none p0 v0 p1 v1 : v0 <> (0, 0) -> v1 <> (0, 0) -> nearly_parallel v0 v1 ->
  intersect_line_line exact (P p0) (P v0) (P p1) (P v1) = None.
Proof.
  intros N0 N1 T. unfold intersect_line_line. rewrite !normalize_fin by assumption.
  apply (parallel_test v0 v1 N0 N1) in T. now rewrite T.
Qed.
Lemma not_parallel_cross v0 v1 : v0 <> (0, 0) -> v1 <> (0, 0) -> ~ nearly_parallel v0 v1 -> cross (unit_of v0) (unit_of v1) <> 0.
Proof. intros N0 N1 T C. now apply T, cross_zero_test. Qed.
Lemma intersect_some p0 v0 p1 v1 : v0 <> (0, 0) -> v1 <> (0, 0) -> ~ nearly_parallel v0 v1 ->
  intersect_line_line exact (P p0) (P v0) (P p1) (P v1) = Some (P (crossing p0 (unit_of v0) p1 (unit_of v1))).
Proof.
  intros N0 N1 T. pose proof (not_parallel_cross v0 v1 N0 N1 T) as D.
  unfold intersect_line_line. rewrite !normalize_fin by assumption.
  assert (F : xlt (xfmod (xsub exact (m_pi exact) (xacos exact (dot exact (P (unit_of v0)) (P (unit_of v1))))) (m_pi exact)) (eps exact) = false).
  { apply not_true_is_false. intro K. apply T, (parallel_test v0 v1 N0 N1), K. }
  rewrite F. f_equal.
  unfold crossing, cross in *. unfold P. cbn [vx vy fst snd]. unfold xsub. cbn [xneg xmul xadd]. ex.
  set (a := fst (unit_of v0)) in *. set (b := snd (unit_of v0)) in *.
  set (c := fst (unit_of v1)) in *. set (e := snd (unit_of v1)) in *.
  assert (- b * c + - (a * - e) <> 0) by (intro Z; apply D; lra).
  rewrite !xdiv_fin by assumption. ex. f_equal; f_equal; field; repeat match goal with |- _ /\ _ => split end; intro Z; apply D; lra.
Qed.
Lemma parallel_dec v0 v1 : {nearly_parallel v0 v1} + {~ nearly_parallel v0 v1}.
Proof.
  destruct (Req_EM_T (angle_between v0 v1) 0) as [A|A]; [left; now left|].
  destruct (Rlt_dec (PI - angle_between v0 v1) (1 / 1000)) as [B|B]; [left; now right|].
  right. intros [X|X]; contradiction.
Qed.

(* ---------------- segments ---------------- *)
Lemma vsub_fin a b : vsub exact (P a) (P b) = P (minus a b).
Proof. reflexivity. Qed.
Lemma minus_nonzero s e : s <> e -> minus e s <> (0, 0).
Proof. destruct s as [a b], e as [a' b']. unfold minus. cbn. intros N E. injection E as A B. apply N. f_equal; lra. Qed.
Lemma angle_unit_r v w : w <> (0, 0) -> angle_between v (unit_of w) = angle_between v w.
Proof. intro N. unfold angle_between. now rewrite unit_unit. Qed.
Lemma parallel_unit_r v w : w <> (0, 0) -> nearly_parallel v (unit_of w) <-> nearly_parallel v w.
Proof. intro N. unfold nearly_parallel. now rewrite angle_unit_r. Qed.

Lemma outside_fin q s e : outside exact (P q) (P s) (P e) = false <-> near_box (1 / 1000) s e q.
Proof.
  unfold outside, near_box, eps. unfold P. cbn [vx vy]. rewrite !xmin_fin, !xmax_fin. unfold xsub. cbn [xneg xadd]. ex.
  rewrite !orb_false_iff, !xlt_fin_f. unfold Rmin, Rmax. split.
  - intros [[[A B] C] D].
    destruct (Rle_dec (fst s) (fst e)), (Rle_dec (snd s) (snd e)); repeat split;
      first [left; lra | right; lra].
  - intros ([A|A] & [B|B] & [C|C] & [D|D]);
    destruct (Rle_dec (fst s) (fst e)), (Rle_dec (snd s) (snd e)); repeat split; lra.
Qed.

Lemma line_lineseg_ok p0 v0 s e x : v0 <> (0, 0) -> s <> e ->
  intersect_line_lineseg exact (P p0) (P v0) (P s) (P e) = Some x ->
  exists q, x = P q /\ on_line p0 v0 q /\ on_line s (minus e s) q /\ near_box (1 / 1000) s e q.
Proof.
  intros N0 N. pose proof (minus_nonzero s e N) as N1. unfold intersect_line_lineseg.
  rewrite vsub_fin, normalize_fin by assumption.
  destruct (parallel_dec v0 (unit_of (minus e s))) as [T|T].
  - rewrite intersect_none by (try assumption; now apply unit_nonzero). discriminate.
  - rewrite intersect_some by (try assumption; now apply unit_nonzero).
    pose proof (not_parallel_cross _ _ N0 (unit_nonzero _ N1) T) as C.
    rewrite unit_unit in * by assumption.
    set (q := crossing _ _ _ _) in *. destruct (outside exact (P q) (P s) (P e)) eqn:O; [discriminate|].
    intro H. injection H as <-. exists q. split; [reflexivity|].
    destruct (crossing_on p0 (unit_of v0) s (unit_of (minus e s)) C) as [A B]. fold q in A, B.
    split; [now apply on_line_unit|]. split; [now apply on_line_unit|]. now apply outside_fin.
Qed.
Lemma on_segment_line s e q : on_segment s e q -> on_line s (minus e s) q.
Proof. intros (t & _ & ->). unfold on_line, cross, minus. cbn. ring. Qed.
Lemma on_segment_box s e q g : 0 <= g -> on_segment s e q -> near_box g s e q.
Proof.
  intros G (t & T & ->). unfold near_box. cbn.
  assert (A : forall a b, (a - g <= a + t * (b - a) \/ b - g <= a + t * (b - a)) /\ (a + t * (b - a) <= a + g \/ a + t * (b - a) <= b + g)).
  { intros a b. destruct (Rle_dec a b); (split; [|]); first [left; nra | right; nra]. }
  destruct (A (fst s) (fst e)), (A (snd s) (snd e)). auto.
Qed.
Lemma line_lineseg_complete p0 v0 s e q : v0 <> (0, 0) -> s <> e -> ~ nearly_parallel v0 (minus e s) ->
  on_line p0 v0 q -> on_segment s e q ->
  intersect_line_lineseg exact (P p0) (P v0) (P s) (P e) = Some (P q).
Proof.
  intros N0 N T A B. pose proof (minus_nonzero s e N) as N1. unfold intersect_line_lineseg.
  rewrite vsub_fin, normalize_fin by assumption.
  rewrite <- parallel_unit_r in T by assumption.
  rewrite intersect_some by (try assumption; now apply unit_nonzero).
  pose proof (not_parallel_cross _ _ N0 (unit_nonzero _ N1) T) as C.
  rewrite unit_unit in * by assumption.
  rewrite <- (crossing_unique p0 (unit_of v0) s (unit_of (minus e s)) q C)
    by (try apply on_line_unit; try assumption; now apply on_segment_line).
  replace (outside exact (P q) (P s) (P e)) with false; [reflexivity|]. symmetry. apply outside_fin, on_segment_box; [lra|assumption].
Qed.

Lemma seg_seg_ok s0 e0 s e x : s0 <> e0 -> s <> e ->
  intersect_lineseg_lineseg exact (P s0) (P e0) (P s) (P e) = Some x ->
  exists q, x = P q /\ on_line s0 (minus e0 s0) q /\ on_line s (minus e s) q /\ near_box (1 / 1000) s0 e0 q /\ near_box (1 / 1000) s e q.
Proof.
  intros N0' N. pose proof (minus_nonzero s0 e0 N0') as N0. pose proof (minus_nonzero s e N) as N1. unfold intersect_lineseg_lineseg.
  rewrite !vsub_fin, (normalize_fin (minus e s)) by assumption.
  destruct (parallel_dec (minus e0 s0) (unit_of (minus e s))) as [T|T].
  - rewrite intersect_none by (try assumption; now apply unit_nonzero). discriminate.
  - rewrite intersect_some by (try assumption; now apply unit_nonzero).
    pose proof (not_parallel_cross _ _ N0 (unit_nonzero _ N1) T) as C.
    rewrite unit_unit in * by assumption.
    set (q := crossing _ _ _ _) in *. destruct (outside exact (P q) (P s0) (P e0)) eqn:O0; [discriminate|].
    destruct (outside exact (P q) (P s) (P e)) eqn:O; [discriminate|]. cbn [orb].
    intro H. injection H as <-. exists q. split; [reflexivity|].
    destruct (crossing_on s0 (unit_of (minus e0 s0)) s (unit_of (minus e s)) C) as [A B]. fold q in A, B.
    split; [now apply on_line_unit|]. split; [now apply on_line_unit|]. now split; apply outside_fin.
Qed.
Lemma seg_seg_complete s0 e0 s e q : s0 <> e0 -> s <> e -> ~ nearly_parallel (minus e0 s0) (minus e s) ->
  on_segment s0 e0 q -> on_segment s e q ->
  intersect_lineseg_lineseg exact (P s0) (P e0) (P s) (P e) = Some (P q).
Proof.
  intros N0' N T A B. pose proof (minus_nonzero s0 e0 N0') as N0. pose proof (minus_nonzero s e N) as N1. unfold intersect_lineseg_lineseg.
  rewrite !vsub_fin, (normalize_fin (minus e s)) by assumption.
  rewrite <- parallel_unit_r in T by assumption.
  rewrite intersect_some by (try assumption; now apply unit_nonzero).
  pose proof (not_parallel_cross _ _ N0 (unit_nonzero _ N1) T) as C.
  rewrite unit_unit in * by assumption.
  rewrite <- (crossing_unique s0 (unit_of (minus e0 s0)) s (unit_of (minus e s)) q C)
    by (try apply on_line_unit; try assumption; now apply on_segment_line).
  replace (outside exact (P q) (P s0) (P e0)) with false by (symmetry; apply outside_fin, on_segment_box; [lra|assumption]).
  replace (outside exact (P q) (P s) (P e)) with false by (symmetry; apply outside_fin, on_segment_box; [lra|assumption]).
  reflexivity.
Qed.

(* ---------------- edges of a polygon ---------------- *)
Lemma collect_flat {A B} (f : A -> option B) l :
  collect f l = flat_map (fun a => match f a with Some b => [b] | None => [] end) l.
Proof. induction l as [|a l IH]; cbn; [reflexivity|]. rewrite IH. destruct (f a); reflexivity. Qed.
Lemma combine_seq {A B} (u : list A) (v : list B) (da : A) (db : B) : length u = length v ->
  combine u v = map (fun k => (nth k u da, nth k v db)) (seq 0 (length u)).
Proof.
  revert v. induction u as [|a u IH]; intros [|b v] L; try discriminate; [reflexivity|].
  cbn [combine length seq map nth]. f_equal. rewrite <- seq_shift, map_map. apply IH. now injection L.
Qed.
Lemma edges_seq v dv : edges v = map (fun k => (nth k v dv, nth ((k + 1) mod length v) v dv)) (seq 0 (length v)).
Proof.
  destruct v as [|p r]; [reflexivity|]. unfold edges.
  rewrite (combine_seq _ _ dv dv) by (rewrite app_length; cbn; lia).
  apply map_ext_in. intros k K. apply in_seq in K. f_equal. cbn [length] in *.
  destruct (Nat.eq_dec k (length r)) as [->|E].
  - replace (length r + 1)%nat with (S (length r)) by lia. rewrite Nat.mod_same by lia.
    rewrite app_nth2, Nat.sub_diag by lia. reflexivity.
  - rewrite Nat.mod_small by lia. rewrite app_nth1 by lia. replace (k + 1)%nat with (S k) by lia. reflexivity.
Qed.

(* ---------------- hatching ---------------- *)
Lemma collect_in {A B} (f : A -> option B) l b : In b (collect f l) <-> exists a, In a l /\ f a = Some b.
Proof.
  rewrite collect_flat, in_flat_map. split.
  - intros (a & I & J). exists a. split; [assumption|]. destruct (f a); [now destruct J as [->|[]]|contradiction].
  - intros (a & I & J). exists a. split; [assumption|]. rewrite J. now left.
Qed.
Lemma edges_in v a b : In (a, b) (edges v) -> exists k, (k < length v)%nat /\
  forall dv, a = nth k v dv /\ b = nth ((k + 1) mod length v) v dv.
Proof.
  destruct v as [|p r]; [intros []|]. intro H. rewrite (edges_seq _ p) in H.
  apply in_map_iff in H. destruct H as (k & E & K). apply in_seq in K. 
  pose proof (f_equal fst E) as E1. pose proof (f_equal snd E) as E2. cbn [fst snd] in E1, E2. rewrite <- E1, <- E2.
  exists k. split; [lia|]. intro dv. split; apply nth_indep; [lia|]. apply Nat.mod_upper_bound. cbn. lia.
Qed.

(** The sum of all |x| + |y|: a bound on every coordinate. *)
Fixpoint spread (vs : list pt) : R :=
  match vs with [] => 0 | q :: r => Rabs (fst q) + Rabs (snd q) + spread r end.
Lemma spread_nonneg vs : 0 <= spread vs.
Proof. induction vs as [|q vs IH]; cbn; [lra|]. pose proof (Rabs_pos (fst q)). pose proof (Rabs_pos (snd q)). lra. Qed.
Lemma spread_in vs q : In q vs -> Rabs (fst q) + Rabs (snd q) <= spread vs.
Proof.
  induction vs as [|a vs IH]; [intros []|]. intros [->|H]; cbn.
  - pose proof (spread_nonneg vs). lra.
  - specialize (IH H). pose proof (Rabs_pos (fst a)). pose proof (Rabs_pos (snd a)). lra.
Qed.
Lemma near_box_bound vs s e q g : 0 <= g -> In s vs -> In e vs -> near_box g s e q ->
  Rabs (fst q) <= spread vs + g /\ Rabs (snd q) <= spread vs + g.
Proof.
  intros G S E (A & B & C & D). apply spread_in in S. apply spread_in in E.
  pose proof (Rabs_pos (fst s)). pose proof (Rabs_pos (snd s)). pose proof (Rabs_pos (fst e)). pose proof (Rabs_pos (snd e)).
  assert (F : forall z, - Rabs z <= z <= Rabs z) by (intro z; unfold Rabs; destruct (Rcase_abs z); lra).
  pose proof (F (fst s)). pose proof (F (fst e)). pose proof (F (snd s)). pose proof (F (snd e)).
  split; apply Rabs_le; split; lra.
Qed.

(** The vertices of the model polygon: real points, and no edge of length zero. *)
Definition proper (vs : list pt) : Prop :=
  forall k, (k < length vs)%nat -> nth k vs (0, 0) <> nth ((k + 1) mod length vs) vs (0, 0).

Lemma poly_line_ok vs p0 v0 x : v0 <> (0, 0) -> proper vs ->
  In x (intersect_poly_line exact (map P vs) (P p0) (P v0)) ->
  exists s e q, In s vs /\ In e vs /\ s <> e /\ x = P q /\ on_line p0 v0 q /\ on_line s (minus e s) q /\ near_box (1 / 1000) s e q.
Proof.
  intros N0 N H. apply collect_in in H. destruct H as ([a b] & I & J). apply edges_in in I.
  destruct I as (k & K & I). specialize (I (P (0, 0))). rewrite map_length, !map_nth in *. destruct I as [-> ->].
  cbn [fst snd] in J. specialize (N k K). apply line_lineseg_ok in J; [|assumption|assumption].
  destruct J as (q & -> & A & B & C). exists (nth k vs (0, 0)), (nth ((k + 1) mod length vs) vs (0, 0)), q.
  split; [now apply nth_In|]. split; [apply nth_In, Nat.mod_upper_bound; lia|]. auto.
Qed.

Lemma mean_fin vs : vs <> [] -> exists o, mean exact (map P vs) = P o.
Proof.
  intro N. unfold mean.
  assert (F : forall l a, exists b, fold_left (vadd exact) (map P l) (P a) = P b).
  { induction l as [|q l IH]; intro a; [now exists a|]. cbn [map fold_left].
    destruct (IH (fst a + fst q, snd a + snd q)) as [b E]. exists b. exact E. }
  destruct (F vs (0, 0)) as [b E]. change (mk_vec2 (Fin 0) (Fin 0)) with (P (0, 0)). rewrite E.
  rewrite map_length. rewrite xdiv_fin by (apply not_0_INR; destruct vs; [congruence|cbn; lia]).
  eexists (_, _). reflexivity.
Qed.

Definition dir_of (a : R) : pt := (cos (a * PI / 180), - sin (a * PI / 180)).
Lemma dir_nonzero a : dir_of a <> (0, 0).
Proof. unfold dir_of. intro E. injection E as A B. pose proof (sin2_cos2 (a * PI / 180)) as K. unfold Rsqr in K. nra. Qed.
Lemma dir_ortho a : dir_of (a + 90) = (- sin (a * PI / 180), - cos (a * PI / 180)).
Proof.
  unfold dir_of. replace ((a + 90) * PI / 180) with (PI / 2 + a * PI / 180) by field.
  f_equal; [|f_equal].
  - rewrite cos_plus, cos_PI2, sin_PI2. ring.
  - rewrite sin_plus, cos_PI2, sin_PI2. ring.
Qed.
(** The signed distance from [o] along the normal of the stripes. *)
Definition depth (a : R) (o q : pt) : R := inner (dir_of (a + 90)) (minus q o).
Lemma depth_line a o D q : on_line (plus o (fst (dir_of (a + 90)) * D, snd (dir_of (a + 90)) * D)) (dir_of a) q -> depth a o q = D.
Proof.
  unfold on_line, depth, cross, minus, inner, plus. rewrite dir_ortho. unfold dir_of. cbn.
  pose proof (sin2_cos2 (a * PI / 180)) as K. unfold Rsqr in K.
  set (s := sin (a * PI / 180)) in *. set (c := cos (a * PI / 180)) in *. intro H.
  replace D with ((s * s + c * c) * D) by (rewrite K; ring). nra.
Qed.
Lemma depth_bound a o q : Rabs (depth a o q) <= Rabs (fst q) + Rabs (snd q) + (Rabs (fst o) + Rabs (snd o)).
Proof.
  unfold depth, inner, minus. rewrite dir_ortho. cbn.
  set (s := sin (a * PI / 180)). set (c := cos (a * PI / 180)).
  assert (S : Rabs (- s) <= 1) by (rewrite Rabs_Ropp; apply Rabs_le, SIN_bound).
  assert (C : Rabs (- c) <= 1) by (rewrite Rabs_Ropp; apply Rabs_le, COS_bound).
  eapply Rle_trans; [apply Rabs_triang|]. rewrite !Rabs_mult.
  assert (A : Rabs (fst q - fst o) <= Rabs (fst q) + Rabs (fst o)) by (eapply Rle_trans; [apply Rabs_triang|rewrite Rabs_Ropp; lra]).
  assert (B : Rabs (snd q - snd o) <= Rabs (snd q) + Rabs (snd o)) by (eapply Rle_trans; [apply Rabs_triang|rewrite Rabs_Ropp; lra]).
  pose proof (Rabs_pos (fst q - fst o)). pose proof (Rabs_pos (snd q - snd o)).
  pose proof (Rabs_pos (- s)). pose proof (Rabs_pos (- c)). nra.
Qed.

(** The lines of a stripe. *)
Lemma stripe_ok vs o a i s stride offset width x : proper vs ->
  In x (stripe exact (map P vs) (P o) (P (dir_of a)) (P (dir_of (a + 90))) i (Fin s) (Fin stride) (Fin offset) (Fin width)) ->
  exists b e q, In b vs /\ In e vs /\ x = P q /\ on_line b (minus e b) q /\ near_box (1 / 1000) b e q /\
    (depth a o q = INR i * s * stride + offset + width / 2 \/ depth a o q = INR i * s * stride + offset - width / 2).
Proof.
  intros N H. unfold stripe in H. apply in_app_or in H.
  assert (L : forall w, vadd exact (P o) (vmul exact (P (dir_of (a + 90)))
            (xadd exact (xadd exact (xmul exact (xmul exact (Fin (INR i)) (Fin s)) (Fin stride)) (Fin offset)) (xmul exact (Fin width) (Fin w)))) =
          P (plus o (fst (dir_of (a + 90)) * (INR i * s * stride + offset + width * w), snd (dir_of (a + 90)) * (INR i * s * stride + offset + width * w)))) by reflexivity.
  rewrite !L in H.
  destruct H as [H|H]; apply poly_line_ok in H; try assumption; try apply dir_nonzero;
    destruct H as (b & e & q & B & E & _ & X & O1 & O2 & Nb); apply depth_line in O1; exists b, e, q; intuition lra.
Qed.

Lemma filter_nil {A} (f : A -> bool) l : (forall a, In a l -> f a = false) -> filter f l = [].
Proof. induction l as [|a l IH]; intro H; [reflexivity|]. cbn. rewrite H by now left. apply IH. intros; apply H. now right. Qed.

Lemma hatch_loop_ends (sc : list vec2 -> list vec2) vs o a stride offset width : proper vs -> stride <> 0 ->
  exists N, forall fuel i p, (i <= N)%nat -> (N < i + fuel)%nat ->
    exists r, hatch_loop exact sc fuel i (map P vs) (P o) (P (dir_of a)) (P (dir_of (a + 90))) (Fin stride) (Fin offset) (Fin width) p = Ret r.
Proof.
  intros Pr S.
  set (B := 2 * (spread vs + 1) + (Rabs (fst o) + Rabs (snd o)) + Rabs offset + Rabs width).
  pose proof (Rabs_pos_lt _ S) as S'.
  destruct (archimed (B / Rabs stride)) as [U _].
  set (N := Z.to_nat (up (B / Rabs stride))).
  assert (HN : B < INR N * Rabs stride).
  { apply Rmult_lt_reg_r with (/ Rabs stride); [now apply Rinv_0_lt_compat|].
    rewrite Rmult_assoc, Rinv_r by lra. rewrite Rmult_1_r. eapply Rlt_le_trans; [exact U|].
    unfold N. rewrite INR_IZR_INZ. apply IZR_le. lia. }
  assert (HN1 : (1 <= N)%nat).
  { destruct N; [|lia]. cbn in HN. exfalso. pose proof (spread_nonneg vs). pose proof (Rabs_pos (fst o)). pose proof (Rabs_pos (snd o)).
    pose proof (Rabs_pos offset). pose proof (Rabs_pos width). unfold B in HN. lra. }
  exists N. induction fuel as [|fuel IH]; intros i p I F; [lia|]. cbn [hatch_loop].
  set (drawn := filter _ _). destruct drawn as [|d0 dr] eqn:Dr; [eexists; reflexivity|].
  destruct (Nat.eq_dec i N) as [->|E]; [|apply IH; lia].
  exfalso. assert (Z : drawn = []); [|rewrite Dr in Z; discriminate].
  unfold drawn. apply filter_nil. intros v V. apply in_map_iff in V. destruct V as (s & <- & V).
  apply Nat.leb_gt.
  assert (SS : exists z, s = Fin z /\ Rabs z = 1).
  { destruct N; [lia|]. cbn in V. destruct V as [<-|[<-|[]]]; eexists; (split; [reflexivity|]); [rewrite Rabs_left; lra|rewrite Rabs_right; lra]. }
  destruct SS as (z & -> & Z).
  destruct (stripe _ _ _ _ _ _ _ _ _ _) as [|x l] eqn:ST; [cbn; lia|]. exfalso.
  assert (X : In x (stripe exact (map P vs) (P o) (P (dir_of a)) (P (dir_of (a + 90))) N (Fin z) (Fin stride) (Fin offset) (Fin width))) by (rewrite ST; now left).
  apply stripe_ok in X; [|assumption]. destruct X as (b & e & q & Ib & Ie & _ & _ & Nb & D).
  apply (near_box_bound vs) in Nb; try assumption; [|lra]. pose proof (depth_bound a o q) as DB.
  assert (T : INR N * Rabs stride <= Rabs (depth a o q) + Rabs offset + Rabs width).
  { replace (INR N * Rabs stride) with (Rabs (INR N * z * stride)).
    2:{ rewrite !Rabs_mult, Z, (Rabs_pos_eq (INR N)) by apply pos_INR. ring. }
    destruct D as [D|D]; rewrite D; clear; unfold Rabs;
      repeat match goal with |- context [Rcase_abs ?u] => destruct (Rcase_abs u) end; lra. }
  unfold B in HN. lra.
Qed.
