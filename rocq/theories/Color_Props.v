(** Properties C39 to C41 and C59. *)
From Verif Require Import Base Sexpr_Model Dispatch_Model Num Num_Facts Units_Model Str_Model Color_Model Color_Spec Color_Proofs.
Local Open Scope R_scope.

(* ==================== C39 ==================== *)
(** C39: "#" and six hexadecimal digits are read as red, green and blue in 255ths (as floats),
    whatever the case of the digits, and the printed colour is the same text in lower case. *)
Theorem C39_round_trip : forall a1 a2 b1 b2 c1 c2 n1 n2 n3 n4 n5 n6 old,
  hexd a1 n1 -> hexd a2 n2 -> hexd b1 n3 -> hexd b2 n4 -> hexd c1 n5 -> hexd c2 n6 ->
  let q := mk_color (part (16 * n1 + n2) 255) (part (16 * n3 + n4) 255) (part (16 * n5 + n6) 255) (Fin 1) in
  parse rnd32 ["#"%char; a1; a2; b1; b2; c1; c2] old = Ret (true, q) /\
  to_hex_str rnd64 3 q = Ret ["#"%char; low n1; low n2; low n3; low n4; low n5; low n6].
Proof.
  intros a1 a2 b1 b2 c1 c2 n1 n2 n3 n4 n5 n6 old A1 A2 B1 B2 C1 C2 q.
  assert (L : forall c n, hexd c n -> (n < 16)%nat) by (intros c n H; now apply hexd_inv in H).
  split.
  - unfold parse. rewrite begins_hash. cbn [length]. unfold parse_hex. cbn [length Nat.eqb negb]. unfold substr.
    cbn [skipn firstn]. rewrite (component_two a1 n1 a2 n2), (component_two b1 n3 b2 n4), (component_two c1 n5 c2 n6) by auto.
    reflexivity.
  - unfold to_hex_str. cbn [Nat.ltb Nat.leb firstn hex_channels q c_r c_g c_b]. unfold part.
    pose proof (L _ _ A1). pose proof (L _ _ A2). pose proof (L _ _ B1). pose proof (L _ _ B2). pose proof (L _ _ C1). pose proof (L _ _ C2).
    rewrite !level_255 by lia. cbn [bind]. rewrite !hex_int_byte by auto. reflexivity.
Qed.
Print Assumptions C39_round_trip.
Example C39_round_trip_case :
  parse rnd32 (s_ "#4572A7") black = Ret (true, mk_color (part 69 255) (part 114 255) (part 167 255) (Fin 1)) /\
  to_hex_str rnd64 3 (mk_color (part 69 255) (part 114 255) (part 167 255) (Fin 1)) = Ret (s_ "#4572a7").
Proof. apply (C39_round_trip "4" "5" "7" "2" "A" "7" 4 5 7 2 10 7); vm_compute; auto. Qed.

(** With an alpha channel: eight digits. *)
Theorem C39_round_trip_alpha : forall a1 a2 b1 b2 c1 c2 d1 d2 n1 n2 n3 n4 n5 n6 n7 n8 old,
  hexd a1 n1 -> hexd a2 n2 -> hexd b1 n3 -> hexd b2 n4 -> hexd c1 n5 -> hexd c2 n6 -> hexd d1 n7 -> hexd d2 n8 ->
  let q := mk_color (part (16 * n1 + n2) 255) (part (16 * n3 + n4) 255) (part (16 * n5 + n6) 255) (part (16 * n7 + n8) 255) in
  parse rnd32 ["#"%char; a1; a2; b1; b2; c1; c2; d1; d2] old = Ret (true, q) /\
  to_hex_str rnd64 4 q = Ret ["#"%char; low n1; low n2; low n3; low n4; low n5; low n6; low n7; low n8].
Proof.
  intros a1 a2 b1 b2 c1 c2 d1 d2 n1 n2 n3 n4 n5 n6 n7 n8 old A1 A2 B1 B2 C1 C2 D1 D2 q.
  assert (L : forall c n, hexd c n -> (n < 16)%nat) by (intros c n H; now apply hexd_inv in H).
  split.
  - unfold parse. rewrite begins_hash. cbn [length]. unfold parse_hex_alpha. cbn [length Nat.eqb negb]. unfold substr.
    cbn [skipn firstn]. rewrite (component_two a1 n1 a2 n2), (component_two b1 n3 b2 n4), (component_two c1 n5 c2 n6), (component_two d1 n7 d2 n8) by auto.
    reflexivity.
  - unfold to_hex_str. cbn [Nat.ltb Nat.leb firstn hex_channels q c_r c_g c_b c_a]. unfold part.
    pose proof (L _ _ A1). pose proof (L _ _ A2). pose proof (L _ _ B1). pose proof (L _ _ B2). pose proof (L _ _ C1). pose proof (L _ _ C2).
    pose proof (L _ _ D1). pose proof (L _ _ D2).
    rewrite !level_255 by lia. cbn [bind]. rewrite !hex_int_byte by auto. reflexivity.
Qed.
Print Assumptions C39_round_trip_alpha.

(** The short form: each digit stands for itself twice. *)
Theorem C39_short : forall a b c n1 n2 n3 old, hexd a n1 -> hexd b n2 -> hexd c n3 ->
  let q := mk_color (part n1 15) (part n2 15) (part n3 15) (Fin 1) in
  parse rnd32 ["#"%char; a; b; c] old = Ret (true, q) /\
  to_hex_str rnd64 3 q = Ret ["#"%char; low n1; low n1; low n2; low n2; low n3; low n3].
Proof.
  intros a b c n1 n2 n3 old A B C q.
  assert (L : forall c n, hexd c n -> (n < 16)%nat) by (intros x n H; now apply hexd_inv in H).
  split.
  - unfold parse. rewrite begins_hash. cbn [length]. unfold parse_hex_short. cbn [length Nat.eqb negb]. unfold substr.
    cbn [skipn firstn]. rewrite (component_one a n1), (component_one b n2), (component_one c n3) by auto. reflexivity.
  - unfold to_hex_str. cbn [Nat.ltb Nat.leb firstn hex_channels q c_r c_g c_b]. unfold part.
    pose proof (L _ _ A). pose proof (L _ _ B). pose proof (L _ _ C).
    rewrite !level_15 by lia. cbn [bind]. replace (17 * n1)%nat with (16 * n1 + n1)%nat by lia.
    replace (17 * n2)%nat with (16 * n2 + n2)%nat by lia. replace (17 * n3)%nat with (16 * n3 + n3)%nat by lia.
    rewrite !hex_int_byte by auto. reflexivity.
Qed.
Print Assumptions C39_short.
Example C39_short_case : to_hex_str rnd64 3 (mk_color (part 15 15) (part 8 15) (part 0 15) (Fin 1)) = Ret (s_ "#ff8800").
Proof. apply (C39_short "f" "8" "0" 15 8 0 black); vm_compute; auto. Qed.

(** Rejection, the part that holds: a text that does not start with "#" or has a wrong length
    is refused and the colour left alone. Partial: see the next theorem. *)
Theorem C39_reject_partial : forall f s old,
  (forall r, s <> "#"%char :: r) \/ ~ (length s = 4 \/ length s = 7 \/ length s = 9)%nat -> parse f s old = Ret (false, old).
Proof.
  intros f s old H. unfold parse. destruct (begins_with s (s_ "#")) eqn:B; auto.
  destruct H as [H|H].
  - exfalso. unfold begins_with in B. destruct s as [|x s]; [discriminate|]. cbn [length s_ list_ascii_of_string Nat.ltb Nat.leb firstn] in B.
    destruct (str_eqb_spec [x] ["#"%char]) as [Q|Q]; [|discriminate]. injection Q as ->. now apply (H s).
  - do 10 (destruct s as [|? s]; [first [reflexivity | exfalso; cbn in H; tauto]|]). reflexivity.
Qed.
Print Assumptions C39_reject_partial.
Example C39_reject_case : parse rnd32 (s_ "red") black = Ret (false, black) /\ parse rnd32 (s_ "#12345") black = Ret (false, black).
Proof. split; apply C39_reject_partial; [left; intros r Q; discriminate Q|right; cbn; lia]. Qed.

(** Refuted: a "#" text of an accepted length whose digits are no digits raises an exception,
    which no caller of the reader catches, instead of being refused... *)
Theorem C39_throw_refuted : forall f old,
  parse f (s_ "#ggg") old = Throw /\ parse f (s_ "#orange") old = Throw /\
  forall s, expr_to_color f s [] [EVal (s_ "#ggg")] old = Throw.
Proof. intros. repeat split. Qed.
Print Assumptions C39_throw_refuted.
(** ... and signs, white space and trailing garbage are accepted as digits: here a negative
    component, printed as eight digits. *)
Theorem C39_garbage_refuted : forall f old, f 0 = 0 ->
  (exists q, parse f (s_ "#0z+0 0") old = Ret (true, q) /\ q = black) /\
  (exists x, parse rnd32 (s_ "#-f0000") old = Ret (true, mk_color (Fin x) (Fin (rnd32 (0/255))) (Fin (rnd32 (0/255))) (Fin 1)) /\ x < 0).
Proof.
  intros f old F. split.
  - eexists. split; [|reflexivity].
    change (s_ "#0z+0 0") with ("#"%char :: s_ "0z+0 0"). unfold parse. rewrite begins_hash. unfold parse_hex, hex_component, substr.
    cbn [s_ list_ascii_of_string length firstn skipn Nat.eqb negb].
    replace (stoi 16 ["0"%char; "z"%char]) with (@Ret Z 0%Z) by reflexivity.
    replace (stoi 16 ["+"%char; "0"%char]) with (@Ret Z 0%Z) by reflexivity.
    replace (stoi 16 [" "%char; "0"%char]) with (@Ret Z 0%Z) by reflexivity.
    cbn [bind]. rewrite xdiv_fin by lra. unfold Rdiv. rewrite Rmult_0_l, F. reflexivity.
  - eexists. split.
    + change (s_ "#-f0000") with ("#"%char :: s_ "-f0000"). unfold parse. rewrite begins_hash. unfold parse_hex, hex_component, substr.
      cbn [s_ list_ascii_of_string length firstn skipn Nat.eqb negb].
      replace (stoi 16 ["-"%char; "f"%char]) with (@Ret Z (-15)%Z) by reflexivity.
      replace (stoi 16 ["0"%char; "0"%char]) with (@Ret Z 0%Z) by reflexivity.
      cbn [bind]. rewrite !xdiv_fin by lra. reflexivity.
    + apply Rle_lt_trans with (rnd32 (IZR (-1) * bpow radix2 (-5))).
      * apply rnd32_mono. cbn. lra.
      * rewrite rnd32_id; [cbn; lra|]. apply is32_int; [reflexivity|lia].
Qed.
Print Assumptions C39_garbage_refuted.

(** Whatever the text, parsing ends normally or with an exception: no undefined behaviour. *)
Theorem C39_total : forall f s old, (exists r, parse f s old = Ret r) \/ parse f s old = Throw.
Proof.
  intros f s old.
  assert (H : forall t k, (exists x, hex_component f t k = Ret x) \/ hex_component f t k = Throw).
  { intros t k. unfold hex_component, stoi, sto. destruct (strtol 16 t) as [v|]; [|now right].
    destruct (_ && _)%bool; [left; eexists; reflexivity|now right]. }
  unfold parse. destruct (begins_with s (s_ "#")); [|left; eauto].
  assert (G : forall g : str -> color -> outcome (bool * color), (forall t, (exists r, g t old = Ret r) \/ g t old = Throw) ->
    (exists r, g s old = Ret r) \/ g s old = Throw) by (intros g Hg; apply Hg).
  assert (G4 : (exists r, parse_hex_short f s old = Ret r) \/ parse_hex_short f s old = Throw).
  { unfold parse_hex_short. destruct (negb _); [left; eauto|].
    destruct (H (substr s 1 1) 15) as [(x & ->)| ->]; [|now right]. cbn [bind].
    destruct (H (substr s 2 1) 15) as [(y & ->)| ->]; [|now right]. cbn [bind].
    destruct (H (substr s 3 1) 15) as [(z & ->)| ->]; [|now right]. left; cbn; eauto. }
  assert (G7 : (exists r, parse_hex f s old = Ret r) \/ parse_hex f s old = Throw).
  { unfold parse_hex. destruct (negb _); [left; eauto|].
    destruct (H (substr s 1 2) 255) as [(x & ->)| ->]; [|now right]. cbn [bind].
    destruct (H (substr s 3 2) 255) as [(y & ->)| ->]; [|now right]. cbn [bind].
    destruct (H (substr s 5 2) 255) as [(z & ->)| ->]; [|now right]. left; cbn; eauto. }
  assert (G9 : (exists r, parse_hex_alpha f s old = Ret r) \/ parse_hex_alpha f s old = Throw).
  { unfold parse_hex_alpha. destruct (negb _); [left; eauto|].
    destruct (H (substr s 1 2) 255) as [(x & ->)| ->]; [|now right]. cbn [bind].
    destruct (H (substr s 3 2) 255) as [(y & ->)| ->]; [|now right]. cbn [bind].
    destruct (H (substr s 5 2) 255) as [(z & ->)| ->]; [|now right]. cbn [bind].
    destruct (H (substr s 7 2) 255) as [(w & ->)| ->]; [|now right]. left; cbn; eauto. }
  clear G H. destruct (length s) as [|[|[|[|[|[|[|[|[|[|k]]]]]]]]]]; auto; left; eauto.
Qed.
Print Assumptions C39_total.

(* ==================== C40 ==================== *)
(** C40: between two neighbouring stops of a gradient, in exact arithmetic, every component
    lies on the straight line between theirs. The stops can be given in any order. *)
Theorem C40_gradient_partial : forall stod l L l1 l2 k0 c0 k1 c1 value v n,
  sorted_of (to_stops l) L -> L = to_stops (l1 ++ (k0, c0) :: (k1, c1) :: l2) ->
  stod value = Some (Fin v, n) -> k0 < limited v <= k1 ->
  exists c, gradient exact stod L value = Ret (col c) /\ each (on_line k0 k1 (limited v)) c0 c1 c.
Proof.
  intros stod l L l1 l2 k0 c0 k1 c1 value v n S E SV [V1 V2]. apply sorted_of_iff in S as (l' & EL & _ & O).
  assert (EQ : l' = l1 ++ (k0, c0) :: (k1, c1) :: l2).
  { rewrite EL in E. unfold to_stops in E. revert E. apply (fun H => H). clear. intro E.
    revert E. generalize (l1 ++ (k0, c0) :: (k1, c1) :: l2). induction l' as [|[k c] l' IH]; intros [|[q e] m] E; try discriminate; auto.
    cbn in E. injection E. intros E1 E2 E3 E4 E5 E6. destruct c, e. cbn in *. subst. f_equal. now apply IH. }
  subst l' L. clear E.
  assert (F : Forall (fun p => fst p < limited v) (l1 ++ [(k0, c0)])).
  { pose proof (sorted_prefix l1 _ (k0, c0) O) as P. apply Forall_app. split.
    - eapply Forall_impl; [|exact P]. cbn. intros. lra.
    - constructor; auto. }
  pose proof (gradient_at exact stod (l1 ++ [(k0, c0)]) k1 c1 l2 value v n SV F V2) as G.
  rewrite rev_app_distr in G. cbn [rev app] in G. replace ((l1 ++ [(k0, c0)]) ++ (k1, c1) :: l2) with (l1 ++ (k0, c0) :: (k1, c1) :: l2) in G
    by (rewrite <- app_assoc; reflexivity). rewrite G. clear G.
  destruct (Rle_dec k1 (limited v)) as [Q|Q].
  - assert (limited v = k1) as EV by lra. exists c1. split.
    + unfold mix, from_rgba, col. cbn. unfold exact. f_equal. f_equal; f_equal; lra.
    + unfold each, on_line. rewrite EV. repeat split; field; lra.
  - set (w := (limited v - k0) / (k1 - k0)).
    exists (mk_rgba (q_r c0 + (q_r c1 - q_r c0) * w) (q_g c0 + (q_g c1 - q_g c0) * w) (q_b c0 + (q_b c1 - q_b c0) * w) (q_a c0 + (q_a c1 - q_a c0) * w)).
    split; [|repeat split].
    assert (W : xdiv exact (xsub exact (Fin (limited v)) (Fin k0)) (xsub exact (Fin k1) (Fin k0)) = Fin w)
      by (rewrite !xsub_fin, xdiv_fin by (unfold exact; lra); reflexivity).
    cbv zeta. rewrite W.
    unfold mix, from_rgba, col. cbn. unfold exact. f_equal. f_equal; f_equal; lra.
Qed.
Print Assumptions C40_gradient_partial.
Example C40_gradient_case : forall stod, stod (s_ "0.25") = Some (Fin (/ 4), 4%nat) ->
  let cs := [(1, mk_rgba 1 0 0 1); (0, mk_rgba 0 0 1 1)] in
  sorted_of (to_stops cs) (to_stops (rev cs)) /\
  exists c, gradient exact stod (to_stops (rev cs)) (s_ "0.25") = Ret (col c) /\ c = mk_rgba (/ 4) 0 (3 / 4) 1.
Proof.
  intros stod H cs. assert (S : sorted_of (to_stops cs) (to_stops (rev cs))).
  { apply sorted_of_iff. exists (rev cs). split; auto. split; [apply Permutation_rev|].
    cbn. repeat constructor; cbn; lra. }
  split; auto. assert (LV : limited (/ 4) = / 4) by (unfold limited; rewrite Rmin_right, Rmax_right; lra).
  destruct (C40_gradient_partial stod cs _ [] [] 0 (mk_rgba 0 0 1 1) 1 (mk_rgba 1 0 0 1) _ _ _ S eq_refl H) as (c & G & E); [lra|].
  exists c. split; auto. destruct E as (E1 & E2 & E3 & E4). unfold on_line in *. rewrite LV in *. destruct c as [r g b a]. cbn in E1, E2, E3, E4.
  f_equal; lra.
Qed.

(** At a stop, in binary64, the colour is exactly that of the stop. *)
Theorem C40_at_stop : forall stod l L l1 l2 k c value v n,
  sorted_of (to_stops l) L -> L = to_stops (l1 ++ (k, c) :: l2) -> (forall p, In p l1 -> fst p < k) ->
  doubles c -> stod value = Some (Fin v, n) -> limited v = k ->
  gradient rnd64 stod L value = Ret (col c).
Proof.
  intros stod l L l1 l2 k c value v n S -> F (D1 & D2 & D3 & D4) SV V.
  assert (F' : Forall (fun p => fst p < limited v) l1) by (apply Forall_forall; intros p P; rewrite V; auto).
  pose proof (gradient_at rnd64 stod l1 k c l2 value v n SV F' ltac:(lra)) as G.
  destruct (match rev l1 with [] => (0, mk_rgba 0 0 0 1) | p :: _ => p end) as [k0 c0]. rewrite G.
  destruct (Rle_dec k (limited v)); [|lra]. f_equal. unfold mix, from_rgba, col. cbn [c_r c_g c_b c_a].
  rewrite !mix_end, !rnd64_id by auto. reflexivity.
Qed.
Print Assumptions C40_at_stop.

(** In binary64 the components stay in [0, 1] when those of the stops are: no overshoot from
    rounding. (For values up to the last stop.) *)
Theorem C40_range_partial : forall stod l L value v n, sorted_of (to_stops l) L -> l <> [] ->
  (forall p, In p l -> is64 (fst p) /\ unit_interval (snd p)) ->
  stod value = Some (Fin v, n) -> is64 v -> (exists p, In p l /\ limited v <= fst p) ->
  exists c, gradient rnd64 stod L value = Ret (col c) /\ unit_interval c.
Proof.
  intros stod l L value v n S NE P SV V64 (pm & PM & LM). apply sorted_of_iff in S as (l' & -> & PE & O).
  assert (P' : forall p, In p l' -> is64 (fst p) /\ unit_interval (snd p)) by (intros p I; apply P; eapply Permutation_in; [apply Permutation_sym, PE|auto]).
  assert (I' : In pm l') by (eapply Permutation_in; eauto). clear PE P PM NE.
  (* the first stop that is not below v *)
  assert (SPL : exists l1 k c l2, l' = l1 ++ (k, c) :: l2 /\ Forall (fun p => fst p < limited v) l1 /\ limited v <= k).
  { clear P' O. induction l' as [|[k c] l' IH]; [contradiction|]. destruct (Rlt_or_le k (limited v)) as [Q|Q].
    - destruct I' as [<-|I']; [cbn [fst] in LM; lra|]. destruct (IH I') as (l1 & k1 & c1 & l2 & -> & F & LE).
      exists ((k, c) :: l1), k1, c1, l2. split; auto.
    - exists [], k, c, l'. split; auto. }
  destruct SPL as (l1 & k & c & l2 & -> & F & LE).
  pose proof (gradient_at rnd64 stod l1 k c l2 value v n SV F LE) as G.
  assert (PC : is64 k /\ unit_interval c) by (apply (P' (k, c)); apply in_or_app; right; now left). destruct PC as [K64 UC].
  assert (P0 : let '(k0, c0) := match rev l1 with [] => (0, mk_rgba 0 0 0 1) | p :: _ => p end in
               is64 k0 /\ k0 <= limited v /\ unit_interval c0).
  { destruct l1 as [|[k0 c0] l1] using rev_ind.
    - cbn. split; [apply (is64_IZR 0); reflexivity|]. split; [apply limited_01|]. repeat split; cbn; lra.
    - rewrite rev_app_distr. cbn. apply Forall_app in F as [_ F]. inversion F; subst. cbn in *.
      destruct (P' (k0, c0)) as [A B]; [apply in_or_app; left; apply in_or_app; right; now left|]. split; auto. split; [lra|auto]. }
  destruct (match rev l1 with [] => (0, mk_rgba 0 0 0 1) | p :: _ => p end) as [k0 c0]. destruct P0 as (K0 & L0 & U0).
  rewrite G. clear G. destruct UC as (U1 & U2 & U3 & U4). destruct U0 as (Z1 & Z2 & Z3 & Z4).
  assert (R01 : forall x, 0 <= x <= 1 -> 0 <= rnd64 x <= 1).
  { intros x X. split; [rewrite <- rnd64_zero|rewrite <- rnd64_one]; apply rnd64_mono; lra. }
  destruct (Rle_dec k (limited v)) as [Q|Q].
  - exists (mk_rgba (rnd64 (q_r c)) (rnd64 (q_g c)) (rnd64 (q_b c)) (rnd64 (q_a c))). split.
    + f_equal. unfold mix, from_rgba, col. cbn [c_r c_g c_b c_a q_r q_g q_b q_a]. now rewrite !mix_end.
    + unfold unit_interval. cbn. auto.
  - destruct (weights_64 (limited v) k0 k) as (w1 & W & W01 & W64); auto; [now apply limited_64|lra|]. rewrite W.
    destruct (mix_64 (q_r c0) (q_r c) w1) as (x1 & X1 & X1'); auto.
    destruct (mix_64 (q_g c0) (q_g c) w1) as (x2 & X2 & X2'); auto.
    destruct (mix_64 (q_b c0) (q_b c) w1) as (x3 & X3 & X3'); auto.
    destruct (mix_64 (q_a c0) (q_a c) w1) as (x4 & X4 & X4'); auto.
    exists (mk_rgba x1 x2 x3 x4). split; [|unfold unit_interval; cbn; auto].
    f_equal. unfold mix, from_rgba, col. cbn [c_r c_g c_b c_a q_r q_g q_b q_a]. now rewrite X1, X2, X3, X4.
Qed.
Print Assumptions C40_range_partial.

(** Refuted above the last stop: undefined behaviour, not the colour of the last stop. *)
Theorem C40_above_refuted : forall d stod l L value v n, sorted_of (to_stops l) L -> l <> [] ->
  stod value = Some (Fin v, n) -> (forall p, In p l -> fst p < limited v) -> gradient d stod L value = UB.
Proof.
  intros d stod l L value v n S NE SV B. apply sorted_of_iff in S as (l' & -> & PE & O).
  assert (F : Forall (fun p => fst p < limited v) l').
  { apply Forall_forall. intros p I. apply B. eapply Permutation_in; [apply Permutation_sym, PE|auto]. }
  assert (NE' : l' <> []) by (intro Q; subst; apply Permutation_sym, Permutation_nil in PE; auto).
  unfold gradient. destruct (to_stops l') as [|s0 ss] eqn:E; [destruct l'; [contradiction|discriminate]|]. rewrite <- E in *. clear E s0 ss.
  rewrite SV, clamp_fin. pose proof (lower_app l' [] (limited v) F) as LB. rewrite app_nil_r in LB. cbn [to_stops map lower_bound] in LB.
  fold (to_stops l') in LB. rewrite LB, Nat.add_0_r.
  assert (nth_error (to_stops l') (length l') = None) as ->; [|reflexivity].
  apply nth_error_None. unfold to_stops. rewrite map_length. lia.
Qed.
Print Assumptions C40_above_refuted.
Example C40_above_case : forall d stod, stod (s_ "1") = Some (Fin 1, 1%nat) ->
  gradient d stod (to_stops [(/ 2, mk_rgba 1 0 0 1)]) (s_ "1") = UB.
Proof.
  intros d stod H. apply (C40_above_refuted d stod [(/ 2, mk_rgba 1 0 0 1)] _ _ 1 1%nat).
  - apply sorted_of_iff. exists [(/ 2, mk_rgba 1 0 0 1)]. split; auto. split; auto. repeat constructor.
  - discriminate.
  - exact H.
  - intros p [<-|[]]. cbn. unfold limited. rewrite Rmin_right, Rmax_right by lra. lra.
Qed.

(** Refuted below the first stop: the colour fades to black at 0 instead of staying that of
    the first stop. *)
Theorem C40_below_refuted : forall stod l L k c l2 value v n,
  sorted_of (to_stops l) L -> L = to_stops ((k, c) :: l2) -> stod value = Some (Fin v, n) -> limited v < k ->
  exists x, gradient exact stod L value = Ret (col x) /\ each (on_line 0 k (limited v)) (mk_rgba 0 0 0 1) c x.
Proof.
  intros stod l L k c l2 value v n S -> SV V.
  pose proof (gradient_at exact stod [] k c l2 value v n SV (Forall_nil _) ltac:(lra)) as G. cbn [rev app] in G. rewrite G.
  destruct (Rle_dec k (limited v)); [lra|]. assert (0 <= limited v) by apply limited_01.
  set (w := (limited v - 0) / (k - 0)).
  exists (mk_rgba (0 + (q_r c - 0) * w) (0 + (q_g c - 0) * w) (0 + (q_b c - 0) * w) (1 + (q_a c - 1) * w)).
  split; [|repeat split].
  assert (W : xdiv exact (xsub exact (Fin (limited v)) (Fin 0)) (xsub exact (Fin k) (Fin 0)) = Fin w)
    by (rewrite !xsub_fin, xdiv_fin by (unfold exact; lra); reflexivity).
  cbv zeta. rewrite W.
  unfold mix, from_rgba, col. cbn. unfold exact. f_equal. f_equal; f_equal; lra.
Qed.
Print Assumptions C40_below_refuted.

(** A step map gives the colour of the last stop at or below the value; below all stops,
    black. For every value, in any arithmetic. *)
Theorem C40_steps : forall stod l L value v n, sorted_of (to_stops l) L -> stod value = Some (Fin v, n) ->
  (forall l1 k c l2, L = to_stops (l1 ++ (k, c) :: l2) -> k <= limited v -> (forall p, In p l2 -> limited v < fst p) ->
     steps stod L value = Ret (col c)) /\
  ((forall p, In p l -> limited v < fst p) -> steps stod L value = Ret black).
Proof.
  intros stod l L value v n S SV. apply sorted_of_iff in S as (l' & -> & PE & O).
  assert (UP : forall l2, (forall p, In p l2 -> limited v < fst p) -> upper_bound (to_stops l2) (Fin (limited v)) = 0%nat).
  { intros [|p l2] B; [reflexivity|]. cbn [to_stops map upper_bound fst].
    assert (xlt (Fin (limited v)) (Fin (fst p)) = true) as -> by (apply xlt_fin, B; now left). reflexivity. }
  split.
  - intros l1 k c l2 E K B. unfold steps. rewrite E in *.
    assert (O' : StronglySorted (fun a b : R * rgba => fst a <= fst b) (l1 ++ (k, c) :: l2)).
    { assert (SO : sorted_of (to_stops l') (to_stops l')) by (split; [apply Permutation_refl|]; destruct (sorted_of_iff l' (to_stops l')) as [_ H]; apply H; exists l'; repeat split; auto).
      rewrite E in SO at 2. apply sorted_of_iff in SO as (l3 & E3 & _ & O3).
      assert (l1 ++ (k, c) :: l2 = l3) as ->; [|exact O3].
      clear - E3. revert l3 E3. generalize (l1 ++ (k, c) :: l2). induction l as [|[a b] m IH]; intros [|[q e] l3] E; try discriminate; auto.
      cbn in E. injection E. intros E1 E2 E3 E4 E5 E6. destruct b, e. cbn in *. subst. f_equal. now apply IH. }
    clear E. destruct (to_stops (l1 ++ (k, c) :: l2)) as [|s0 ss] eqn:E2; [destruct l1; discriminate|]. rewrite <- E2. clear E2 s0 ss.
    rewrite SV, clamp_fin. replace (l1 ++ (k, c) :: l2) with ((l1 ++ [(k, c)]) ++ l2) by (rewrite <- app_assoc; reflexivity).
    rewrite upper_app.
    + rewrite UP, app_length by auto. cbn [length]. rewrite Nat.add_0_r, Nat.add_1_r.
      rewrite nth_stops, nth_error_app1 by (rewrite app_length; cbn; lia). rewrite nth_error_app2, Nat.sub_diag by lia. reflexivity.
    + apply Forall_app. split; [|constructor; auto]. eapply Forall_impl; [|apply (sorted_prefix _ _ _ O')]. cbn. intros. lra.
  - intro B. unfold steps. destruct (to_stops l') as [|s0 ss] eqn:E; [reflexivity|]. rewrite <- E.
    rewrite SV, clamp_fin, UP; [reflexivity|]. intros p I. apply B. eapply Permutation_in; [apply Permutation_sym, PE|auto].
Qed.
Print Assumptions C40_steps.
Example C40_steps_case : forall stod, stod (s_ "0.5") = Some (Fin (/ 2), 3%nat) ->
  let cs := [(/ 2, mk_rgba 1 0 0 1); (0, mk_rgba 0 0 1 1); (1, mk_rgba 0 1 0 1)] in
  exists L, sorted_of (to_stops cs) L /\ steps stod L (s_ "0.5") = Ret (col (mk_rgba 1 0 0 1)).
Proof.
  intros stod H cs. assert (LV : limited (/ 2) = / 2) by (unfold limited; rewrite Rmin_right, Rmax_right; lra).
  assert (S : sorted_of (to_stops cs) (to_stops [(0, mk_rgba 0 0 1 1); (/ 2, mk_rgba 1 0 0 1); (1, mk_rgba 0 1 0 1)])).
  { apply sorted_of_iff. eexists. split; [reflexivity|]. split; [apply perm_swap|].
    repeat constructor; cbn; lra. }
  eexists. split; [exact S|]. eapply (proj1 (C40_steps stod cs _ _ _ _ S H) [(0, mk_rgba 0 0 1 1)]); [reflexivity|lra|].
  rewrite LV. intros p [<-|[]]. cbn. lra.
Qed.

(** Without stops everything is black; texts that are no numbers are errors. *)
Theorem C40_edge : forall d stod value,
  gradient d stod [] value = Ret black /\ steps stod [] value = Ret black /\
  (stod value = None -> forall l, l <> [] -> gradient d stod l value = Err /\ steps stod l value = Err).
Proof.
  intros. split; auto. split; auto. intros E [|a l] N; [contradiction|]. unfold gradient, steps. now rewrite E.
Qed.
Print Assumptions C40_edge.

(** Refuted for "nan" (which stod accepts): the colour has no components. *)
Theorem C40_nan_refuted : forall d stod l value n, l <> [] -> stod value = Some (NaN, n) ->
  gradient d stod (to_stops l) value = Ret (mk_color NaN NaN NaN NaN).
Proof.
  intros d stod [|[k c] l] value n N SV; [contradiction|]. unfold gradient. cbn [to_stops map]. rewrite SV. cbn. reflexivity.
Qed.
Print Assumptions C40_nan_refuted.

(* ==================== C41 ==================== *)
Lemma digit_val_dec c : (48 <= nat_of_ascii c <= 57)%nat -> digit_val 10 c = Some (Z.of_nat (nat_of_ascii c - 48)) /\
  space_char c = false /\ Ascii.eqb c "-" = false /\ Ascii.eqb c "+" = false.
Proof.
  intro H. unfold digit_val, between.
  assert (E : ((nat_of_ascii "0" <=? nat_of_ascii c) && (nat_of_ascii c <=? nat_of_ascii "9"))%nat = true).
  { apply andb_true_iff. split; apply Nat.leb_le; [change (nat_of_ascii "0") with 48%nat|change (nat_of_ascii "9") with 57%nat]; lia. }
  rewrite E. assert (nat_of_ascii c - 48 <? 10 = true)%nat as -> by (apply Nat.ltb_lt; lia). split; auto.
  split; [|split].
  - unfold space_char. apply orb_false_iff. split; [apply andb_false_iff; right; apply Nat.leb_gt; lia|apply Nat.eqb_neq; lia].
  - apply ascii_eqb_neq. intro Q. subst. cbn in H. lia.
  - apply ascii_eqb_neq. intro Q. subst. cbn in H. lia.
Qed.
Lemma read_digits_dec s : all_digits s -> forall acc, read_digits 10 acc s = fold_left (fun a c => (10 * a + Z.of_nat (nat_of_ascii c - 48))%Z) s acc.
Proof.
  induction 1 as [|c s H _ IH]; intro acc; [reflexivity|]. cbn [read_digits fold_left].
  destruct (digit_val_dec c H) as (-> & _). rewrite IH. f_equal. lia.
Qed.
Lemma strtol_dec s : all_digits s -> s <> [] -> strtol 10 s = Some (dec_value s).
Proof.
  intros A N. destruct s as [|c s]; [contradiction|]. pose proof A as A'. inversion A as [|? ? H F]; subst.
  destruct (digit_val_dec c H) as (D & SP & M & P). unfold strtol. cbn [skip_space]. rewrite SP, M, P.
  assert (SK : skip_0x 10 (c :: s) = c :: s) by (destruct s; reflexivity). rewrite SK. cbn [starts_digit]. rewrite D.
  now rewrite read_digits_dec.
Qed.
Lemma dec_nonneg s acc : (0 <= acc)%Z -> (0 <= fold_left (fun a c => (10 * a + Z.of_nat (nat_of_ascii c - 48))%Z) s acc)%Z.
Proof. revert acc. induction s as [|c s IH]; intros acc A; cbn [fold_left]; auto. apply IH. lia. Qed.
Lemma digits_is s : all_digits s <-> is_digit_string s = true.
Proof.
  unfold all_digits, is_digit_string. rewrite forallb_forall, Forall_forall. split; intros H c C; specialize (H c C).
  - unfold digit_char, between. apply andb_true_iff. split; apply Nat.leb_le; [change (nat_of_ascii "0") with 48%nat|change (nat_of_ascii "9") with 57%nat]; lia.
  - unfold digit_char, between in H. apply andb_true_iff in H as [H1 H2]. apply Nat.leb_le in H1, H2. exact (conj H1 H2).
Qed.
Lemma digits_no_hash s : all_digits s -> begins_with s (s_ "#") = false.
Proof.
  intro A. destruct s as [|c s]; [reflexivity|]. inversion A; subst. unfold begins_with. cbn [length s_ list_ascii_of_string Nat.ltb Nat.leb firstn].
  destruct (str_eqb_spec [c] ["#"%char]) as [Q|]; auto. injection Q as ->. cbn in H1. lia.
Qed.
Lemma palette_in p i : p <> [] -> (0 <= i)%Z -> exists c, palette_at p (i mod Z.of_nat (length p)) = Ret c /\ nth_error p (Z.to_nat (i mod Z.of_nat (length p))) = Some c.
Proof.
  intros N I. assert (L : (0 < Z.of_nat (length p))%Z) by (destruct p; [contradiction|cbn [length]; lia]).
  pose proof (Z.mod_pos_bound i _ L). unfold palette_at.
  destruct (nth_error p (Z.to_nat (i mod Z.of_nat (length p)))) as [c|] eqn:E; [eauto|]. apply nth_error_None in E. lia.
Qed.

(** C41: the index i >= 1 in an expression selects entry (i - 1) mod n. Partial: up to 2^63 - 1,
    and not index 0; the theorems below show what happens otherwise. *)
Theorem C41_cyclic_partial : forall f stod p v rest old, all_digits v -> p <> [] -> (1 <= dec_value v < 2 ^ 63)%Z ->
  exists c, expr_to_color f stod p (EVal v :: rest) old = Ret c /\
            nth_error p (Z.to_nat ((dec_value v - 1) mod Z.of_nat (length p))) = Some c.
Proof.
  intros f stod p v rest old A N R. unfold expr_to_color. rewrite digits_no_hash by auto. cbn [bind].
  rewrite (proj1 (digits_is v) A). destruct p as [|c0 p]; [contradiction|]. set (q := c0 :: p) in *.
  unfold stol, sto. assert (NV : v <> []) by (intros ->; cbv [dec_value fold_left] in R; lia). rewrite strtol_dec by auto.
  assert (((- 2 ^ 63 <=? dec_value v) && (dec_value v <=? 2 ^ 63 - 1))%Z = true) as -> by (apply andb_true_iff; split; apply Z.leb_le; lia).
  cbn [bind]. rewrite (Z.mod_small (dec_value v - 1) (2 ^ 64)) by lia.
  destruct (palette_in q (dec_value v - 1) N ltac:(lia)) as (c & E1 & E2). eauto.
Qed.
Print Assumptions C41_cyclic_partial.
Example C41_cyclic_case : forall f stod c1 c2 c3 old,
  expr_to_color f stod [c1; c2; c3] [ELit (s_ "5")] old = Ret c2 /\ expr_to_color f stod [c1; c2; c3] [ELit (s_ "3")] old = Ret c3.
Proof. intros. split; reflexivity. Qed.

(** Refuted for index 0: (2^64 - 1) mod n, which is n - 1 only for powers of two; of the six
    colours of the default palette it takes the fourth instead of the last. *)
Theorem C41_zero_refuted : forall f stod p v rest old, all_digits v -> v <> [] -> p <> [] -> dec_value v = 0%Z ->
  exists c, expr_to_color f stod p (EVal v :: rest) old = Ret c /\
            nth_error p (Z.to_nat ((2 ^ 64 - 1) mod Z.of_nat (length p))) = Some c.
Proof.
  intros f stod p v rest old A NV N R. unfold expr_to_color. rewrite digits_no_hash by auto. cbn [bind].
  rewrite (proj1 (digits_is v) A). destruct p as [|c0 p]; [contradiction|]. set (q := c0 :: p) in *.
  unfold stol, sto. rewrite strtol_dec by auto. rewrite R. cbn [bind andb Z.leb Z.compare]. 
  replace ((0 - 1) mod 2 ^ 64)%Z with (2 ^ 64 - 1)%Z by reflexivity.
  destruct (palette_in q (2 ^ 64 - 1) N ltac:(lia)) as (c & E1 & E2). eauto.
Qed.
Print Assumptions C41_zero_refuted.
Example C41_zero_case : forall f stod c1 c2 c3 c4 c5 c6 old,
  expr_to_color f stod [c1; c2; c3; c4; c5; c6] [ELit (s_ "0")] old = Ret c4.
Proof. reflexivity. Qed.

(** Refuted for colours given as plain strings: index i selects entry i mod n there, one
    further than in an expression. *)
Theorem C41_string_refuted : forall f p v old, all_digits v -> v <> [] -> p <> [] -> (dec_value v < 2 ^ 64)%Z ->
  exists c, color_read_string f p v old = Ret c /\
            nth_error p (Z.to_nat (dec_value v mod Z.of_nat (length p))) = Some c.
Proof.
  intros f p v old A NV N R. unfold color_read_string. rewrite digits_no_hash by auto. cbn [bind].
  rewrite (proj1 (digits_is v) A). destruct p as [|c0 p]; [contradiction|]. set (q := c0 :: p) in *.
  assert (0 <= dec_value v)%Z by (apply dec_nonneg; lia).
  unfold stoul, sto. rewrite strtol_dec by auto.
  assert (((0 <=? dec_value v) && (dec_value v <=? 2 ^ 64 - 1))%Z = true) as -> by (apply andb_true_iff; split; apply Z.leb_le; lia).
  cbn [bind]. destruct (palette_in q (dec_value v) N ltac:(lia)) as (c & E1 & E2). eauto.
Qed.
Print Assumptions C41_string_refuted.
Example C41_string_case : forall f stod c1 c2 c3 old,
  expr_to_color f stod [c1; c2; c3] [ELit (s_ "1")] old = Ret c1 /\ color_read_string f [c1; c2; c3] (s_ "1") old = Ret c2.
Proof. intros. split; reflexivity. Qed.

(** Too large an index, or an empty text, raises an uncaught exception. *)
Theorem C41_exception_refuted : forall f stod p rest old, p <> [] ->
  (forall v, all_digits v -> (2 ^ 63 <= dec_value v)%Z -> expr_to_color f stod p (EVal v :: rest) old = Throw) /\
  expr_to_color f stod p (EVal [] :: rest) old = Throw /\ color_read_string f p [] old = Throw.
Proof.
  intros f stod p rest old N. destruct p as [|c0 p]; [contradiction|]. split; [|split; reflexivity].
  intros v A R. unfold expr_to_color. rewrite digits_no_hash by auto. cbn [bind]. rewrite (proj1 (digits_is v) A).
  unfold stol, sto. assert (NV : v <> []) by (intros ->; cbv [dec_value fold_left] in R; lia). rewrite strtol_dec by auto.
  assert ((dec_value v <=? 2 ^ 63 - 1)%Z = false) as -> by (apply Z.leb_gt; lia). now rewrite andb_false_r.
Qed.
Print Assumptions C41_exception_refuted.
Example C41_exception_case : all_digits (s_ "99999999999999999999") /\ (2 ^ 63 <= dec_value (s_ "99999999999999999999"))%Z.
Proof. split; [apply digits_is; reflexivity|vm_compute; discriminate]. Qed.

(** Never outside of the palette: no undefined behaviour, for any text and any palette; an
    index into an empty palette leaves the colour as it was. *)
Theorem C41_in_bounds : forall f stod p e old v,
  expr_to_color f stod p e old <> UB /\ color_read_string f p v old <> UB /\
  (all_digits v -> expr_to_color f stod [] (EVal v :: e) old = Ret old).
Proof.
  intros f stod p e old v.
  assert (HP : forall w, (exists r, (if begins_with w (s_ "#") then parse f w old else Ret (false, old)) = Ret r) \/
                         (if begins_with w (s_ "#") then parse f w old else Ret (false, old)) = Throw).
  { intro w. destruct (begins_with w (s_ "#")); [apply C39_total|left; eauto]. }
  assert (HS : forall lo hi b w, (exists z, sto lo hi b w = Ret z) \/ sto lo hi b w = Throw).
  { intros. unfold sto. destruct (strtol b w); [|now right]. destruct (_ && _)%bool; [left; eauto|now right]. }
  assert (V : forall w, (let* (ok, c1) := if begins_with w (s_ "#") then parse f w old else Ret (false, old) in
        if ok then Ret c1 else if is_digit_string w then
          match p with [] => Ret c1 | _ => let* i := stol 10 w in palette_at p (((i - 1) mod 2 ^ 64) mod Z.of_nat (length p)) end
        else Err) <> UB).
  { intro w. destruct (HP w) as [([ok c1] & E)|E]; rewrite E; cbn [bind]; [|discriminate]. destruct ok; [discriminate|].
    destruct (is_digit_string w); [|discriminate]. destruct p as [|c0 p]; [discriminate|].
    unfold stol. destruct (HS (- 2 ^ 63)%Z (2 ^ 63 - 1)%Z 10%nat w) as [(z & ->)| ->]; cbn [bind]; [|discriminate].
    destruct (palette_in (c0 :: p) ((z - 1) mod 2 ^ 64)) as (c & -> & _); [discriminate|apply Z.mod_pos_bound; reflexivity|discriminate]. }
  assert (FL : forall l, (exists x, expr_to_float64 stod l = Ret x) \/ expr_to_float64 stod l = Err).
  { intro l. unfold expr_to_float64. destruct (value_of l) as [w|]; [|now right]. destruct (stod w) as [[x ?]|]; [left; eauto|now right]. }
  split; [|split].
  - destruct e as [|[args|w|w] r]; [discriminate| |apply V|apply V].
    cbn [expr_to_color]. destruct args as [|h [|a1 [|a2 [|a3 [|a4 [|a5 args]]]]]]; try discriminate.
    + destruct (head_is _ _); [|discriminate].
      destruct (FL [a1]) as [(x & ->)| ->]; cbn [bind]; [|discriminate]. destruct (FL [a2]) as [(y & ->)| ->]; cbn [bind]; [|discriminate].
      destruct (FL [a3]) as [(z & ->)| ->]; cbn [bind]; discriminate.
    + destruct (head_is _ _); [|discriminate].
      destruct (FL [a1]) as [(x & ->)| ->]; cbn [bind]; [|discriminate]. destruct (FL [a2]) as [(y & ->)| ->]; cbn [bind]; [|discriminate].
      destruct (FL [a3]) as [(z & ->)| ->]; cbn [bind]; [|discriminate]. destruct (FL [a4]) as [(u & ->)| ->]; cbn [bind]; discriminate.
  - unfold color_read_string. destruct (HP v) as [([ok c1] & E)|E]; rewrite E; cbn [bind]; [|discriminate]. destruct ok; [discriminate|].
    destruct (is_digit_string v); [|discriminate]. destruct p as [|c0 p]; [discriminate|].
    unfold stoul. destruct (HS 0%Z (2 ^ 64 - 1)%Z 10%nat v) as [(z & Z1)|Z1]; rewrite Z1; cbn [bind]; [|discriminate].
    assert (0 <= z)%Z. { unfold sto in Z1. destruct (strtol 10 v) as [y|]; [|discriminate]. destruct ((0 <=? y) && _)%Z%bool eqn:B; [|discriminate].
      injection Z1 as <-. apply andb_true_iff in B as [B _]. now apply Z.leb_le. }
    destruct (palette_in (c0 :: p) z) as (c & -> & _); [discriminate|auto|discriminate].
  - intro A. unfold expr_to_color. rewrite digits_no_hash by auto. cbn [bind]. now rewrite (proj1 (digits_is v) A).
Qed.
Print Assumptions C41_in_bounds.

(* ==================== C59 ==================== *)
Lemma float_num stod e x : expr_to_float64 stod [e] = Ret x <-> num stod e x.
Proof.
  unfold expr_to_float64, num, text. destruct e as [l|t|t]; cbn [value_of]; split; intro H; try discriminate.
  - destruct H as (t & n & [H|H] & _); discriminate.
  - destruct (stod t) as [[y n]|] eqn:E; [|discriminate]. injection H as <-. eauto.
  - destruct H as (t' & n & [H|H] & E); [|discriminate]. injection H as <-. now rewrite E.
  - destruct (stod t) as [[y n]|] eqn:E; [|discriminate]. injection H as <-. eauto.
  - destruct H as (t' & n & [H|H] & E); [discriminate|]. injection H as <-. now rewrite E.
Qed.
Lemma head_is_iff w h args : head_is w (h :: args) = true <-> text h w.
Proof.
  unfold head_is, text. destruct h as [l|t|t]; cbn [value_of].
  - split; [discriminate|]. intros [H|H]; discriminate.
  - destruct (str_eqb_spec t w); split; auto; try discriminate; [subst; auto|]. intros [H|H]; congruence.
  - destruct (str_eqb_spec t w); split; auto; try discriminate; [subst; auto|]. intros [H|H]; congruence.
Qed.
Lemma float_cases (stod : str -> option (xr * nat)) l : (exists x, expr_to_float64 stod l = Ret x) \/ expr_to_float64 stod l = Err.
Proof. unfold expr_to_float64. destruct (value_of l) as [w|]; [|now right]. destruct (stod w) as [[x ?]|]; [left; eauto|now right]. Qed.

(** C59: a list is a colour exactly when it is (rgb r g b) or (rgba r g b a) with numbers, which
    become the components in that order; any other list is an error. *)
Theorem C59_lists : forall f stod p args rest old,
  (forall c, expr_to_color f stod p (EList args :: rest) old = Ret c <-> color_list stod args c) /\
  ((forall c, ~ color_list stod args c) -> expr_to_color f stod p (EList args :: rest) old = Err).
Proof.
  intros f stod p args rest old.
  assert (H : match expr_to_color f stod p (EList args :: rest) old with
              | Ret c => color_list stod args c | Err => forall c, ~ color_list stod args c | _ => False end).
  { cbn [expr_to_color]. destruct args as [|h [|a1 [|a2 [|a3 [|a4 [|a5 args]]]]]]; try (intros c Q; inversion Q; fail).
    - destruct (head_is (s_ "rgb") [h; a1; a2; a3]) eqn:HH.
      + apply head_is_iff in HH.
        destruct (float_cases stod [a1]) as [(x & E1)|E1]; rewrite E1; cbn [bind].
        2: { intros c Q; inversion Q; subst. repeat match goal with N : num stod _ _ |- _ => apply float_num in N end. congruence. }
        destruct (float_cases stod [a2]) as [(y & E2)|E2]; rewrite E2; cbn [bind].
        2: { intros c Q; inversion Q; subst. repeat match goal with N : num stod _ _ |- _ => apply float_num in N end. congruence. }
        destruct (float_cases stod [a3]) as [(z & E3)|E3]; rewrite E3; cbn [bind].
        2: { intros c Q; inversion Q; subst. repeat match goal with N : num stod _ _ |- _ => apply float_num in N end. congruence. }
        constructor; auto; now apply float_num.
      + intros c Q. inversion Q; subst. match goal with T : text h _ |- _ => apply (head_is_iff _ _ [a1; a2; a3]) in T; congruence end.
    - destruct (head_is (s_ "rgba") [h; a1; a2; a3; a4]) eqn:HH.
      + apply head_is_iff in HH.
        destruct (float_cases stod [a1]) as [(x & E1)|E1]; rewrite E1; cbn [bind].
        2: { intros c Q; inversion Q; subst. repeat match goal with N : num stod _ _ |- _ => apply float_num in N end. congruence. }
        destruct (float_cases stod [a2]) as [(y & E2)|E2]; rewrite E2; cbn [bind].
        2: { intros c Q; inversion Q; subst. repeat match goal with N : num stod _ _ |- _ => apply float_num in N end. congruence. }
        destruct (float_cases stod [a3]) as [(z & E3)|E3]; rewrite E3; cbn [bind].
        2: { intros c Q; inversion Q; subst. repeat match goal with N : num stod _ _ |- _ => apply float_num in N end. congruence. }
        destruct (float_cases stod [a4]) as [(w & E4)|E4]; rewrite E4; cbn [bind].
        2: { intros c Q; inversion Q; subst. repeat match goal with N : num stod _ _ |- _ => apply float_num in N end. congruence. }
        constructor; auto; now apply float_num.
      + intros c Q. inversion Q; subst. match goal with T : text h _ |- _ => apply (head_is_iff _ _ [a1; a2; a3; a4]) in T; congruence end. }
  assert (UNI : forall c c', color_list stod args c -> color_list stod args c' -> c = c').
  { assert (N : forall e x y, num stod e x -> num stod e y -> x = y).
    { intros e x y A B. apply float_num in A, B. congruence. }
    intros c c' A B. inversion A; subst; inversion B; subst; f_equal; eapply N; eauto. }
  destruct (expr_to_color f stod p (EList args :: rest) old) as [c| | | |]; try contradiction.
  - split; [|intro N; exfalso; now apply (N c)]. intro c'. split; intro Q; [congruence|]. f_equal. now apply UNI.
  - split; auto. intro c'. split; [discriminate|]. intro Q. exfalso. now apply (H c').
Qed.
Print Assumptions C59_lists.
Example C59_lists_case : forall f stod p old, stod (s_ "1") = Some (Fin 1, 1%nat) -> stod (s_ "0") = Some (Fin 0, 1%nat) ->
  expr_to_color f stod p [EList [ELit (s_ "rgb"); ELit (s_ "1"); ELit (s_ "0"); ELit (s_ "0")]] old = Ret (mk_color (Fin 1) (Fin 0) (Fin 0) (Fin 1)).
Proof. intros f stod p old H1 H0. apply C59_lists. constructor; [now left| | |]; eexists; eexists; split; eauto; now left. Qed.

(** Texts that start with "#" are hex colours or nothing: refused texts are errors (they are
    never taken for palette indices). *)
Theorem C59_hex : forall f stod p v rest old r, begins_with v (s_ "#") = true -> parse f v old = Ret r ->
  let res := if fst r then Ret (snd r) else Err in
  expr_to_color f stod p (EVal v :: rest) old = res /\ expr_to_color f stod p (ELit v :: rest) old = res /\
  color_read_string f p v old = res.
Proof.
  intros f stod p v rest old [ok c] B P res. unfold res. cbn [fst snd].
  assert (ND : is_digit_string v = false).
  { destruct v as [|x v]; [discriminate|]. unfold begins_with in B. cbn [length s_ list_ascii_of_string Nat.ltb Nat.leb firstn] in B.
    destruct (str_eqb_spec [x] ["#"%char]) as [Q|]; [|discriminate]. injection Q as ->. reflexivity. }
  unfold expr_to_color, color_read_string. rewrite B, P. cbn [bind]. rewrite ND. destruct ok; auto.
Qed.
Print Assumptions C59_hex.
(** Any other text that is not made of digits is an error. *)
Theorem C59_other_texts : forall f stod p v rest old, begins_with v (s_ "#") = false -> ~ all_digits v ->
  expr_to_color f stod p (EVal v :: rest) old = Err /\ color_read_string f p v old = Err.
Proof.
  intros f stod p v rest old B N. unfold expr_to_color, color_read_string. rewrite B. cbn [bind].
  destruct (is_digit_string v) eqn:D; [apply digits_is in D; contradiction|auto].
Qed.
Print Assumptions C59_other_texts.
Example C59_other_case : begins_with (s_ "red") (s_ "#") = false /\ ~ all_digits (s_ "red").
Proof. split; [reflexivity|]. intro H. apply digits_is in H. discriminate. Qed.

(** A colour map expression: (gradient k1 c1 k2 c2 ...) or (steps ...). The stops are those
    written, in the order written. *)
Definition stop_args (l : list (expr * expr)) : list expr := flat_map (fun p => [fst p; snd p]) l.
Theorem C59_maps : forall f stod p h l stops kind rest,
  Forall2 (fun a s => num stod (fst a) (fst s) /\ expr_to_color f stod p [snd a] black = Ret (snd s)) l stops ->
  (text h (s_ "gradient") /\ kind = Gradient \/ text h (s_ "steps") /\ kind = Steps) ->
  color_map_read f stod p (EList (h :: stop_args l) :: rest) = Ret (kind, stops).
Proof.
  intros f stod p h l stops kind rest F K.
  assert (EV : Nat.odd (length (stop_args l)) = false).
  { clear. unfold stop_args. induction l as [|a l IH]; [reflexivity|]. cbn [flat_map app length]. rewrite <- IH. reflexivity. }
  assert (R : read_stops f stod p (stop_args l) = Ret stops).
  { induction F as [|[k a] [x c] l stops (A & B) F IH]; [reflexivity|]. cbn [stop_args flat_map app fst snd read_stops] in *.
    apply float_num in A. rewrite A. cbn [bind]. rewrite B. cbn [bind].
    assert (EV' : Nat.odd (length (flat_map (fun p => [fst p; snd p]) l)) = false) by (rewrite <- EV; reflexivity).
    unfold stop_args in IH. rewrite IH by auto. reflexivity. }
  unfold color_map_read. cbn [tl]. unfold map_stops. rewrite EV, R.
  destruct K as [[T ->]|[T ->]].
  - rewrite (proj2 (head_is_iff (s_ "gradient") h (stop_args l)) T). reflexivity.
  - assert (head_is (s_ "gradient") (h :: stop_args l) = false) as ->.
    { destruct (head_is (s_ "gradient") (h :: stop_args l)) eqn:Q; auto. apply head_is_iff in Q.
      destruct T as [-> | ->], Q as [Q|Q]; discriminate. }
    rewrite (proj2 (head_is_iff (s_ "steps") h (stop_args l)) T). reflexivity.
Qed.
Print Assumptions C59_maps.
Example C59_maps_case : forall f stod p c1 c2, stod (s_ "0") = Some (Fin 0, 1%nat) -> stod (s_ "1") = Some (Fin 1, 1%nat) -> p = [c1; c2] ->
  color_map_read f stod p [EList [ELit (s_ "steps"); ELit (s_ "0"); ELit (s_ "2"); ELit (s_ "1"); ELit (s_ "1")]] =
  Ret (Steps, [(Fin 0, c2); (Fin 1, c1)]).
Proof.
  intros f stod p c1 c2 H0 H1 ->. apply (C59_maps f stod [c1; c2] (ELit (s_ "steps")) [(ELit (s_ "0"), ELit (s_ "2")); (ELit (s_ "1"), ELit (s_ "1"))]).
  - repeat constructor; cbn; eexists; eexists; (split; [now left|eauto]).
  - right. split; auto. now left.
Qed.
(** A dangling item, or another kind of map, is an error. *)
Theorem C59_map_errors : forall f stod p h args rest,
  (Nat.odd (length args) = true \/ (~ text h (s_ "gradient") /\ ~ text h (s_ "steps"))) ->
  color_map_read f stod p (EList (h :: args) :: rest) = Err.
Proof.
  intros f stod p h args rest H. unfold color_map_read. cbn [tl].
  destruct (head_is (s_ "gradient") (h :: args)) eqn:G, (head_is (s_ "steps") (h :: args)) eqn:S; auto;
    try apply head_is_iff in G; try apply head_is_iff in S;
    (destruct H as [H|[H1 H2]]; [|contradiction]); unfold map_stops; rewrite H; reflexivity.
Qed.
Print Assumptions C59_map_errors.

(** The named palettes: the six colours of "fnord" and the eight of "zhang", as printed. *)
Theorem C59_palettes : forall name codes, In (name, codes)
    [(s_ "fnord", ["#4572a7"; "#aa4643"; "#db843d"; "#89a54e"; "#80699b"; "#3d96ae"]%string);
     (s_ "zhang", ["#6a88c4"; "#75c042"; "#efeb52"; "#f5a325"; "#f92d23"; "#9551a1"; "#323085"; "#a2a2a2"]%string)] ->
  exists cs, color_palette_default rnd32 name = Ret cs /\ map (to_hex_str rnd64 3) cs = map (fun c => Ret (s_ c)) codes.
Proof.
  assert (P : forall l, Forall (fun c => exists a1 a2 b1 b2 c1 c2 n1 n2 n3 n4 n5 n6,
      c = ["#"%char; a1; a2; b1; b2; c1; c2] /\ c = ["#"%char; low n1; low n2; low n3; low n4; low n5; low n6] /\
      hexd a1 n1 /\ hexd a2 n2 /\ hexd b1 n3 /\ hexd b2 n4 /\ hexd c1 n5 /\ hexd c2 n6) l ->
    exists cs, parse_all rnd32 l = Ret cs /\ map (to_hex_str rnd64 3) cs = map Ret l).
  { induction 1 as [|c l (a1 & a2 & b1 & b2 & c1 & c2 & n1 & n2 & n3 & n4 & n5 & n6 & E1 & E2 & H1 & H2 & H3 & H4 & H5 & H6) F (cs & IH1 & IH2)].
    - exists []. split; reflexivity.
    - destruct (C39_round_trip a1 a2 b1 b2 c1 c2 n1 n2 n3 n4 n5 n6 black H1 H2 H3 H4 H5 H6) as [R1 R2].
      rewrite <- E1 in R1. cbn [parse_all]. rewrite R1. cbn [bind]. rewrite IH1. cbn [bind]. eexists. split; [reflexivity|].
      cbn [map]. rewrite R2, IH2. f_equal. now rewrite E2. }
  assert (D : forall c, (forall k, (k < 6)%nat -> exists n, nth_error (s_ "0123456789abcdef") n = nth_error c k /\ (n < 16)%nat) -> length c = 6%nat ->
     exists a1 a2 b1 b2 c1 c2 n1 n2 n3 n4 n5 n6,
      "#"%char :: c = ["#"%char; a1; a2; b1; b2; c1; c2] /\ "#"%char :: c = ["#"%char; low n1; low n2; low n3; low n4; low n5; low n6] /\
      hexd a1 n1 /\ hexd a2 n2 /\ hexd b1 n3 /\ hexd b2 n4 /\ hexd c1 n5 /\ hexd c2 n6).
  { intros c H L. destruct c as [|x1 [|x2 [|x3 [|x4 [|x5 [|x6 [|x7 c]]]]]]]; try discriminate.
    destruct (H 0%nat ltac:(lia)) as (n1 & Q1 & L1). destruct (H 1%nat ltac:(lia)) as (n2 & Q2 & L2). destruct (H 2%nat ltac:(lia)) as (n3 & Q3 & L3).
    destruct (H 3%nat ltac:(lia)) as (n4 & Q4 & L4). destruct (H 4%nat ltac:(lia)) as (n5 & Q5 & L5). destruct (H 5%nat ltac:(lia)) as (n6 & Q6 & L6).
    cbn [nth_error] in Q1, Q2, Q3, Q4, Q5, Q6.
    exists x1, x2, x3, x4, x5, x6, n1, n2, n3, n4, n5, n6. split; auto. split.
    - unfold low. rewrite !(nth_error_nth _ _ _ Q1), !(nth_error_nth _ _ _ Q2), !(nth_error_nth _ _ _ Q3), !(nth_error_nth _ _ _ Q4), !(nth_error_nth _ _ _ Q5), !(nth_error_nth _ _ _ Q6). reflexivity.
    - unfold hexd. auto 10. }
  assert (FH : forall c, forallb (fun k => existsb (fun n => match nth_error (s_ "0123456789abcdef") n, nth_error c k with Some a, Some b => Ascii.eqb a b | _, _ => false end) (seq 0 16)) (seq 0 6) = true ->
      forall k, (k < 6)%nat -> exists n, nth_error (s_ "0123456789abcdef") n = nth_error c k /\ (n < 16)%nat).
  { intros c H k K. rewrite forallb_forall in H. specialize (H k ltac:(apply in_seq; lia)). apply existsb_exists in H as (n & N & E).
    apply in_seq in N. exists n. split; [|lia]. destruct (nth_error (s_ "0123456789abcdef") n) as [a|], (nth_error c k) as [b|]; try discriminate.
    apply Ascii.eqb_eq in E. now subst. }
  intros name codes [E|[E|[]]]; injection E as <- <-.
  - destruct (P [s_ "#4572a7"; s_ "#aa4643"; s_ "#db843d"; s_ "#89a54e"; s_ "#80699b"; s_ "#3d96ae"]) as (cs & C1 & C2).
    + repeat (constructor; [apply D; [apply FH; reflexivity|reflexivity]|]). constructor.
    + exists cs. split; [exact C1|exact C2].
  - destruct (P [s_ "#6a88c4"; s_ "#75c042"; s_ "#efeb52"; s_ "#f5a325"; s_ "#f92d23"; s_ "#9551a1"; s_ "#323085"; s_ "#a2a2a2"]) as (cs & C1 & C2).
    + repeat (constructor; [apply D; [apply FH; reflexivity|reflexivity]|]). constructor.
    + exists cs. split; [exact C1|exact C2].
Qed.
Print Assumptions C59_palettes.

(** A palette given as a list of colours: those colours, in order. *)
Theorem C59_palette_list : forall f stod p args cs rest,
  Forall2 (fun a c => forall r old, expr_to_color f stod p (a :: r) old = Ret c) args cs ->
  color_palette_read f stod p (EList args :: rest) = (cs, Ret tt).
Proof.
  intros f stod p args cs rest F. cbn [color_palette_read].
  assert (G : forall acc c, read_colors f stod p args c acc = (acc ++ cs, Ret tt)).
  { induction F as [|a c args cs E F IH]; intros acc c0; cbn [read_colors]; [now rewrite app_nil_r|].
    rewrite E, IH, <- app_assoc. reflexivity. }
  apply G.
Qed.
Print Assumptions C59_palette_list.
Example C59_palette_list_case : forall f stod c1 c2 c3,
  color_palette_read f stod [c1; c2; c3] [EList [ELit (s_ "3"); ELit (s_ "1")]] = ([c3; c1], Ret tt).
Proof. intros. apply C59_palette_list. repeat constructor. Qed.
(** An unknown palette name is an error. *)
Theorem C59_palette_unknown : forall f stod p name rest, name <> s_ "fnord" -> name <> s_ "zhang" ->
  color_palette_read f stod p (EVal name :: rest) = ([], Err).
Proof.
  intros f stod p name rest N1 N2. cbn [color_palette_read]. unfold color_palette_default. cbn [palettes assoc].
  destruct (str_eqb_spec name (s_ "fnord")); [contradiction|]. destruct (str_eqb_spec name (s_ "zhang")); [contradiction|]. reflexivity.
Qed.
Print Assumptions C59_palette_unknown.
