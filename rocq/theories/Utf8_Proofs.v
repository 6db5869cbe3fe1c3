From Verif Require Import Base Utf8_Model Utf8_Spec.
From Coq Require Import NArith ZArith Lia.
Local Open Scope N_scope.

Lemma lor_add (q k y : N) : y < 2 ^ k -> N.lor (q * 2 ^ k) y = q * 2 ^ k + y.
Proof.
  intro H. rewrite <- N.shiftl_mul_pow2.
  assert (N.land (N.shiftl q k) y = 0) as L.
  { apply N.bits_inj_0. intro n. rewrite N.land_spec.
    destruct (N.lt_ge_cases n k) as [C|C].
    - rewrite N.shiftl_spec_low by auto. reflexivity.
    - rewrite <- (N.mod_small y (2 ^ k)) by auto. rewrite N.mod_pow2_bits_high by auto.
      apply Bool.andb_false_r. }
  rewrite <- N.lxor_lor by auto. symmetry. now apply N.add_nocarry_lxor.
Qed.

Lemma land31 x : N.land x 31 = x mod 32. Proof. apply (N.land_ones x 5). Qed.
Lemma land15 x : N.land x 15 = x mod 16. Proof. apply (N.land_ones x 4). Qed.
Lemma land7 x : N.land x 7 = x mod 8. Proof. apply (N.land_ones x 3). Qed.
Lemma land3 x : N.land x 3 = x mod 4. Proof. apply (N.land_ones x 2). Qed.
Lemma land1 x : N.land x 1 = x mod 2. Proof. apply (N.land_ones x 1). Qed.
Lemma land63 x : N.land x 63 = x mod 64. Proof. apply (N.land_ones x 6). Qed.

Lemma cont_eq x : cont x = 128 + x mod 64.
Proof.
  unfold cont. rewrite land63. change 128 with (2 * 2 ^ 6).
  rewrite lor_add; [reflexivity|]. apply N.mod_lt; discriminate.
Qed.

Lemma cont_64 x : cont x mod 64 = x mod 64.
Proof.
  rewrite cont_eq. change 128 with (2 * 64). rewrite N.add_comm, N.mod_add by discriminate.
  apply N.mod_mod; discriminate.
Qed.

Lemma lor2 a b : b < 64 -> N.lor (N.shiftl a 6) b = a * 64 + b.
Proof. intro H. rewrite N.shiftl_mul_pow2. apply (lor_add a 6); exact H. Qed.
Lemma lor3 a b c : b < 64 -> c < 64 ->
  N.lor (N.lor (N.shiftl a 12) (N.shiftl b 6)) c = a * 4096 + b * 64 + c.
Proof.
  intros. replace (N.lor (N.shiftl a 12) (N.shiftl b 6)) with ((a * 64 + b) * 2 ^ 6).
  - rewrite lor_add by auto. change (2 ^ 6) with 64. lia.
  - rewrite !N.shiftl_mul_pow2. rewrite lor_add; change (2^6) with 64; change (2^12) with 4096; lia.
Qed.
Lemma lor4 a b c d : b < 64 -> c < 64 -> d < 64 ->
  N.lor (N.lor (N.lor (N.shiftl a 18) (N.shiftl b 12)) (N.shiftl c 6)) d
  = a * 262144 + b * 4096 + c * 64 + d.
Proof.
  intros. 
  assert (N.lor (N.lor (N.shiftl a 18) (N.shiftl b 12)) (N.shiftl c 6) = (a * 4096 + b * 64 + c) * 2 ^ 6) as ->.
  { rewrite <- (lor3 a b c) by auto. rewrite <- N.shiftl_mul_pow2, !N.shiftl_lor, !N.shiftl_shiftl. reflexivity. }
  rewrite lor_add by auto. change (2^6) with 64. lia.
Qed.
Lemma lor5 a b c d e : b < 64 -> c < 64 -> d < 64 -> e < 64 ->
  N.lor (N.lor (N.lor (N.lor (N.shiftl a 24) (N.shiftl b 18)) (N.shiftl c 12)) (N.shiftl d 6)) e
  = a * 16777216 + b * 262144 + c * 4096 + d * 64 + e.
Proof.
  intros. 
  assert (N.lor (N.lor (N.lor (N.shiftl a 24) (N.shiftl b 18)) (N.shiftl c 12)) (N.shiftl d 6)
     = (a * 262144 + b * 4096 + c * 64 + d) * 2 ^ 6) as ->.
  { rewrite <- (lor4 a b c d) by auto. rewrite <- N.shiftl_mul_pow2, !N.shiftl_lor, !N.shiftl_shiftl. reflexivity. }
  rewrite lor_add by auto. change (2^6) with 64. lia.
Qed.
Lemma lor6 a b c d e f : b < 64 -> c < 64 -> d < 64 -> e < 64 -> f < 64 ->
  N.lor (N.lor (N.lor (N.lor (N.lor (N.shiftl a 30) (N.shiftl b 24)) (N.shiftl c 18)) (N.shiftl d 12)) (N.shiftl e 6)) f
  = a * 1073741824 + b * 16777216 + c * 262144 + d * 4096 + e * 64 + f.
Proof.
  intros. 
  assert (N.lor (N.lor (N.lor (N.lor (N.shiftl a 30) (N.shiftl b 24)) (N.shiftl c 18)) (N.shiftl d 12)) (N.shiftl e 6)
     = (a * 16777216 + b * 262144 + c * 4096 + d * 64 + e) * 2 ^ 6) as ->.
  { rewrite <- (lor5 a b c d e) by auto. rewrite <- N.shiftl_mul_pow2, !N.shiftl_lor, !N.shiftl_shiftl. reflexivity. }
  rewrite lor_add by auto. change (2^6) with 64. lia.
Qed.

Lemma m64 x : x mod 64 < 64. Proof. apply N.mod_lt; discriminate. Qed.

(** ranges of the lead bytes: exhaustive over the 256 byte values *)
Definition classify (b : N) : nat :=
  if b <? 128 then 1 else if lead2 b then 2 else if lead3 b then 3 else if lead4 b then 4
  else if lead5 b then 5 else if lead6 b then 6 else 0.

Lemma all_bytes (P : N -> bool) :
  forallb P (map N.of_nat (seq 0 256)) = true -> forall b, b < 256 -> P b = true.
Proof.
  intros H b Hb. rewrite forallb_forall in H. apply H. apply in_map_iff.
  exists (N.to_nat b). rewrite N2Nat.id. split; auto. apply in_seq. lia.
Qed.

Lemma classify_spec b : b < 256 -> classify b = announced b.
Proof.
  intro H. apply Nat.eqb_eq.
  revert b H. apply (all_bytes (fun b => Nat.eqb (classify b) (announced b))). reflexivity.
Qed.

(** leads and continuation bytes of the encoder *)
Lemma lead_shape (k : nat) (base m : N) : forall x,
  forallb (fun y => (N.lor base y =? base + y) && (base + y <? 256) &&
            (N.land (N.lor base y) (m - 1) =? y) && (Nat.eqb (classify (N.lor base y)) k))
     (map N.of_nat (seq 0 (N.to_nat m))) = true ->
  m <> 0 ->
  N.lor base (x mod m) = base + x mod m /\ base + x mod m < 256 /\
  N.land (N.lor base (x mod m)) (m - 1) = x mod m /\ classify (N.lor base (x mod m)) = k.
Proof.
  intros x H Hm. rewrite forallb_forall in H.
  assert (x mod m < m) by (apply N.mod_lt; auto).
  pose proof (H (x mod m)) as H'. clear H. rename H' into H.
  assert (In (x mod m) (map N.of_nat (seq 0 (N.to_nat m)))) as I.
  { apply in_map_iff. exists (N.to_nat (x mod m)). rewrite N2Nat.id. split; auto. apply in_seq.
    generalize dependent (x mod m). clear. intros y Hy. lia. }
  apply H in I. rewrite !Bool.andb_true_iff in I. destruct I as [[[A B] C] D].
  apply N.eqb_eq in A. apply N.ltb_lt in B. apply N.eqb_eq in C. apply Nat.eqb_eq in D. auto.
Qed.

Lemma next_classify b r :
  next_codepoint (b :: r) =
  match classify b, r with
  | 1%nat, _ => Ret (b, r)
  | 2%nat, c1 :: r' => Ret (N.lor (N.shiftl (N.land b 31) 6) (N.land c1 63), r')
  | 3%nat, c1 :: c2 :: r' => Ret (N.lor (N.lor (N.shiftl (N.land b 15) 12)
                              (N.shiftl (N.land c1 63) 6)) (N.land c2 63), r')
  | 4%nat, c1 :: c2 :: c3 :: r' => 
      Ret (N.lor (N.lor (N.lor (N.shiftl (N.land b 7) 18)
                   (N.shiftl (N.land c1 63) 12)) (N.shiftl (N.land c2 63) 6))
                   (N.land c3 63), r')
  | 5%nat, c1 :: c2 :: c3 :: c4 :: r' =>
     Ret (N.lor (N.lor (N.lor (N.lor (N.shiftl (N.land b 3) 14)
                   (N.shiftl (N.land c1 63) 18)) (N.shiftl (N.land c2 63) 12))
                   (N.shiftl (N.land c3 63) 6)) (N.land c4 63), r')
  | 6%nat, c1 :: c2 :: c3 :: c4 :: c5 :: r' =>
     Ret (N.lor (N.lor (N.lor (N.lor (N.lor (N.shiftl (N.land b 1) 30)
                   (N.shiftl (N.land c1 63) 24)) (N.shiftl (N.land c2 63) 18))
                   (N.shiftl (N.land c3 63) 12)) (N.shiftl (N.land c4 63) 6))
                   (N.land c5 63), r')
  | _, _ => Throw
  end.
Proof.
  unfold next_codepoint, classify.
  destruct (b <? 128); auto. destruct (lead2 b); auto. destruct (lead3 b); auto.
  destruct (lead4 b); auto. destruct (lead5 b); auto. destruct (lead6 b); auto.
Qed.

Lemma encode_std c : c < 2097152 -> encode_codepoint c = utf8_std c.
Proof.
  intro H. unfold encode_codepoint, utf8_std.
  change 0x80 with 128. change 0x800 with 2048. change 0x10000 with 65536.
  destruct (N.ltb_spec c 128); auto.
  rewrite !cont_eq, !N.shiftr_div_pow2.
  change (2^6) with 64; change (2^12) with 4096; change (2^18) with 262144.
  destruct (N.ltb_spec c 2048); [|destruct (N.ltb_spec c 65536); [|rewrite (proj2 (N.ltb_lt c 2097152)) by auto]].
  - rewrite land31. destruct (lead_shape 2 192 32 (c/64)) as (-> & _); try reflexivity; try discriminate.
    rewrite N.mod_small; auto. apply N.div_lt_upper_bound; lia.
  - rewrite land15. destruct (lead_shape 3 224 16 (c/4096)) as (-> & _); try reflexivity; try discriminate.
    rewrite N.mod_small; auto. apply N.div_lt_upper_bound; lia.
  - rewrite land7. destruct (lead_shape 4 240 8 (c/262144)) as (-> & _); try reflexivity; try discriminate.
    rewrite N.mod_small; auto. apply N.div_lt_upper_bound; lia.
Qed.

(** Exact result of decoding an encoded code point. *)
Definition decoded (c : N) : N :=
  if c <? 16777216 then c
  else if c <? 67108864 then N.lor (N.shiftl (c / 16777216) 14) (c mod 16777216)
  else (c / 1073741824 mod 2) * 1073741824 + (c / 16777216 mod 64) * 16777216
       + (c / 262144 mod 64) * 262144 + (c / 2048 mod 64) * 4096 + c mod 4096.

Lemma decode_encode c tail : next_codepoint (encode_codepoint c ++ tail) = Ret (decoded c, tail).
Proof.
  unfold encode_codepoint, decoded.
  destruct (N.ltb_spec c 128) as [H|H].
  { cbn [app next_codepoint]. rewrite (proj2 (N.ltb_lt c 128)) by auto.
    rewrite (proj2 (N.ltb_lt c 16777216)) by lia. reflexivity. }
  rewrite !N.shiftr_div_pow2.
  change (2^6) with 64; change (2^12) with 4096; change (2^18) with 262144;
  change (2^24) with 16777216; change (2^30) with 1073741824; change (2^11) with 2048.
  destruct (N.ltb_spec c 2048) as [H1|H1].
  { rewrite land31. destruct (lead_shape 2 192 32 (c/64)) as (_ & _ & L & K); try reflexivity; try discriminate.
    cbn [app]. rewrite next_classify, K. change 31 with (32-1). rewrite L.
    rewrite land63, cont_64, lor2 by apply m64.
    rewrite (proj2 (N.ltb_lt c 16777216)) by lia. f_equal. f_equal.
    rewrite N.mod_small by (apply N.div_lt_upper_bound; lia).
    rewrite (N.div_mod c 64) at 3 by discriminate. lia. }
  destruct (N.ltb_spec c 65536) as [H2|H2].
  { rewrite land15. destruct (lead_shape 3 224 16 (c/4096)) as (_ & _ & L & K); try reflexivity; try discriminate.
    cbn [app]. rewrite next_classify, K. change 15 with (16-1). rewrite L.
    rewrite !land63, !cont_64, lor3 by apply m64.
    rewrite (proj2 (N.ltb_lt c 16777216)) by lia. f_equal. f_equal.
    rewrite N.mod_small by (apply N.div_lt_upper_bound; lia).
    clear -H2. zify. Z.to_euclidean_division_equations. lia. }
  destruct (N.ltb_spec c 2097152) as [H3|H3].
  { rewrite land7. destruct (lead_shape 4 240 8 (c/262144)) as (_ & _ & L & K); try reflexivity; try discriminate.
    cbn [app]. rewrite next_classify, K. change 7 with (8-1). rewrite L.
    rewrite !land63, !cont_64, lor4 by apply m64.
    rewrite (proj2 (N.ltb_lt c 16777216)) by lia. f_equal. f_equal.
    rewrite N.mod_small by (apply N.div_lt_upper_bound; lia).
    clear -H3. zify. Z.to_euclidean_division_equations. lia. }
  destruct (N.ltb_spec c 67108864) as [H4|H4].
  { rewrite land3. destruct (lead_shape 5 248 4 (c/16777216)) as (_ & _ & L & K); try reflexivity; try discriminate.
    cbn [app]. rewrite next_classify, K. change 3 with (4-1). rewrite L.
    rewrite !land63, !cont_64. f_equal. f_equal.
    rewrite N.mod_small by (apply N.div_lt_upper_bound; lia).
    rewrite <- !N.lor_assoc.
    assert (N.lor (N.shiftl ((c / 262144) mod 64) 18)
             (N.lor (N.shiftl ((c / 4096) mod 64) 12) (N.lor (N.shiftl ((c / 64) mod 64) 6) (c mod 64)))
            = c mod 16777216) as ->.
    { rewrite !N.lor_assoc, lor4 by apply m64.
      clear. zify. Z.to_euclidean_division_equations. lia. }
    destruct (N.ltb_spec c 16777216) as [H5|H5]; auto.
    rewrite N.div_small by auto. rewrite N.shiftl_0_l, N.lor_0_l. now rewrite N.mod_small. }
  { rewrite land1. destruct (lead_shape 6 252 2 (c/1073741824)) as (_ & _ & L & K); try reflexivity; try discriminate.
    cbn [app]. rewrite next_classify, K. change 1 with (2-1). rewrite L.
    rewrite !land63, !cont_64, lor6 by apply m64.
    rewrite (proj2 (N.ltb_ge c 16777216)) by lia. f_equal. f_equal.
    assert (c / 64 mod 64 * 64 + c mod 64 = c mod 4096) by (clear; zify; Z.to_euclidean_division_equations; lia).
    lia. }
Qed.

Lemma roundtrip c tail : c < 16777216 -> next_codepoint (encode_codepoint c ++ tail) = Ret (c, tail).
Proof. intro H. rewrite decode_encode. unfold decoded. now rewrite (proj2 (N.ltb_lt _ _) H). Qed.

Lemma roundtrip_5 c tail : 16777216 <= c < 67108864 ->
  exists d, next_codepoint (encode_codepoint c ++ tail) = Ret (d, tail) /\ d < c.
Proof.
  intro H. rewrite decode_encode. eexists; split; [reflexivity|]. unfold decoded.
  rewrite (proj2 (N.ltb_ge c 16777216)), (proj2 (N.ltb_lt c 67108864)) by lia.
  assert (N.lor (N.shiftl (c / 16777216) 14) (c mod 16777216) < 16777216); [|lia].
  change 16777216 with (2^24) at 3.
  assert (forall x y n, x < 2^n -> y < 2^n -> N.lor x y < 2^n) as X.
  { clear. intros x y n Hx Hy. destruct (N.eq_0_gt_0_cases (N.lor x y)) as [->|P]; [lia|].
    apply N.log2_lt_pow2; auto. rewrite N.log2_lor.
    assert (0 < 2^n -> 0 < n \/ n = 0) by lia.
    destruct (N.eq_0_gt_0_cases n) as [->|Pn].
    - rewrite N.pow_0_r in *. assert (x = 0) by lia. assert (y = 0) by lia. subst. cbn in P. lia.
    - apply N.max_lub_lt.
      + destruct (N.eq_0_gt_0_cases x) as [->|]; [cbn; lia|]. now apply N.log2_lt_pow2.
      + destruct (N.eq_0_gt_0_cases y) as [->|]; [cbn; lia|]. now apply N.log2_lt_pow2. }
  apply X.
  - rewrite N.shiftl_mul_pow2. change (2^14) with 16384. change (2^24) with 16777216.
    assert (c / 16777216 < 4) by (apply N.div_lt_upper_bound; lia). lia.
  - apply N.mod_lt; discriminate.
Qed.

Lemma roundtrip_6 c tail : 67108864 <= c < 4294967296 ->
  (next_codepoint (encode_codepoint c ++ tail) = Ret (c, tail) <->
   c < 2147483648 /\ c / 4096 mod 64 = c / 2048 mod 64).
Proof.
  intro H. rewrite decode_encode. unfold decoded.
  rewrite (proj2 (N.ltb_ge c 16777216)), (proj2 (N.ltb_ge c 67108864)) by lia.
  assert (c = (c / 1073741824) * 1073741824 + (c / 16777216 mod 64) * 16777216
       + (c / 262144 mod 64) * 262144 + (c / 4096 mod 64) * 4096 + c mod 4096) as E.
  { clear. zify; Z.to_euclidean_division_equations; lia. }
  assert (c / 1073741824 mod 2 = c / 1073741824 <-> c < 2147483648) as F.
  { clear. zify; Z.to_euclidean_division_equations; lia. }
  assert (c / 1073741824 mod 2 <= c / 1073741824) as G by (apply N.mod_le; discriminate).
  pose proof (m64 (c / 2048)). pose proof (m64 (c / 4096)).
  assert (c mod 4096 < 4096) by (apply N.mod_lt; discriminate).
  set (a := c / 1073741824 mod 2) in *. set (a' := c / 1073741824) in *.
  set (b := c / 16777216 mod 64) in *. set (d := c / 262144 mod 64) in *.
  set (e := c / 4096 mod 64) in *. set (e' := c / 2048 mod 64) in *. set (f := c mod 4096) in *.
  clearbody a a' b d e e' f.
  split.
  - intro X. assert (a * 1073741824 + b * 16777216 + d * 262144 + e' * 4096 + f = c) as X' by congruence.
    rewrite <- F. split; lia.
  - rewrite <- F. intros [-> <-]. f_equal. f_equal. lia.
Qed.

Lemma next_total s : (exists c r, next_codepoint s = Ret (c, r) /\ (length r <= length s)%nat) \/ next_codepoint s = Throw.
Proof.
  destruct s as [|b s]; [left; exists 0, []; auto|]. rewrite next_classify.
  destruct (classify b) as [|[|[|[|[|[|[|n]]]]]]]; auto;
  repeat (match goal with |- context [match ?s with [] => _ | _ => _ end] => destruct s end; auto);
  left; do 2 eexists; (split; [reflexivity|cbn; lia]).
Qed.

(** validity *)
Lemma valid_units u fuel s : bytes u -> units u -> (length u <= fuel)%nat ->
  exists fuel', (fuel' + length u >= fuel)%nat /\ is_valid fuel (u ++ s) = is_valid fuel' s.
Proof.
  intros Hb Hu. revert fuel. induction Hu as [|b t u Ha Ht Hu IH]; intros fuel Hf.
  { exists fuel; split; auto. cbn; lia. }
  assert (b < 256) as Hb256 by (inversion Hb; auto).
  assert (bytes u) as Hbu. { cbn in Hb. inversion Hb as [|? ? ? X]; subst. apply Forall_app in X; tauto. }
  rewrite app_length in Hf. cbn [length] in Hf.
  destruct fuel as [|n]; [lia|].
  destruct (IH Hbu n) as (f' & Hge & E); [lia|].
  exists f'. split; [rewrite app_length; cbn; lia|]. rewrite <- E. clear IH E.
  pose proof (classify_spec b Hb256) as C. cbn [app is_valid].
  unfold classify in C. revert C Ha Ht. generalize (announced b). intros a C Ha Ht.
  destruct (b <? 128); [lia|].
  destruct (lead2 b); [subst a; destruct t as [|? [|? ?]]; cbn in Ht; try lia; reflexivity|].
  destruct (lead3 b); [subst a; destruct t as [|? [|? [|? ?]]]; cbn in Ht; try lia; reflexivity|].
  destruct (lead4 b); [subst a; destruct t as [|? [|? [|? [|? ?]]]]; cbn in Ht; try lia; reflexivity|].
  destruct (lead5 b); [subst a; destruct t as [|? [|? [|? [|? [|? ?]]]]]; cbn in Ht; try lia; reflexivity|].
  destruct (lead6 b); [subst a; destruct t as [|? [|? [|? [|? [|? [|? ?]]]]]]; cbn in Ht; try lia; reflexivity|].
  lia.
Qed.

Lemma valid_stuck b r fuel : b < 256 -> announced b = 0%nat -> is_valid fuel (b :: r) = Diverge.
Proof.
  intros Hb Ha. induction fuel as [|n IH]; auto. cbn [is_valid].
  pose proof (classify_spec b Hb) as C. rewrite Ha in C. unfold classify in C.
  destruct (b <? 128); [discriminate|]. destruct (lead2 b); [discriminate|].
  destruct (lead3 b); [discriminate|]. destruct (lead4 b); [discriminate|].
  destruct (lead5 b); [discriminate|]. destruct (lead6 b); [discriminate|]. exact IH.
Qed.

Lemma valid_short b r n : b < 256 -> (2 <= announced b)%nat -> (length r < announced b - 1)%nat ->
  is_valid (S n) (b :: r) = Ret false.
Proof.
  intros Hb Ha Hr. cbn [is_valid].
  pose proof (classify_spec b Hb) as C. unfold classify in C. revert C Ha Hr. generalize (announced b). intros a C Ha Ht.
  destruct (b <? 128); [lia|].
  destruct (lead2 b); [subst a; destruct r; cbn in Ht; try lia; reflexivity|].
  destruct (lead3 b); [subst a; destruct r as [|? [|? ?]]; cbn in Ht; try lia; reflexivity|].
  destruct (lead4 b); [subst a; destruct r as [|? [|? [|? ?]]]; cbn in Ht; try lia; reflexivity|].
  destruct (lead5 b); [subst a; destruct r as [|? [|? [|? [|? ?]]]]; cbn in Ht; try lia; reflexivity|].
  destruct (lead6 b); [subst a; destruct r as [|? [|? [|? [|? [|? ?]]]]]; cbn in Ht; try lia; reflexivity|].
  lia.
Qed.

Lemma valid_ascii b r n : b < 128 -> is_valid (S n) (b :: r) = Ret true.
Proof. intro H. cbn. now rewrite (proj2 (N.ltb_lt _ _) H). Qed.

(** Every byte string splits into complete units and a remainder. *)
Inductive rest_kind := KEnd | KAscii | KShort | KBad.
Definition rest_is (k : rest_kind) (s : list N) : Prop :=
  match k with
  | KEnd => s = []
  | KAscii => exists b r, s = b :: r /\ b < 128
  | KShort => exists b r, s = b :: r /\ (2 <= announced b)%nat /\ (length r < announced b - 1)%nat
  | KBad => exists b r, s = b :: r /\ announced b = 0%nat
  end.

Lemma split_units s : bytes s -> exists u r k, s = u ++ r /\ units u /\ rest_is k r.
Proof.
  remember (length s) as n eqn:E. assert (length s <= n)%nat as L by lia. clear E. revert s L.
  induction n as [|n IH]; intros s L Hb.
  { destruct s; [|cbn in L; lia]. exists [], [], KEnd. repeat split. constructor. }
  destruct s as [|b r]. { exists [], [], KEnd. repeat split. constructor. }
  assert (b < 256) as Hb0 by (inversion Hb; auto).
  destruct (N.lt_ge_cases b 128) as [A|A].
  { exists [], (b :: r), KAscii. repeat split; [constructor|]. cbn; eauto. }
  destruct (Nat.lt_ge_cases (announced b) 2) as [B|B].
  { exists [], (b :: r), KBad. repeat split; [constructor|]. exists b, r. split; auto.
    unfold announced in *. rewrite (proj2 (N.ltb_ge b 128)) in * by auto.
    repeat match goal with |- context [if ?x then _ else _] => destruct x end; auto; lia. }
  destruct (Nat.lt_ge_cases (length r) (announced b - 1)) as [C|C].
  { exists [], (b :: r), KShort. repeat split; [constructor|]. exists b, r. auto. }
  destruct (IH (skipn (announced b - 1) r)) as (u & t & k & E & Hu & Hk).
  { rewrite skipn_length. cbn in L. lia. }
  { inversion Hb; subst. unfold bytes in *. rewrite <- (firstn_skipn (announced b - 1) r) in H2.
    apply Forall_app in H2. tauto. }
  exists ((b :: firstn (announced b - 1) r) ++ u), t, k. split; [|split; auto].
  - rewrite <- app_assoc, <- E. cbn [app]. now rewrite firstn_skipn.
  - constructor; auto. rewrite firstn_length. lia.
Qed.

Lemma valid_answer s fuel : bytes s -> (length s < fuel)%nat ->
  forall u r k, s = u ++ r -> units u -> rest_is k r ->
  is_valid fuel s = match k with KEnd | KAscii => Ret true | KShort => Ret false | KBad => Diverge end.
Proof.
  intros Hb Hf u r k -> Hu Hk. apply Forall_app in Hb as [Hbu Hbr]. rewrite app_length in Hf.
  destruct (valid_units u fuel r Hbu Hu) as (f' & Hg & ->); [lia|].
  destruct f' as [|n]; [lia|]. destruct k; cbn in Hk.
  - subst. reflexivity.
  - destruct Hk as (b & r' & -> & H). now apply valid_ascii.
  - destruct Hk as (b & r' & -> & H1 & H2). apply valid_short; auto. inversion Hbr; auto.
  - destruct Hk as (b & r' & -> & H). apply valid_stuck; auto. inversion Hbr; auto.
Qed.

Lemma valid_true_iff s fuel : bytes s -> (length s < fuel)%nat ->
  (is_valid fuel s = Ret true <->
   exists u r, s = u ++ r /\ units u /\ (r = [] \/ exists a t, r = a :: t /\ a < 128)).
Proof.
  intros Hb Hf. destruct (split_units s Hb) as (u & r & k & E & Hu & Hk).
  rewrite (valid_answer s fuel Hb Hf u r k E Hu Hk). split.
  - destruct k; try discriminate; intros _; exists u, r; repeat split; auto.
  - intros (u' & r' & E' & Hu' & Hr').
    assert (is_valid fuel s = Ret true) as X.
    { destruct Hr' as [Hr'|Hr'].
      - apply (valid_answer s fuel Hb Hf u' r' KEnd E' Hu' Hr').
      - apply (valid_answer s fuel Hb Hf u' r' KAscii E' Hu' Hr'). }
    rewrite <- (valid_answer s fuel Hb Hf u r k E Hu Hk). exact X.
Qed.

Lemma valid_false_iff s fuel : bytes s -> (length s < fuel)%nat ->
  (is_valid fuel s = Ret false <->
   exists u b r, s = u ++ b :: r /\ units u /\ (2 <= announced b)%nat /\ (length (b :: r) < announced b)%nat).
Proof.
  intros Hb Hf. destruct (split_units s Hb) as (u & r & k & E & Hu & Hk). split.
  - rewrite (valid_answer s fuel Hb Hf u r k E Hu Hk).
    destruct k; try discriminate. intros _. destruct Hk as (b & t & -> & H1 & H2).
    exists u, b, t. cbn. repeat split; auto. lia.
  - intros (u' & b & t & E' & Hu' & H1 & H2).
    apply (valid_answer s fuel Hb Hf u' (b :: t) KShort E' Hu'). exists b, t. cbn in H2. repeat split; auto. lia.
Qed.

Lemma valid_loops_iff s : bytes s ->
  ((forall fuel, is_valid fuel s = Diverge) <->
   exists u b r, s = u ++ b :: r /\ units u /\ announced b = 0%nat).
Proof.
  intros Hb. destruct (split_units s Hb) as (u & r & k & E & Hu & Hk). split.
  - intro H. specialize (H (S (length s))).
    rewrite (valid_answer s (S (length s)) Hb ltac:(lia) u r k E Hu Hk) in H.
    destruct k; try discriminate. destruct Hk as (b & t & -> & H1). exists u, b, t. auto.
  - intros (u' & b & t & E' & Hu' & H1) fuel.
    destruct (Nat.lt_ge_cases (length s) fuel) as [L|L].
    + apply (valid_answer s fuel Hb L u' (b :: t) KBad E' Hu'). exists b, t; auto.
    + assert (is_valid (S (length s)) s = Diverge) as D.
      { apply (valid_answer s (S (length s)) Hb (Nat.lt_succ_diag_r _) u' (b :: t) KBad E' Hu'). exists b, t; auto. }
      assert (forall f1 f2 s0, (f1 <= f2)%nat -> is_valid f2 s0 = Diverge -> is_valid f1 s0 = Diverge) as M.
      { clear. induction f1 as [|f1 IH]; intros f2 s0 H D.
        - destruct s0; [destruct f2; discriminate D|reflexivity].
        - destruct f2 as [|f2]; [lia|]. destruct s0 as [|x s0]; [discriminate D|].
          assert (forall z, is_valid f2 z = Diverge -> is_valid f1 z = Diverge) as IH' by (intros; eapply IH; [|eauto]; lia).
          cbn [is_valid] in *.
          destruct (x <? 128); auto.
          destruct (lead2 x); [destruct s0; auto; fail|].
          destruct (lead3 x); [destruct s0 as [|? [|? ?]]; auto; fail|].
          destruct (lead4 x); [destruct s0 as [|? [|? [|? ?]]]; auto; fail|].
          destruct (lead5 x); [destruct s0 as [|? [|? [|? [|? ?]]]]; auto; fail|].
          destruct (lead6 x); [destruct s0 as [|? [|? [|? [|? [|? ?]]]]]; auto; fail|]. auto. }
      apply (M fuel (S (length s))); auto.
Qed.

Lemma scalar_bound c : scalar c -> c < 2097152.
Proof. intros [H|[_ H]]; lia. Qed.

Lemma std_bytes c : scalar c -> bytes (utf8_std c).
Proof.
  intro H. apply scalar_bound in H. unfold bytes, utf8_std.
  change 0x80 with 128. change 0x800 with 2048. change 0x10000 with 65536.
  pose proof (m64 c). pose proof (m64 (c/64)). pose proof (m64 (c / 4096)).
  destruct (N.ltb_spec c 128); [repeat constructor; lia|].
  destruct (N.ltb_spec c 2048); [|destruct (N.ltb_spec c 65536)]; repeat constructor; try lia.
  - assert (c / 64 < 32) by (apply N.div_lt_upper_bound; lia). lia.
  - assert (c / 4096 < 16) by (apply N.div_lt_upper_bound; lia). lia.
  - assert (c / 262144 < 8) by (apply N.div_lt_upper_bound; lia). lia.
Qed.

Lemma std_unit c : scalar c -> (exists a, utf8_std c = [a] /\ a < 128) \/
  (exists b t, utf8_std c = b :: t /\ (2 <= announced b)%nat /\ length t = (announced b - 1)%nat).
Proof.
  intro H. apply scalar_bound in H. unfold utf8_std.
  change 0x80 with 128. change 0x800 with 2048. change 0x10000 with 65536.
  destruct (N.ltb_spec c 128) as [H0|H0]; [left; eauto|right].
  destruct (N.ltb_spec c 2048); [|destruct (N.ltb_spec c 65536)];
    do 2 eexists; (split; [reflexivity|]).
  - assert (c / 64 < 32) by (apply N.div_lt_upper_bound; lia).
    set (q := c / 64) in *. clearbody q.
    replace (announced (192 + q)) with 2%nat; [cbn; lia|].
    unfold announced. rewrite (proj2 (N.ltb_ge _ 128)), (proj2 (N.ltb_ge _ 192)), (proj2 (N.ltb_lt _ 224)) by lia. auto.
  - assert (c / 4096 < 16) by (apply N.div_lt_upper_bound; lia).
    set (q := c / 4096) in *. clearbody q.
    replace (announced (224 + q)) with 3%nat; [cbn; lia|].
    unfold announced. rewrite (proj2 (N.ltb_ge _ 128)), (proj2 (N.ltb_ge _ 192)), (proj2 (N.ltb_ge _ 224)),
      (proj2 (N.ltb_lt _ 240)) by lia. auto.
  - assert (c / 262144 < 8) by (apply N.div_lt_upper_bound; lia).
    set (q := c / 262144) in *. clearbody q.
    replace (announced (240 + q)) with 4%nat; [cbn; lia|].
    unfold announced. rewrite (proj2 (N.ltb_ge _ 128)), (proj2 (N.ltb_ge _ 192)), (proj2 (N.ltb_ge _ 224)),
      (proj2 (N.ltb_ge _ 240)), (proj2 (N.ltb_lt _ 248)) by lia. auto.
Qed.

Lemma wf_bytes s : well_formed s -> bytes s.
Proof. induction 1; [constructor|]. apply Forall_app; split; auto. now apply std_bytes. Qed.

Lemma wf_valid s fuel : well_formed s -> (length s < fuel)%nat -> is_valid fuel s = Ret true.
Proof.
  intros W Hf. apply valid_true_iff; auto using wf_bytes. clear Hf.
  induction W as [|c s Hc W IH].
  - exists [], []. repeat split; auto. constructor.
  - destruct (std_unit c Hc) as [(a & E & Ha)|(b & t & E & H1 & H2)]; rewrite E.
    + exists [], ([a] ++ s). repeat split; [constructor|]. right. cbn. eauto.
    + destruct IH as (u & r & -> & Hu & Hr). exists ((b :: t) ++ u), r. repeat split; auto.
      * now rewrite app_assoc.
      * now constructor.
Qed.

(** conversions *)
Lemma encode_nonempty c : (1 <= length (encode_codepoint c))%nat.
Proof.
  unfold encode_codepoint. repeat match goal with |- context [if ?x then _ else _] => destruct x end; cbn; lia.
Qed.

Lemma to32_ok t : Forall (fun c => 0 < c < 16777216) t -> forall fuel,
  (length t < fuel)%nat -> utf8_to_32 fuel (utf32_to_8 t) = Ret t.
Proof.
  induction 1 as [|c t Hc Ht IH]; intros fuel Hf; destruct fuel as [|n]; try lia; cbn [utf32_to_8 utf8_to_32].
  - reflexivity.
  - rewrite roundtrip by lia. cbn [bind]. rewrite (proj2 (N.eqb_neq c 0)) by lia.
    rewrite IH by (cbn in Hf; lia). reflexivity.
Qed.

Lemma to16_ok t : Forall (fun c => 0 < c < 65536) t -> forall fuel,
  (length t < fuel)%nat -> utf8_to_16 fuel (utf16_to_8 t) = Ret t.
Proof.
  unfold utf16_to_8.
  induction 1 as [|c t Hc Ht IH]; intros fuel Hf; destruct fuel as [|n]; try lia; cbn [utf32_to_8 utf8_to_16].
  - reflexivity.
  - rewrite roundtrip by lia. cbn [bind]. rewrite N.mod_small by lia.
    rewrite (proj2 (N.eqb_neq c 0)) by lia.
    rewrite IH by (cbn in Hf; lia). reflexivity.
Qed.

Lemma count_ok t : Forall (fun c => 0 < c < 16777216) t -> forall fuel,
  (length t < fuel)%nat -> count_code_points fuel (utf32_to_8 t) = Ret (length t).
Proof.
  induction 1 as [|c t Hc Ht IH]; intros fuel Hf; destruct fuel as [|n]; try lia; cbn [utf32_to_8 count_code_points].
  - reflexivity.
  - rewrite roundtrip by lia. cbn [bind]. rewrite (proj2 (N.eqb_neq c 0)) by lia.
    rewrite IH by (cbn in Hf; lia). reflexivity.
Qed.

Lemma to32_nul t u : Forall (fun c => 0 < c < 16777216) t -> forall fuel,
  (length t < fuel)%nat -> utf8_to_32 fuel (utf32_to_8 (t ++ 0 :: u)) = Ret t.
Proof.
  induction 1 as [|c t Hc Ht IH]; intros fuel Hf; destruct fuel as [|n]; try lia; cbn [app utf32_to_8 utf8_to_32].
  - reflexivity.
  - rewrite roundtrip by lia. cbn [bind]. rewrite (proj2 (N.eqb_neq c 0)) by lia.
    rewrite IH by (cbn in Hf; lia). reflexivity.
Qed.

Lemma to16_astral c : 65536 <= c < 16777216 -> forall fuel, (2 <= fuel)%nat ->
  utf8_to_16 fuel (utf32_to_8 [c]) = Ret (if c mod 65536 =? 0 then [] else [c mod 65536]).
Proof.
  intros Hc fuel Hf. destruct fuel as [|[|n]]; try lia. cbn [utf32_to_8].
  remember (S n) as m. cbn [utf8_to_16]. rewrite roundtrip by lia. cbn [bind].
  destruct (c mod 65536 =? 0); auto. subst m. reflexivity.
Qed.

Lemma next_shrinks s c r : next_codepoint s = Ret (c, r) -> c <> 0 -> (length r < length s)%nat.
Proof.
  destruct s as [|b s]; [cbn; intros H; injection H; intros; subst; congruence|].
  rewrite next_classify.
  destruct (classify b) as [|[|[|[|[|[|[|n]]]]]]]; try discriminate;
  repeat (match goal with |- context [match ?s with [] => _ | _ => _ end] => destruct s end; try discriminate);
  intros H _; injection H; intros; subst; cbn; lia.
Qed.

Lemma to32_total fuel : forall s, (length s < fuel)%nat ->
  (exists t, utf8_to_32 fuel s = Ret t) \/ utf8_to_32 fuel s = Throw.
Proof.
  induction fuel as [|n IH]; intros s Hs; [lia|]. cbn [utf8_to_32].
  destruct (next_total s) as [(c & r & E & _)|E]; rewrite E; cbn [bind]; auto.
  destruct (N.eqb_spec c 0) as [->|Hc]; [left; eauto|].
  apply next_shrinks in E; auto.
  destruct (IH r) as [(t & E')|E']; [lia|rewrite E'; left; cbn; eauto|rewrite E'; right; reflexivity].
Qed.
