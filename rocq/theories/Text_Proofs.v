(** Lemmas for Text_Props.v. *)
From Verif Require Import Base Num Geo_Model Text_Model Text_Spec.
From Coq Require Import Permutation Sorted.
Local Open Scope nat_scope.

Definition lev (levels : list nat) (k : nat) : nat := nth k levels 0.
(** A maximal range of positions with at least level M. *)
Definition run (levels : list nat) (M b e : nat) : Prop :=
  b < e <= length levels /\ (forall k, b <= k < e -> M <= lev levels k) /\
  (b = 0 \/ lev levels (b - 1) < M) /\ (e = length levels \/ lev levels e < M).

Lemma run_same levels M b e b' e' k : run levels M b e -> run levels M b' e' -> b <= k < e -> b' <= k < e' -> b = b' /\ e = e'.
Proof.
  intros (A & B & C & D) (A' & B' & C' & D') K K'. split.
  - destruct (lt_eq_lt_dec b b') as [[L|E]|L]; [|exact E|].
    + destruct C' as [C'|C']; [lia|]. specialize (B (b' - 1) ltac:(lia)). lia.
    + destruct C as [C|C]; [lia|]. specialize (B' (b - 1) ltac:(lia)). lia.
  - destruct (lt_eq_lt_dec e e') as [[L|E]|L]; [|exact E|].
    + destruct D as [D|D]; [lia|]. specialize (B' e ltac:(lia)). lia.
    + destruct D' as [D'|D']; [lia|]. specialize (B e' ltac:(lia)). lia.
Qed.
Lemma run_up levels M n : forall b, length levels - b = n -> b < length levels -> M <= lev levels b ->
  exists e, b < e <= length levels /\ (forall k, b <= k < e -> M <= lev levels k) /\ (e = length levels \/ lev levels e < M).
Proof.
  induction n as [|n IH]; intros b N B L; [lia|].
  destruct (Nat.eq_dec (S b) (length levels)) as [E|E].
  - exists (S b). split; [lia|]. split; [intros k K; assert (k = b) by lia; now subst|now left].
  - destruct (le_lt_dec M (lev levels (S b))) as [G|G].
    + destruct (IH (S b) ltac:(lia) ltac:(lia) G) as (e & E1 & E2 & E3). exists e. split; [lia|]. split; [|exact E3].
      intros k K. destruct (Nat.eq_dec k b); [now subst|]. apply E2. lia.
    + exists (S b). split; [lia|]. split; [intros k K; assert (k = b) by lia; now subst|now right].
Qed.
Lemma run_down levels M : forall p, M <= lev levels p ->
  exists b, b <= p /\ (forall k, b <= k <= p -> M <= lev levels k) /\ (b = 0 \/ lev levels (b - 1) < M).
Proof.
  induction p as [|p IH]; intros L.
  - exists 0. split; [lia|]. split; [intros k K; assert (k = 0) by lia; now subst|now left].
  - destruct (le_lt_dec M (lev levels p)) as [G|G].
    + destruct (IH G) as (b & E1 & E2 & E3). exists b. split; [lia|]. split; [|exact E3].
      intros k K. destruct (Nat.eq_dec k (S p)); [now subst|]. apply E2. lia.
    + exists (S p). split; [lia|]. split; [intros k K; assert (k = S p) by lia; now subst|right; now replace (S p - 1) with p by lia].
Qed.
Lemma run_ex levels M p : p < length levels -> M <= lev levels p -> exists b e, run levels M b e /\ b <= p < e.
Proof.
  intros P L. destruct (run_down levels M p L) as (b & B1 & B2 & B3). destruct (run_up levels M _ p eq_refl P L) as (e & E1 & E2 & E3).
  exists b, e. split; [|lia]. split; [lia|]. split; [|auto]. intros k K. destruct (le_lt_dec k p); [apply B2; lia|apply E2; lia].
Qed.

(** The inner loop finds the end of the range. *)
Lemma range_end_spec levels M : forall fuel e, length levels - e <= fuel -> e <= length levels ->
  let r := fst (range_end fuel M levels e) in
  e <= r <= length levels /\ (forall k, e <= k < r -> M <= lev levels k) /\ (r = length levels \/ lev levels r < M) /\
  (snd (range_end fuel M levels e) = true <-> r = length levels).
Proof.
  induction fuel as [|f IH]; intros e F E; cbn [range_end].
  - assert (e = length levels) by lia. subst. rewrite (proj2 (nth_error_None levels (length levels))) by lia. cbn [fst snd].
    repeat split; try lia; auto.
  - destruct (nth_error levels e) as [v|] eqn:N.
    + assert (L : e < length levels) by (apply nth_error_Some; congruence).
      assert (V : lev levels e = v) by (unfold lev; now apply nth_error_nth).
      destruct (Nat.leb_spec M v) as [G|G].
      * specialize (IH (S e) ltac:(lia) ltac:(lia)). cbv zeta in IH. destruct IH as (A & B & C & D). cbv zeta. repeat split; try lia; auto.
        -- intros k K. destruct (Nat.eq_dec k e); [subst; lia|]. apply B. lia.
        -- apply D.
        -- apply D.
      * cbn [fst snd]. repeat split; try lia; auto; try discriminate.
    + apply nth_error_None in N. assert (e = length levels) by lia. subst. cbn [fst snd]. repeat split; try lia; auto.
Qed.

Lemma slice_length {A} b e (l : list A) : b <= e <= length l -> length (slice b e l) = e - b.
Proof. intro H. unfold slice. rewrite firstn_length, skipn_length. lia. Qed.
Lemma nth_slice b e (l : list nat) k : b <= e <= length l -> k < e - b -> nth k (slice b e l) 0 = nth (b + k) l 0.
Proof.
  intros H K. unfold slice. rewrite <- (firstn_skipn b l) at 2. rewrite app_nth2; rewrite firstn_length, Nat.min_l by lia; [|lia].
  replace (b + k - b) with k by lia. rewrite <- (firstn_skipn (e - b) (skipn b l)) at 2. rewrite app_nth1; [reflexivity|].
  rewrite firstn_length, skipn_length. lia.
Qed.
Lemma reverse_part_length b e l : b <= e <= length l -> length (reverse_part b e l) = length l.
Proof. intro H. unfold reverse_part. rewrite !app_length, rev_length, slice_length, firstn_length, skipn_length by lia. lia. Qed.
Lemma reverse_part_nth b e l p : b <= e <= length l -> p < length l ->
  nth p (reverse_part b e l) 0 = nth (if (b <=? p) && (p <? e) then b + e - 1 - p else p) l 0.
Proof.
  intros H P. unfold reverse_part. destruct (Nat.leb_spec b p) as [B|B]; cbn [andb].
  - rewrite app_nth2; rewrite firstn_length, Nat.min_l by lia; [|lia]. destruct (Nat.ltb_spec p e) as [E|E].
    + rewrite app_nth1 by (rewrite rev_length, slice_length; lia). rewrite rev_nth by (rewrite slice_length; lia).
      rewrite slice_length, nth_slice by lia. f_equal. lia.
    + rewrite app_nth2; rewrite rev_length, slice_length by lia; [|lia]. rewrite <- (firstn_skipn e l) at 2.
      rewrite app_nth2; rewrite firstn_length, Nat.min_l by lia; [|lia]. f_equal. lia.
  - rewrite app_nth1 by (rewrite firstn_length; lia). rewrite <- (firstn_skipn b l) at 2. rewrite app_nth1 by (rewrite firstn_length; lia). reflexivity.
Qed.
Lemma skipn_add {A} a b (l : list A) : skipn a (skipn b l) = skipn (b + a) l.
Proof. revert l. induction b as [|b IH]; intro l; [reflexivity|]. destruct l; [now rewrite !skipn_nil|]. cbn. apply IH. Qed.
Lemma reverse_part_perm b e l : b <= e <= length l -> Permutation l (reverse_part b e l).
Proof.
  intro H. unfold reverse_part. rewrite <- (firstn_skipn b l) at 1. apply Permutation_app_head.
  replace (skipn e l) with (skipn (e - b) (skipn b l)).
  - rewrite <- (firstn_skipn (e - b) (skipn b l)) at 1. apply Permutation_app_tail. unfold slice. apply Permutation_rev.
  - rewrite skipn_add. f_equal. lia.
Qed.

(** One pass reverses exactly the maximal ranges. *)
Lemma ranges_spec levels M order0 : 1 <= M -> length order0 = length levels ->
  forall fuel b order past, length levels - b <= fuel -> b <= length levels -> length order = length levels ->
  (b = 0 \/ b = length levels \/ lev levels (b - 1) < M \/ lev levels b < M) ->
  (forall p, b <= p < length levels -> nth p order 0 = nth p order0 0) ->
  (forall p, p < b -> lev levels p < M -> nth p order 0 = nth p order0 0) ->
  (forall rb re p, run levels M rb re -> p < b -> rb <= p < re -> re <= b /\ nth p order 0 = nth (rb + re - 1 - p) order0 0) ->
  Permutation order0 order ->
  let r := fst (ranges fuel M levels b order past) in
  Permutation order0 r /\ length r = length levels /\
  (forall p, p < length levels -> lev levels p < M -> nth p r 0 = nth p order0 0) /\
  (forall rb re p, run levels M rb re -> rb <= p < re -> nth p r 0 = nth (rb + re - 1 - p) order0 0).
Proof.
  intros M1 L0. induction fuel as [|f IH]; intros b order past F B L S0 U D1 D2 PM; cbn [ranges].
  - cbn [fst]. assert (b = length levels) by lia. subst b. repeat split; auto.
    intros rb re p R P. apply (D2 rb re p R); [|exact P]. destruct R as (R & _). lia.
  - destruct (Nat.ltb_spec b (length levels)) as [G|G].
    2:{ cbn [fst]. assert (b = length levels) by lia. subst b. repeat split; auto.
        intros rb re p R P. apply (D2 rb re p R); [|exact P]. destruct R as (R & _). lia. }
    pose proof (range_end_spec levels M (length levels) b ltac:(lia) ltac:(lia)) as RE.
    destruct (range_end (length levels) M levels b) as [e pst]. cbn [fst snd] in RE. destruct RE as (E1 & E2 & E3 & _).
    destruct (Nat.eqb_spec e b) as [Q|Q].
    + subst e. assert (LB : lev levels b < M) by (destruct E3; [lia|assumption]).
      apply IH; try lia; auto.
      * right. right. left. now replace (S b - 1) with b by lia.
      * intros p P. apply U. lia.
      * intros p P LP. destruct (Nat.eq_dec p b); [subst; apply U; lia|apply D1; [lia|exact LP]].
      * intros rb re p R P PR. destruct (Nat.eq_dec p b) as [->|NE].
        -- destruct R as (_ & R & _). specialize (R b PR). lia.
        -- destruct (D2 rb re p R ltac:(lia) PR) as [X Y]. split; [lia|exact Y].
    + assert (RB : run levels M b e).
      { split; [lia|]. split; [exact E2|]. split; [|exact E3]. destruct S0 as [S0|[S0|[S0|S0]]]; [now left|lia|now right|].
        specialize (E2 b ltac:(lia)). lia. }
      apply IH; try lia; auto.
      * rewrite reverse_part_length by lia. exact L.
      * intros p P. rewrite reverse_part_nth by lia. destruct (Nat.ltb_spec p e); [lia|]. rewrite andb_false_r. apply U. lia.
      * intros p P LP. rewrite reverse_part_nth by lia. destruct (Nat.leb_spec b p) as [X|X].
        -- specialize (E2 p ltac:(lia)). lia.
        -- cbn [andb]. now apply D1.
      * intros rb re p R P PR. destruct (le_lt_dec b p) as [X|X].
        -- destruct (run_same _ _ _ _ _ _ p RB R ltac:(lia) PR) as [<- <-]. split; [lia|].
           rewrite reverse_part_nth by lia. destruct (Nat.leb_spec b p); [|lia]. destruct (Nat.ltb_spec p e); [|lia]. cbn [andb]. apply U. lia.
        -- destruct (D2 rb re p R X PR) as [Y1 Y2]. split; [lia|]. rewrite reverse_part_nth by lia.
           destruct (Nat.leb_spec b p); [lia|]. exact Y2.
      * transitivity order; [exact PM|]. apply reverse_part_perm. lia.
Qed.

(** The relation between order and levels after the levels from L on. *)
Definition stage (levels : list nat) (L : nat) (order : list nat) : Prop :=
  Permutation (seq 0 (length levels)) order /\
  forall i j m p q, i < j -> j < length levels -> lowest levels i j m -> p < length levels -> q < length levels ->
    nth p order 0 = i -> nth q order 0 = j -> if Nat.even (S m - L) then p < q else q < p.
Lemma lev_nth levels k : k < length levels -> nth_error levels k = Some (lev levels k).
Proof. intro H. unfold lev. now apply nth_error_nth'. Qed.
Lemma lowest_ex levels : forall n i, i + n < length levels -> exists m, lowest levels i (i + n) m.
Proof.
  induction n as [|n IH]; intros i H.
  - exists (lev levels i). split; [exists i; split; [lia|apply lev_nth; lia]|]. intros k v K E. assert (k = i) by lia. subst.
    rewrite lev_nth in E by lia. injection E as <-. lia.
  - destruct (IH i ltac:(lia)) as (m & (k & K1 & K2) & M2).
    exists (Nat.min m (lev levels (i + S n))). split.
    + destruct (le_lt_dec m (lev levels (i + S n))) as [G|G].
      * rewrite Nat.min_l by lia. exists k. split; [lia|exact K2].
      * rewrite Nat.min_r by lia. exists (i + S n). split; [lia|apply lev_nth; lia].
    + intros k' v K E. destruct (Nat.eq_dec k' (i + S n)) as [->|N].
      * rewrite lev_nth in E by lia. injection E as <-. lia.
      * specialize (M2 k' v ltac:(lia) E). lia.
Qed.
Lemma lowest_le levels i j m k : lowest levels i j m -> i <= k <= j -> j < length levels -> m <= lev levels k.
Proof. intros [_ H] K J. apply (H k); [exact K|apply lev_nth; lia]. Qed.
Lemma lowest_ge levels i j m M : lowest levels i j m -> j < length levels -> (forall k, i <= k <= j -> M <= lev levels k) -> M <= m.
Proof. intros [(k & K & E) _] J H. rewrite lev_nth in E by lia. injection E as <-. now apply H. Qed.

Lemma cut n order c : Permutation (seq 0 n) order -> c <= n ->
  (forall p q, p < n -> q < n -> nth p order 0 < c -> c <= nth q order 0 -> p < q) ->
  forall p, p < n -> (nth p order 0 < c <-> p < c).
Proof.
  intros PM C H p P. pose proof (Permutation_length PM) as LN. rewrite seq_length in LN.
  assert (ND : NoDup order) by (apply (Permutation_NoDup PM), seq_NoDup). split; intro X.
  - assert (I : incl (firstn (S p) order) (seq 0 c)).
    { intros k K. apply (In_nth _ _ 0) in K as (q & Q1 & Q2). rewrite firstn_length in Q1.
      assert (nth q order 0 = k).
      { rewrite <- Q2. rewrite <- (firstn_skipn (S p) order) at 1. rewrite app_nth1; [reflexivity|rewrite firstn_length; lia]. }
      apply in_seq. split; [lia|]. destruct (le_lt_dec c k) as [G|G]; [|lia].
      assert (p < q) by (apply H; lia). lia. }
    apply NoDup_incl_length in I; [|rewrite <- (firstn_skipn (S p) order) in ND; clear - ND; induction (firstn (S p) order) as [|a l IH]; [constructor|];
      cbn [app] in ND; inversion ND as [|? ? N1 N2]; constructor; [intro; apply N1, in_or_app; now left|now apply IH]].
    rewrite firstn_length, seq_length in I. lia.
  - destruct (le_lt_dec c (nth p order 0)) as [G|G]; [|exact G]. exfalso.
    assert (I : incl (seq 0 c) (firstn p order)).
    { intros k K. apply in_seq in K. assert (IK : In k order) by (apply (Permutation_in _ PM), in_seq; lia).
      apply (In_nth _ _ 0) in IK as (q & Q1 & Q2). assert (q < p) by (apply H; lia).
      rewrite <- (firstn_skipn p order) in Q2. rewrite app_nth1 in Q2 by (rewrite firstn_length; lia). rewrite <- Q2. apply nth_In. rewrite firstn_length. lia. }
    apply NoDup_incl_length in I; [|apply seq_NoDup]. rewrite firstn_length, seq_length in I. lia.
Qed.
Lemma stage_cut levels L order c : stage levels L order -> c <= length levels ->
  (forall i j m, i < c -> c <= j -> j < length levels -> lowest levels i j m -> m < L) ->
  forall p, p < length levels -> (nth p order 0 < c <-> p < c).
Proof.
  intros [PM ST] C H. apply cut; [exact PM|exact C|]. intros p q P Q X Y.
  pose proof (Permutation_length PM) as LN. rewrite seq_length in LN.
  assert (nth q order 0 < length levels).
  { assert (In (nth q order 0) (seq 0 (length levels))) by (apply (Permutation_in _ (Permutation_sym PM)), nth_In; lia). rewrite in_seq in *. lia. }
  destruct (lowest_ex levels (nth q order 0 - nth p order 0) (nth p order 0) ltac:(lia)) as (m & LM).
  replace (nth p order 0 + (nth q order 0 - nth p order 0)) with (nth q order 0) in LM by lia.
  specialize (ST (nth p order 0) (nth q order 0) m p q ltac:(lia) ltac:(lia) LM P Q eq_refl eq_refl).
  specialize (H (nth p order 0) (nth q order 0) m X Y ltac:(lia) LM). replace (S m - L) with 0 in ST by lia. exact ST.
Qed.

Lemma step levels M order r : 1 <= M -> stage levels (S M) order -> length order = length levels -> Permutation order r ->
  (forall p, p < length levels -> lev levels p < M -> nth p r 0 = nth p order 0) ->
  (forall rb re p, run levels M rb re -> rb <= p < re -> nth p r 0 = nth (rb + re - 1 - p) order 0) ->
  stage levels M r.
Proof.
  intros M1 ST LN PR U D. pose proof ST as [PM S0].
  assert (BLK : forall b e, run levels M b e -> forall p, p < length levels -> (nth p order 0 < b <-> p < b) /\ (nth p order 0 < e <-> p < e)).
  { intros b e (R1 & R2 & R3 & R4) p P. split.
    - apply (stage_cut levels (S M)); [exact ST|lia| |exact P]. intros i j m I J JL LM.
      destruct R3 as [->|R3]; [lia|]. pose proof (lowest_le _ _ _ _ (b - 1) LM ltac:(lia) JL). lia.
    - apply (stage_cut levels (S M)); [exact ST|lia| |exact P]. intros i j m I J JL LM.
      destruct R4 as [->|R4]; [lia|]. pose proof (lowest_le _ _ _ _ e LM ltac:(lia) JL). lia. }
  assert (INN : forall p, p < length levels -> nth p order 0 < length levels).
  { intros p P. assert (In (nth p order 0) (seq 0 (length levels))) by (apply (Permutation_in _ (Permutation_sym PM)), nth_In; lia). rewrite in_seq in *. lia. }
  assert (LOW : forall p, p < length levels -> lev levels p < M -> lev levels (nth p order 0) < M).
  { intros p P LP. destruct (le_lt_dec M (lev levels (nth p order 0))) as [G|G]; [|exact G].
    destruct (run_ex levels M _ (INN p P) G) as (b & e & R & K). destruct (BLK b e R p P) as [B1 B2].
    destruct R as (_ & R & _). specialize (R p ltac:(lia)). lia. }
  split; [now transitivity order|].
  intros i j m p q I J LM P Q Ei Ej.
  destruct (le_lt_dec M (lev levels p)) as [Gp|Gp].
  - destruct (run_ex levels M p P Gp) as (b & e & R & Kp). rewrite (D b e p R Kp) in Ei.
    assert (Hp : b + e - 1 - p < length levels) by (destruct R as (R & _); lia).
    destruct (BLK b e R _ Hp) as [B1 B2]. rewrite Ei in B1, B2.
    destruct (le_lt_dec M (lev levels q)) as [Gq|Gq].
    + destruct (run_ex levels M q Q Gq) as (b2 & e2 & R2 & Kq). rewrite (D b2 e2 q R2 Kq) in Ej.
      assert (Hq : b2 + e2 - 1 - q < length levels) by (destruct R2 as (R2 & _); lia).
      destruct (BLK b2 e2 R2 _ Hq) as [C1 C2]. rewrite Ej in C1, C2.
      destruct (Nat.eq_dec b b2) as [<-|NB].
      * destruct (run_same _ _ _ _ _ _ b R R2 ltac:(destruct R; lia) ltac:(destruct R2; lia)) as [_ <-].
        assert (M <= m). { apply (lowest_ge _ _ _ _ M LM J). intros k K. destruct R as (_ & R & _). apply R. lia. }
        pose proof (S0 i j m _ _ I J LM Hp Hq Ei Ej) as X. replace (S m - M) with (S (S m - S M)) by lia.
        rewrite Nat.even_succ, <- Nat.negb_even. destruct (Nat.even (S m - S M)); cbn [negb]; lia.
      * assert (E2 : e <= b2).
        { destruct (le_lt_dec e b2) as [X|X]; [exact X|]. exfalso.
          destruct (le_lt_dec b b2) as [Y|Y].
          - destruct (run_same _ _ _ _ _ _ b2 R R2 ltac:(lia) ltac:(destruct R2; lia)). lia.
          - assert (e2 <= b).
            { destruct (le_lt_dec e2 b) as [Z|Z]; [exact Z|]. destruct (run_same _ _ _ _ _ _ b R R2 ltac:(destruct R; lia) ltac:(lia)). lia. }
            lia. }
        assert (m < M).
        { destruct R as (R1 & _ & _ & [R4|R4]); [lia|]. pose proof (lowest_le _ _ _ _ e LM ltac:(lia) J). lia. }
        replace (S m - M) with 0 by lia. cbn [Nat.even]. lia.
    + rewrite (U q Q Gq) in Ej. pose proof (LOW q Q Gq) as LJ. rewrite Ej in LJ.
      destruct (BLK b e R q Q) as [C1 C2]. rewrite Ej in C1, C2.
      assert (m < M) by (pose proof (lowest_le _ _ _ _ j LM ltac:(lia) J); lia).
      replace (S m - M) with 0 by lia. cbn [Nat.even].
      assert (e <= j). { destruct (le_lt_dec e j) as [X|X]; [exact X|]. destruct R as (_ & R & _). specialize (R j ltac:(lia)). lia. }
      lia.
  - rewrite (U p P Gp) in Ei. pose proof (LOW p P Gp) as LI. rewrite Ei in LI.
    assert (MM : m < M) by (pose proof (lowest_le _ _ _ _ i LM ltac:(lia) J); lia).
    replace (S m - M) with 0 by lia. cbn [Nat.even].
    destruct (le_lt_dec M (lev levels q)) as [Gq|Gq].
    + destruct (run_ex levels M q Q Gq) as (b2 & e2 & R2 & Kq). rewrite (D b2 e2 q R2 Kq) in Ej.
      assert (Hq : b2 + e2 - 1 - q < length levels) by (destruct R2 as (R2 & _); lia).
      destruct (BLK b2 e2 R2 _ Hq) as [C1 C2]. rewrite Ej in C1, C2.
      destruct (BLK b2 e2 R2 p P) as [B1 B2]. rewrite Ei in B1, B2.
      assert (i < b2). { destruct (le_lt_dec b2 i) as [X|X]; [|exact X]. destruct R2 as (_ & R2 & _). specialize (R2 i ltac:(lia)). lia. }
      lia.
    + rewrite (U q Q Gq) in Ej. pose proof (S0 i j m p q I J LM P Q Ei Ej) as X. replace (S m - S M) with 0 in X by lia. exact X.
Qed.

Lemma down_stage levels : forall level order past, stage levels (S level) order -> stage levels 1 (fst (levels_down level levels order past)).
Proof.
  induction level as [|l IH]; intros order past ST; [exact ST|]. cbn [levels_down].
  pose proof ST as [PM _]. pose proof (Permutation_length PM) as LN. rewrite seq_length in LN. symmetry in LN.
  pose proof (ranges_spec levels (S l) order ltac:(lia) LN (length levels) 0 order past ltac:(lia) ltac:(lia) LN ltac:(now left)
    ltac:(reflexivity) ltac:(lia) ltac:(lia) (Permutation_refl _)) as RS. cbv zeta in RS.
  destruct (ranges (length levels) (S l) levels 0 order past) as [r pst]. cbn [fst] in RS. destruct RS as (R1 & R2 & R3 & R4).
  apply IH. apply (step levels (S l) order r); auto. lia.
Qed.
Lemma start_stage levels : stage levels (S (list_max levels)) (seq 0 (length levels)).
Proof.
  split; [reflexivity|]. intros i j m p q I J LM P Q Ei Ej. rewrite seq_nth in Ei, Ej by assumption.
  assert (m <= list_max levels).
  { destruct LM as [(k & _ & E) _]. apply nth_error_In in E. assert (F : Forall (fun x => x <= list_max levels) levels) by (now apply list_max_le).
    rewrite Forall_forall in F. now apply F. }
  replace (S m - S (list_max levels)) with 0 by lia. cbn. lia.
Qed.
Lemma stage_order levels order : stage levels 1 order -> bidi_order levels order.
Proof.
  intros [PM ST]. pose proof (Permutation_length PM) as LN. rewrite seq_length in LN. split; [|split].
  - apply (Permutation_NoDup PM), seq_NoDup.
  - intro i. split; intro I.
    + apply (Permutation_in _ (Permutation_sym PM)) in I. apply in_seq in I. lia.
    + apply (Permutation_in _ PM), in_seq. lia.
  - intros i j m I J LM.
    assert (EI : In i order) by (apply (Permutation_in _ PM), in_seq; lia). assert (EJ : In j order) by (apply (Permutation_in _ PM), in_seq; lia).
    apply (In_nth _ _ 0) in EI as (p & P1 & P2). apply (In_nth _ _ 0) in EJ as (q & Q1 & Q2).
    specialize (ST i j m p q I J LM ltac:(lia) ltac:(lia) P2 Q2). replace (S m - 1) with m in ST by lia.
    destruct (Nat.even m); [exists p, q|exists q, p]; (split; [exact ST|]); rewrite <- P2, <- Q2; split; apply nth_error_nth'; lia.
Qed.

(** When the end of the levels is read past. *)
Lemma ranges_past levels M : forall fuel b order past, length levels - b <= fuel -> b <= length levels ->
  (snd (ranges fuel M levels b order past) = true <-> past = true \/ (b < length levels /\ M <= lev levels (length levels - 1))).
Proof.
  induction fuel as [|f IH]; intros b order past F B; cbn [ranges].
  - cbn [snd]. intuition lia.
  - destruct (Nat.ltb_spec b (length levels)) as [G|G]; [|cbn [snd]; intuition lia].
    pose proof (range_end_spec levels M (length levels) b ltac:(lia) ltac:(lia)) as RE.
    destruct (range_end (length levels) M levels b) as [e pst]. cbn [fst snd] in RE. destruct RE as (E1 & E2 & E3 & E4).
    destruct (Nat.eqb_spec e b) as [Q|Q]; rewrite IH by lia; rewrite orb_true_iff, E4.
    + subst e. destruct E3 as [E3|E3]; [lia|]. destruct (Nat.eq_dec (S b) (length levels)) as [E|E].
      * replace (length levels - 1) with b by lia. intuition lia.
      * intuition lia.
    + destruct (Nat.eq_dec e (length levels)) as [->|NE].
      * specialize (E2 (length levels - 1) ltac:(lia)). intuition lia.
      * intuition lia.
Qed.
Lemma down_past levels : levels <> [] -> forall level order past,
  (snd (levels_down level levels order past) = true <-> past = true \/ (1 <= level /\ 1 <= lev levels (length levels - 1))).
Proof.
  intro NE. assert (0 < length levels) by (destruct levels; [congruence|cbn; lia]).
  induction level as [|l IH]; intros order past; cbn [levels_down].
  - cbn [snd]. intuition lia.
  - pose proof (ranges_past levels (S l) (length levels) 0 order past ltac:(lia) ltac:(lia)) as RP.
    destruct (ranges (length levels) (S l) levels 0 order past) as [r pst]. cbn [snd] in RP. rewrite IH, RP. intuition lia.
Qed.

(** Splitting into runs. *)
Lemma slice_const l b : forall n, b < b + S n <= length l -> (forall i, b < i < b + S n -> differ l i = false) -> slice b (b + S n) l = repeat (nth b l 0) (S n).
Proof.
  assert (SN : forall n, b + n < length l -> slice b (b + S n) l = slice b (b + n) l ++ [nth (b + n) l 0]).
  { intros n H. unfold slice. replace (b + S n - b) with (S n) by lia. replace (b + n - b) with n by lia.
    rewrite <- (Nat.add_1_r n). assert (E : nth (b + n) l 0 = nth n (skipn b l) 0).
    { rewrite <- (firstn_skipn b l) at 1. rewrite app_nth2; rewrite firstn_length, Nat.min_l by lia; [|lia]. f_equal. lia. }
    rewrite E. assert (LS : n < length (skipn b l)) by (rewrite skipn_length; lia). revert LS. generalize (skipn b l). clear. intro l.
    revert l. induction n as [|n IH]; intros [|a l] H; cbn [length] in H; try lia; [reflexivity|]. cbn [firstn app Nat.add nth]. f_equal. apply IH. lia. }
  induction n as [|n IH]; intros H D.
  - rewrite SN by lia. unfold slice. replace (b + 0 - b) with 0 by lia. cbn. now rewrite Nat.add_0_r.
  - rewrite SN by lia. rewrite IH; [|lia|intros i I; apply D; lia].
    assert (Q : forall k, k <= S n -> nth (b + k) l 0 = nth b l 0).
    { induction k as [|k IHk]; intro K; [now rewrite Nat.add_0_r|]. rewrite <- IHk by lia. specialize (D (b + S k) ltac:(lia)).
      unfold differ in D. apply negb_false_iff, Nat.eqb_eq in D. rewrite D. f_equal. lia. }
    rewrite Q by lia. replace [nth b l 0] with (repeat (nth b l 0) 1) by reflexivity. rewrite <- repeat_app. f_equal. lia.
Qed.
Lemma slice_to_end {A} b (l : list A) : slice b (length l) l = skipn b l.
Proof. unfold slice. apply firstn_all2. rewrite skipn_length. lia. Qed.
Lemma slice_skipn {A} b e (l : list A) : b <= e -> slice b e l ++ skipn e l = skipn b l.
Proof. intro H. unfold slice. rewrite <- (firstn_skipn (e - b) (skipn b l)) at 2. f_equal. rewrite skipn_add. f_equal. lia. Qed.
Lemma map_repeat {A B} (f : A -> B) a n : map f (repeat a n) = repeat (f a) n.
Proof. induction n; cbn; congruence. Qed.
Lemma span_map_spec spans : forall k, length (span_map k spans) = length (flat_map sp_text spans) /\
  Forall (fun i => k <= i < k + length spans) (span_map k spans) /\
  forall all dflt, (forall i s, nth_error spans i = Some s -> nth (k + i) all dflt = s) ->
    map (fun i => sp_rest (nth i all dflt)) (span_map k spans) = flat_map (fun s => repeat (sp_rest s) (length (sp_text s))) spans.
Proof.
  induction spans as [|s r IH]; intro k; [repeat split; constructor|]. destruct (IH (S k)) as (A & B & C). cbn [span_map flat_map]. split; [|split].
  - rewrite !app_length, repeat_length, A. reflexivity.
  - apply Forall_app. split; [apply Forall_forall; intros i I; apply repeat_spec in I; cbn; lia|].
    eapply Forall_impl; [|exact B]. cbn. intros; lia.
  - intros all dflt H. rewrite map_app, (C all dflt).
    + f_equal. specialize (H 0 s eq_refl). rewrite Nat.add_0_r in H. rewrite map_repeat, H. reflexivity.
    + intros i s' E. replace (S k + i) with (k + S i) by lia. now apply H.
Qed.

Definition run_levels (l : list (span * nat)) : list nat := flat_map (fun r => repeat (snd r) (length (sp_text (fst r)))) l.
Definition run_text (l : list (span * nat)) : list Z := flat_map (fun r => sp_text (fst r)) l.
Definition run_rest (l : list span) : list nat := flat_map (fun s => repeat (sp_rest s) (length (sp_text s))) l.
Lemma runs_from_spec spans chars levels mp dflt : length chars = length levels -> length mp = length levels ->
  Forall (fun i => i < length spans) mp ->
  forall bounds b, b < length levels -> (forall i, In i bounds -> b < i < length levels) ->
  (forall i, b < i < length levels -> differ levels i || differ mp i = true -> In i bounds) ->
  StronglySorted lt bounds ->
  exists rs, runs_from spans chars levels mp bounds b = Ret rs /\
    run_text rs = skipn b chars /\ run_levels rs = skipn b levels /\
    run_rest (map fst rs) = map (fun i => sp_rest (nth i spans dflt)) (skipn b mp) /\
    Forall (fun r => sp_text (fst r) <> [] /\ sp_dir (fst r) = if Nat.odd (snd r) then RTL else LTR) rs.
Proof.
  intros L1 L2 FM. 
  assert (ONE : forall b e, b < e <= length levels -> (forall i, b < i < e -> differ levels i || differ mp i = false) ->
    exists k s, nth_error mp b = Some k /\ nth_error spans k = Some s /\
      length (slice b e chars) = e - b /\ slice b e levels = repeat (nth b levels 0) (e - b) /\
      map (fun i => sp_rest (nth i spans dflt)) (slice b e mp) = repeat (sp_rest s) (e - b)).
  { intros b e H D. destruct (nth_error mp b) as [k|] eqn:EK; [|apply nth_error_None in EK; lia].
    assert (KS : k < length spans) by (rewrite Forall_forall in FM; apply FM; eapply nth_error_In; exact EK).
    destruct (nth_error spans k) as [s|] eqn:ES; [|apply nth_error_None in ES; lia].
    exists k, s. split; [reflexivity|]. split; [exact ES|]. split; [apply slice_length; lia|].
    assert (E : e = b + S (e - b - 1)) by lia. split.
    - rewrite E. rewrite slice_const; [f_equal; lia|lia|]. intros i I. specialize (D i ltac:(lia)). now apply orb_false_iff in D.
    - rewrite E. rewrite slice_const; [|lia|intros i I; specialize (D i ltac:(lia)); now apply orb_false_iff in D].
      rewrite map_repeat, (nth_error_nth mp b 0 EK), (nth_error_nth spans k dflt ES). f_equal. lia. }
  induction bounds as [|e more IH]; intros b B IN ALL ST; cbn [runs_from].
  - destruct (ONE b (length levels)) as (k & s & E1 & E2 & E3 & E4 & E5); [lia| |].
    { intros i I. destruct (differ levels i || differ mp i) eqn:Q; [|reflexivity]. destruct (ALL i ltac:(lia) Q). }
    rewrite E1, E2. cbn [bind]. eexists. split; [reflexivity|]. unfold run_text, run_levels, run_rest. cbn [flat_map map fst snd sp_text sp_dir sp_rest].
    rewrite !app_nil_r. rewrite L1 in *. rewrite E3, <- E4, <- E5. rewrite !slice_to_end. rewrite <- L1 at 1. rewrite slice_to_end.
    split; [reflexivity|]. split; [reflexivity|]. split; [rewrite <- L2, slice_to_end; reflexivity|].
    constructor; [|constructor]. cbn [fst snd sp_text sp_dir]. split; [|reflexivity]. intro Z. rewrite Z in E3. cbn in E3. lia.
  - inversion ST as [|? ? ST1 ST2]; subst. assert (BE : b < e < length levels) by (apply IN; now left).
    destruct (ONE b e) as (k & s & E1 & E2 & E3 & E4 & E5); [lia| |].
    { intros i I. destruct (differ levels i || differ mp i) eqn:Q; [|reflexivity]. destruct (ALL i ltac:(lia) Q) as [->|K]; [lia|].
      rewrite Forall_forall in ST2. specialize (ST2 i K). lia. }
    rewrite E1, E2. cbn [bind].
    destruct (IH e ltac:(lia)) as (rs & Q & T1 & T2 & T3 & T4).
    + intros i I. split; [rewrite Forall_forall in ST2; now apply ST2|]. apply IN. now right.
    + intros i I D. destruct (ALL i ltac:(lia) D) as [->|K]; [lia|exact K].
    + exact ST1.
    + rewrite Q. cbn [bind]. eexists. split; [reflexivity|]. unfold run_text, run_levels, run_rest in *. cbn [flat_map map fst snd sp_text sp_dir sp_rest].
      rewrite T1, T2, T3, E3, <- E4, <- E5, <- map_app, !slice_skipn by lia. repeat split; auto.
      constructor; [|exact T4]. cbn [fst snd sp_text sp_dir]. split; [|reflexivity]. intro Z. rewrite Z in E3. cbn in E3. lia.
Qed.
Lemma bounds_sorted levels mp : StronglySorted lt (run_bounds levels mp).
Proof.
  unfold run_bounds. generalize (fun i : nat => (0 <? i) && (differ levels i || differ mp i)). intro f. generalize (length levels) as n. intro n.
  generalize 0 as s. induction n as [|n IH]; intro s; cbn [seq filter]; [constructor|].
  destruct (f s); [|apply IH]. constructor; [apply IH|]. rewrite Forall_forall. intros x X. apply filter_In in X as [X _]. apply in_seq in X. lia.
Qed.

(* ---------------- layout ---------------- *)
From Verif Require Import Geo_Proofs.
From Coq Require Import Lra.
Local Open Scope R_scope.
(** Shaped glyphs in the model's numbers. *)
Definition to_glyph (g : rglyph) : glyph := mk_glyph (rg_font g) (rg_code g) (Fin (rg_width g)) (Fin (rg_above g)) (Fin (rg_below g)).
Fixpoint places (rest : nat) (x : R) (l : list rglyph) : list placed :=
  match l with [] => [] | g :: r => mk_placed (rg_font g) (rg_code g) (Fin x) (Fin 0) rest :: places rest (x + rg_width g) r end.
Definition tops (t : R) (l : list rglyph) : R := fold_left (fun t g => Rmax (rg_above g) t) l t.
Definition bottoms (b : R) (l : list rglyph) : R := fold_left (fun b g => Rmin (rg_below g) b) l b.
Lemma place_span_real rest : forall l x t b,
  place_span exact rest (map to_glyph l) (Fin x) (Fin t) (Fin b) = (places rest x l, (Fin (x + width l), Fin (tops t l), Fin (bottoms b l))).
Proof.
  induction l as [|g l IH]; intros x t b; cbn [map place_span places width fold_right tops bottoms fold_left].
  - now rewrite Rplus_0_r.
  - cbn [to_glyph g_advance g_asc g_desc g_font g_code]. rewrite xmax_fin, xmin_fin. unfold xadd, exact. rewrite IH. fold (width l). replace (x + rg_width g + width l) with (x + (rg_width g + width l)) by ring. reflexivity.
Qed.
Lemma width_app a b : width (a ++ b) = width a + width b.
Proof. induction a as [|g a IH]; cbn [app]; [change (width []) with 0; ring|]. change (width (g :: a ++ b)) with (rg_width g + width (a ++ b)). change (width (g :: a)) with (rg_width g + width a). rewrite IH. ring. Qed.
Lemma width_nonneg l : Forall (fun g => 0 <= rg_width g) l -> 0 <= width l.
Proof. induction 1; cbn [width fold_right]; [lra|]. fold (width l). lra. Qed.
Lemma shift_places base rest x0 sl : forall l x,
  map (shift exact base (Fin x0) (Fin sl)) (places rest x l) = places rest (match base with LTR => x + x0 | RTL => x - x0 - sl end) l.
Proof.
  induction l as [|g l IH]; intro x; cbn [places map]; [reflexivity|]. rewrite IH. unfold shift. cbn [p_font p_code p_x p_y p_rest]. f_equal.
  - destruct base; unfold xsub, xneg, xadd, exact; do 2 f_equal.
  - f_equal. destruct base; ring.
Qed.
Lemma places_nth rest : forall l x j p, nth_error (places rest x l) j = Some p ->
  exists g, nth_error l j = Some g /\ p = mk_placed (rg_font g) (rg_code g) (Fin (x + width (firstn j l))) (Fin 0) rest.
Proof.
  induction l as [|g l IH]; intros x [|j] p E; try discriminate; cbn [places nth_error firstn width fold_right] in *.
  - injection E as <-. exists g. rewrite Rplus_0_r. auto.
  - destruct (IH _ _ _ E) as (g' & A & B). exists g'. split; [exact A|]. rewrite B. do 2 f_equal. fold (width (firstn j l)). ring.
Qed.
Lemma places_length rest l : forall x, length (places rest x l) = length l.
Proof. induction l; intro x; cbn [places length]; auto. Qed.
Fixpoint line_places (base : direction) (x : R) (line : list span) (gls : list (list rglyph)) : list (list placed) :=
  match line, gls with
  | s :: r, g :: q => places (sp_rest s) (match base with LTR => 0 + x | RTL => 0 - x - width g end) g :: line_places base (x + width g) r q
  | _, _ => []
  end.
Lemma place_line_real shape fonts base line gls : Forall2 (fun s g => fallback shape fonts s [] = Ret (map to_glyph g)) line gls ->
  forall x t b, place_line exact shape fonts base line (Fin x) (Fin t) (Fin b) =
    Ret (concat (line_places base x line gls), (Fin (x + width (concat gls)), Fin (tops t (concat gls)), Fin (bottoms b (concat gls)))).
Proof.
  induction 1 as [|s g line gls E F IH]; intros x t b; cbn [place_line line_places concat].
  - cbn [width tops bottoms fold_right fold_left]. now rewrite Rplus_0_r.
  - rewrite E. cbn [bind]. rewrite place_span_real. rewrite shift_places.
    replace (0 + width g) with (width g) by ring. change (xadd exact (Fin x) (Fin (width g))) with (Fin (x + width g)).
    rewrite IH. cbn [bind]. rewrite width_app. unfold tops, bottoms. rewrite !fold_left_app.
    replace (x + width g + width (concat gls)) with (x + (width g + width (concat gls))) by ring. reflexivity.
Qed.
Lemma line_places_nth base : forall line gls x i q, length line = length gls -> nth_error (line_places base x line gls) i = Some q ->
  exists s g, nth_error line i = Some s /\ nth_error gls i = Some g /\
    q = places (sp_rest s) (match base with LTR => x + width (concat (firstn i gls)) | RTL => - (x + width (concat (firstn (S i) gls))) end) g.
Proof.
  induction line as [|s line IH]; intros [|g gls] x [|i] q L E; try discriminate.
  - cbn [line_places nth_error] in E. injection E as <-. exists s, g. repeat split. cbn [firstn concat]. rewrite app_nil_r. f_equal.
    change (width []) with 0. destruct base; ring.
  - cbn [line_places nth_error] in E. injection L as L. destruct (IH gls _ i q L E) as (s' & g' & A & B & C). exists s', g'. cbn [nth_error]. split; [exact A|]. split; [exact B|].
    rewrite C. f_equal. cbn [firstn]. destruct base; cbn [concat]; rewrite !width_app; ring.
Qed.
Lemma line_places_length base : forall line gls x, length line = length gls -> length (line_places base x line gls) = length gls.
Proof. induction line as [|s line IH]; intros [|g gls] x L; try discriminate; [reflexivity|]. cbn [line_places length] in *. f_equal. apply IH. lia. Qed.
Lemma tops_spec : forall l t, In (tops t l) (t :: map rg_above l) /\ forall x, In x (t :: map rg_above l) -> x <= tops t l.
Proof.
  induction l as [|g l IH]; intro t; cbn [tops fold_left map].
  - split; [now left|]. intros x [->|[]]. lra.
  - destruct (IH (Rmax (rg_above g) t)) as [A B]. unfold tops in A, B. split.
    + destruct A as [A|A]; [|right; now right]. rewrite <- A. unfold Rmax. destruct Rle_dec; [now left|right; now left].
    + intros x [X|[X|X]]; [|subst x|apply B; now right].
      * subst x. eapply Rle_trans; [apply Rmax_r|]. apply B. now left.
      * eapply Rle_trans; [apply Rmax_l|]. apply B. now left.
Qed.
Lemma bottoms_spec : forall l t, In (bottoms t l) (t :: map rg_below l) /\ forall x, In x (t :: map rg_below l) -> bottoms t l <= x.
Proof.
  induction l as [|g l IH]; intro t; cbn [bottoms fold_left map].
  - split; [now left|]. intros x [->|[]]. lra.
  - destruct (IH (Rmin (rg_below g) t)) as [A B]. unfold bottoms in A, B. split.
    + destruct A as [A|A]; [|right; now right]. rewrite <- A. unfold Rmin. destruct Rle_dec; [right; now left|now left].
    + intros x [X|[X|X]]; [|subst x|apply B; now right].
      * subst x. eapply Rle_trans; [|apply Rmin_r]. apply B. now left.
      * eapply Rle_trans; [|apply Rmin_l]. apply B. now left.
Qed.
Lemma width_firstn_le l j g : Forall (fun g => 0 <= rg_width g) l -> nth_error l j = Some g -> width (firstn j l) + rg_width g <= width l.
Proof.
  intros F E. rewrite <- (firstn_skipn j l) at 2. rewrite width_app.
  assert (Q : skipn j l = g :: skipn (S j) l). { clear F. revert j E. induction l as [|a l IH]; intros [|j] E; try discriminate; cbn in *; [congruence|auto]. }
  rewrite Q. cbn [width fold_right]. fold (width (skipn (S j) l)).
  assert (0 <= width (skipn (S j) l)); [|lra]. apply width_nonneg. rewrite <- (firstn_skipn (S j) l) in F. now apply Forall_app in F.
Qed.
Lemma same_nth {A} : forall a b : list A, (forall n, nth_error a n = nth_error b n) -> a = b.
Proof.
  induction a as [|x a IH]; intros [|y b] E; [reflexivity|specialize (E 0%nat); discriminate|specialize (E 0%nat); discriminate|].
  f_equal; [specialize (E 0%nat); cbn in E; congruence|]. apply IH. intro n. exact (E (S n)).
Qed.
Lemma nth_map {A B} (f : A -> B) : forall l n, nth_error (map f l) n = option_map f (nth_error l n).
Proof. induction l as [|a l IH]; intros [|n]; try reflexivity. apply IH. Qed.
