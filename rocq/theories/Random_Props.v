(** C102: random strings. *)
From Verif Require Import Base Str_Model Str_Spec Str_Props Random_Model Random_Spec.
Local Open Scope Z_scope.

Lemma le_bytes_length n v : length (le_bytes n v) = n.
Proof. revert v. induction n; intro v; cbn [le_bytes length]; [reflexivity|now rewrite IHn]. Qed.
Lemma le_bytes_number n : forall v, 0 <= v < 256 ^ Z.of_nat n -> number (le_bytes n v) = v.
Proof.
  induction n as [|n IH]; intros v B; cbn [le_bytes number].
  - change (256 ^ Z.of_nat 0) with 1 in B. lia.
  - assert (P : 256 ^ Z.of_nat (S n) = 256 * 256 ^ Z.of_nat n) by (rewrite Nat2Z.inj_succ, Z.pow_succ_r by lia; reflexivity).
    assert (M : 0 <= v mod 256 < 256) by (apply Z.mod_pos_bound; lia).
    rewrite IH. 2:{ split; [apply Z.div_pos; lia|]. apply Z.div_lt_upper_bound; lia. }
    assert (A : Z.of_nat (nat_of_ascii (ascii_of_N (Z.to_N (v mod 256)))) = v mod 256).
    { unfold nat_of_ascii. rewrite N_ascii_embedding by lia. rewrite N_nat_Z, Z2N.id by lia. reflexivity. }
    rewrite A. pose proof (Z.div_mod v 256). lia.
Qed.
Lemma hex_app : forall a b, flat_map hex2 (a ++ b) = flat_map hex2 a ++ flat_map hex2 b.
Proof. intros. now rewrite flat_map_app. Qed.
Lemma hex_of_flat l : hex_of l = flat_map hex2 l.
Proof. induction l; cbn [hex_of flat_map]; [reflexivity|rewrite IHl; reflexivity]. Qed.
Lemma glue_nil l : glue [] l = concat l.
Proof. induction l as [|x [|y r] IH]; [reflexivity|cbn; now rewrite app_nil_r|]. cbn [glue concat] in *. now rewrite IH. Qed.
Lemma hex_print_plain l : hex_print l false false = flat_map hex2 l.
Proof. destruct (C37_hex_print l false false) as (E & _ & _). rewrite E, glue_nil. symmetry. apply flat_map_concat_map. Qed.

Lemma from_S g pos n : from g pos (S n) = g pos :: from g (S pos) n.
Proof.
  unfold from. cbn [seq map]. rewrite Nat.add_0_r. f_equal. rewrite <- seq_shift, map_map. apply map_ext. intro i. f_equal. lia.
Qed.
Lemma array_ok g n : words64 g -> forall pos, random_array g n pos = Ret (from g pos n, (pos + n)%nat).
Proof.
  intro W. induction n as [|n IH]; intro pos; cbn [random_array]; [now rewrite Nat.add_0_r|].
  unfold random64. destruct (Z.ltb_spec 0 (g pos)); [|pose proof (W pos); lia]. cbn [bind]. rewrite IH. cbn [bind].
  rewrite from_S. replace (pos + S n)%nat with (S pos + n)%nat by lia. reflexivity.
Qed.
Lemma spells_ok l : Forall (fun v => 0 < v < 2 ^ 64) l -> spells (flat_map hex2 (flat_map (le_bytes 8) l)) l.
Proof.
  induction 1 as [|v l B F IH]; [reflexivity|]. cbn [spells flat_map]. exists (le_bytes 8 v), (flat_map hex2 (flat_map (le_bytes 8) l)).
  split; [apply le_bytes_length|]. split; [apply le_bytes_number; change (256 ^ Z.of_nat 8) with (2 ^ 64); lia|]. split; [|exact IH].
  rewrite (hex_of_flat (le_bytes 8 v)). apply hex_app.
Qed.
Lemma from_words g pos n : words64 g -> Forall (fun v => 0 < v < 2 ^ 64) (from g pos n).
Proof. intro W. apply Forall_forall. intros v I. apply in_map_iff in I as (i & <- & _). apply W. Qed.
Lemma hex2_hex c x : In x (hex2 c) -> is_hex x.
Proof.
  intro I. assert (B : (nat_of_ascii c < 256)%nat) by apply nat_ascii_bounded.
  assert (H : (nat_of_ascii c / 16 < 16)%nat) by (apply Nat.div_lt_upper_bound; lia).
  assert (L : (nat_of_ascii c mod 16 < 16)%nat) by (apply Nat.mod_upper_bound; lia).
  destruct I as [<-|[<-|[]]]; apply nth_In; exact H || exact L.
Qed.

Lemma spells_length l : forall t, spells t l -> length t = (16 * length l)%nat.
Proof.
  induction l as [|v l IH]; intros t S; cbn [spells] in S; [subst; reflexivity|]. destruct S as (b & t' & B & _ & -> & S). rewrite app_length, (IH _ S). cbn [length].
  enough (length (hex_of b) = (2 * length b)%nat) by lia. clear. induction b; cbn [hex_of length]; lia.
Qed.
(** C102. hex64, hex128, hex256 and hex512 use the next 1, 2, 4 or 8 numbers of the generator, and
    their texts of 16, 32, 64 or 128 hexadecimal digits spell exactly these. *)
Theorem C102_hex : forall (g : nat -> Z) (pos : nat), words64 g ->
  forall f n, In (f, n) [(hex64, 1); (hex128, 2); (hex256, 4); (hex512, 8)]%nat ->
  exists t, f g pos = Ret (t, (pos + n)%nat) /\ spells t (from g pos n) /\ length t = (16 * n)%nat /\ Forall is_hex t.
Proof.
  intros g pos W f n I. assert (E : f = fun g => hex_words g n) by (destruct I as [I|[I|[I|[I|[]]]]]; injection I as <- <-; reflexivity).
  subst f. clear I. unfold hex_words. rewrite (array_ok g n W). cbn [bind]. rewrite hex_print_plain. eexists. split; [reflexivity|].
  assert (S := spells_ok _ (from_words g pos n W)). split; [exact S|]. split.
  - rewrite (spells_length _ _ S). unfold from. now rewrite map_length, seq_length.
  - apply Forall_forall. intros x I. apply in_flat_map in I as (c & _ & I). exact (hex2_hex c x I).
Qed.
Print Assumptions C102_hex.
Lemma nth_hex_inj a b : (a < 16)%nat -> (b < 16)%nat -> nth a (s_ "0123456789abcdef") " "%char = nth b (s_ "0123456789abcdef") " "%char -> a = b.
Proof. intros A B E. do 16 (destruct a as [|a]; [do 16 (destruct b as [|b]; [reflexivity || discriminate E|]); lia|]). lia. Qed.
Lemma hex_of_inj : forall a b x y, length a = length b -> hex_of a ++ x = hex_of b ++ y -> a = b /\ x = y.
Proof.
  induction a as [|c a IH]; intros [|d b] x y L E; try discriminate; [auto|]. cbn [hex_of app] in E. assert (C : forall (a b a' b' : ascii) (r r' : str), a :: b :: r = a' :: b' :: r' -> a = a' /\ b = b' /\ r = r') by (intros; repeat split; congruence). apply C in E as (E1 & E2 & E3). injection L as L. destruct (IH _ _ _ L E3) as [-> ->].
  split; [|reflexivity]. f_equal. pose proof (nat_ascii_bounded c). pose proof (nat_ascii_bounded d).
  apply nth_hex_inj in E1; [|apply Nat.div_lt_upper_bound; lia|apply Nat.div_lt_upper_bound; lia].
  apply nth_hex_inj in E2; [|apply Nat.mod_upper_bound; lia|apply Nat.mod_upper_bound; lia].
  rewrite <- (ascii_nat_embedding c), <- (ascii_nat_embedding d). f_equal. rewrite (Nat.div_mod (nat_of_ascii c) 16), (Nat.div_mod (nat_of_ascii d) 16) by lia. lia.
Qed.
(** C102. Nothing of the numbers is lost: equal texts come from equal numbers. *)
Theorem C102_no_loss : forall (t : str) (l m : list Z), spells t l -> spells t m -> l = m.
Proof.
  intros t l. revert t. induction l as [|v l IH]; intros t m S T.
  - assert (L := spells_length _ _ T). cbn in S. subst t. destruct m; [reflexivity|discriminate].
  - destruct m as [|w m]; [assert (L := spells_length _ _ S); cbn in T; subst t; discriminate|].
    cbn [spells] in S, T. destruct S as (b & t' & B & <- & -> & S). destruct T as (b' & u & B' & <- & E & T).
    apply hex_of_inj in E as [-> <-]; [|congruence]. f_equal. exact (IH _ _ S T).
Qed.
Print Assumptions C102_no_loss.

Lemma alnum_ok g n : forall pos out, alnum_loop g n pos out =
  (out ++ map (fun v => nth (Z.to_nat (v mod 36)) alphanumeric_chars "0"%char) (from g pos n), (pos + n)%nat).
Proof.
  induction n as [|n IH]; intros pos out; cbn [alnum_loop].
  - now rewrite app_nil_r, Nat.add_0_r.
  - rewrite IH, from_S, <- app_assoc. cbn [map app]. replace (pos + S n)%nat with (S pos + n)%nat by lia. reflexivity.
Qed.
(** C102. alphanumericString(n) uses the next n numbers and returns n characters, digits and
    capital letters; each of the 36 is chosen by the remainder of its number; none for n <= 0. *)
Theorem C102_alphanumeric : forall (g : nat -> Z) (pos : nat) (n : Z), (forall i, 0 <= g i < 2 ^ 64) ->
  exists t, alphanumeric_string g n pos = Ret (t, (pos + Z.to_nat n)%nat) /\ length t = Z.to_nat n /\ Forall is_alphanumeric t /\
    forall i, (i < Z.to_nat n)%nat -> nth_error t i = nth_error (s_ "0123456789ABCDEFGHIJKLMNOPQRSTUVWXYZ") (Z.to_nat (g (pos + i)%nat mod 36)).
Proof.
  intros g pos n W. unfold alphanumeric_string. rewrite alnum_ok. cbn [app]. eexists. split; [reflexivity|].
  assert (M : forall v, (Z.to_nat (v mod 36) < 36)%nat) by (intro v; pose proof (Z.mod_pos_bound v 36); lia).
  split; [unfold from; now rewrite !map_length, seq_length|]. split.
  - apply Forall_forall. intros c I. apply in_map_iff in I as (v & <- & _). apply nth_In. exact (M v).
  - intros i L. unfold from. rewrite map_map. rewrite nth_error_map. rewrite (nth_error_nth' _ 0%nat) by (rewrite seq_length; exact L). rewrite seq_nth by exact L. cbn [option_map Nat.add].
    symmetry. apply nth_error_nth'. exact (M _).
Qed.
Print Assumptions C102_alphanumeric.
Example C102_case : exists t, hex64 (fun i => 18364758544493064720 + Z.of_nat i) 0 = Ret (t, 1%nat) /\ t = s_ "1032547698badcfe" /\
  alphanumeric_string (fun i => 35 + Z.of_nat i) 3 0 = Ret (s_ "Z01", 3%nat).
Proof. eexists. split; [vm_compute; reflexivity|]. split; reflexivity. Qed.

(** C102. The generator may deliver 0; then the process is aborted. *)
Theorem C102_zero_refuted : forall (g : nat -> Z) (pos : nat), g pos = 0 ->
  hex64 g pos = Throw /\ hex128 g pos = Throw /\ hex256 g pos = Throw /\ hex512 g pos = Throw.
Proof. intros g pos E. unfold hex64, hex128, hex256, hex512, hex_words. cbn [random_array]. unfold random64. rewrite E. repeat split. Qed.
Print Assumptions C102_zero_refuted.
