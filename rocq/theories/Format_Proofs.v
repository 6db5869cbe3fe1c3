(** Lemmas for Format_Props.v. *)
From Verif Require Import Base Num Num_Facts Dec Color_Model Svg_Spec Svg_Proofs Format_Model Format_Spec.
From Coq Require Import Lra Reals.
Local Open Scope R_scope.

Lemma digits_len p : forall n, length (digits_ p n) = p.
Proof. induction p as [|p IH]; intro n; [reflexivity|]. cbn [digits_]. rewrite app_length, IH. cbn. lia. Qed.
Lemma digits_digit p : forall n, Forall is_digit (digits_ p n).
Proof.
  induction p as [|p IH]; intro n; [constructor|]. cbn [digits_]. apply Forall_app. split; [apply IH|].
  constructor; [|constructor]. apply dig_digit, Z.mod_pos_bound. lia.
Qed.
Lemma digits_value p : forall n, (0 <= n)%Z -> value (digits_ p n) = (n mod 10 ^ Z.of_nat p)%Z.
Proof.
  induction p as [|p IH]; intros n H; [cbn; now rewrite Z.mod_1_r|]. cbn [digits_].
  assert (M : (0 <= n mod 10 < 10)%Z) by (apply Z.mod_pos_bound; lia).
  rewrite value_app by (constructor; [now apply dig_digit|constructor]). rewrite IH by (apply Z.div_pos; lia).
  unfold value. cbn [fold_left length]. rewrite dig_code by exact M. change (10 ^ Z.of_nat 1)%Z with 10%Z.
  rewrite Nat2Z.inj_succ, Z.pow_succ_r by lia. rewrite (Z.rem_mul_r n 10) by (try apply Z.pow_pos_nonneg; lia). lia.
Qed.
Lemma fixed_ok p x : exists q, read_decimal (fixed_real p x) = Some q /\ snd q = p /\ Rabs (dval q - x) <= 1 / 2 / 10 ^ p.
Proof.
  assert (TP : 0 < 10 ^ p) by (apply pow_lt; lra).
  unfold fixed_real. set (n := ZnearestE (Rabs x * 10 ^ p)). cbv zeta.
  assert (E : Rabs (IZR n - Rabs x * 10 ^ p) <= 1 / 2).
  { rewrite Rabs_minus_sym. replace (1 / 2) with (/ 2) by field. apply Znearest_half. }
  assert (P : (0 <= n)%Z).
  { unfold n. pose proof (Rabs_pos x). replace 0%Z with (ZnearestE 0).
    - apply (@Zrnd_le ZnearestE (valid_rnd_N _)). apply Rmult_le_pos; lra.
    - apply (@Zrnd_IZR ZnearestE (valid_rnd_N _) 0). }
  clearbody n. assert (PP : (0 < 10 ^ Z.of_nat p)%Z) by (apply Z.pow_pos_nonneg; lia).
  destruct (dec_ok (n / 10 ^ Z.of_nat p) ltac:(apply Z.div_pos; lia)) as (V & F & N & _).
  set (a := dec (n / 10 ^ Z.of_nat p)) in *.
  set (t := a ++ match p with O => [] | _ => s_ "." ++ digits_ p n end).
  assert (R0 : read_abs t = Some (n, p)).
  { unfold t. destruct p as [|p].
    - rewrite app_nil_r, (read_whole a N F), V. cbn. now rewrite Z.div_1_r.
    - unfold read_abs. change (s_ "." ++ digits_ (S p) n) with ("."%char :: digits_ (S p) n). rewrite until_app by (now apply no_dot).
      pose proof (digits_digit (S p) n) as B. pose proof (digits_len (S p) n) as L.
      rewrite (digits_ok a N F), (digits_ok (digits_ (S p) n)) by (try exact B; intro Z; rewrite Z in L; discriminate). cbn [andb].
      rewrite value_app by exact B. rewrite V, digits_value, L by exact P. do 2 f_equal.
      rewrite (Z.div_mod n (10 ^ Z.of_nat (S p))) at 3 by lia. lia. }
  assert (Q : forall z, Rabs (IZR z - x * 10 ^ p) <= 1 / 2 -> Rabs (dval (z, p) - x) <= 1 / 2 / 10 ^ p).
  { intros z H. unfold dval. cbn [fst snd]. replace (IZR z / 10 ^ p - x) with ((IZR z - x * 10 ^ p) * / 10 ^ p) by (field; lra).
    rewrite Rabs_mult, (Rabs_pos_eq (/ 10 ^ p)) by (left; now apply Rinv_0_lt_compat). apply Rmult_le_compat_r; [left; now apply Rinv_0_lt_compat|exact H]. }
  destruct (Rlt_dec x 0) as [L|L].
  - exists ((- n)%Z, p). cbn [s_ list_ascii_of_string app read_decimal]. rewrite ascii_eqb_refl.
    fold t. rewrite R0. split; [reflexivity|]. split; [reflexivity|]. apply Q. rewrite (Rabs_left x L) in E. rewrite opp_IZR.
    rewrite <- Rabs_Ropp. replace (- (- IZR n - x * 10 ^ p)) with (IZR n - - x * 10 ^ p) by ring. exact E.
  - exists (n, p). cbn [app]. replace (read_decimal t) with (read_abs t) by (symmetry; apply (not_minus a N F)). rewrite R0. split; [reflexivity|]. split; [reflexivity|]. apply Q. rewrite (Rabs_pos_eq x ltac:(lra)) in E. exact E.
Qed.

(** Superscripts. *)
Definition decc (c : ascii) : Prop := is_digit c \/ c = "-"%char.
Lemma dec_int_chars n : Forall decc (dec_int n).
Proof.
  unfold dec_int. destruct (Z.ltb_spec n 0).
  - cbn [s_ list_ascii_of_string app]. constructor; [now right|]. destruct (dec_ok (- n) ltac:(lia)) as (_ & F & _). eapply Forall_impl; [|exact F]. now left.
  - destruct (dec_ok n ltac:(lia)) as (_ & F & _). eapply Forall_impl; [|exact F]. now left.
Qed.
Lemma digit_cases c : is_digit c -> exists k, (k < 10)%nat /\ c = ascii_of_nat (48 + k).
Proof.
  unfold is_digit. intro H. exists (nat_of_ascii c - 48)%nat. split; [lia|].
  replace (48 + (nat_of_ascii c - 48))%nat with (nat_of_ascii c) by lia. now rewrite ascii_nat_embedding.
Qed.
Lemma superscript_char_ok c : decc c -> superscript_char c = utf8 (super_code c).
Proof.
  intros [D| ->]; [|reflexivity]. destruct (digit_cases c D) as (k & K & ->). do 10 (destruct k as [|k]; [reflexivity|]). lia.
Qed.
Lemma super_cons_inj c c' r r' : decc c -> decc c' -> superscript_char c ++ r = superscript_char c' ++ r' -> c = c' /\ r = r'.
Proof.
  assert (Q : forall c, decc c -> exists k, (k <= 10)%nat /\ c = nth k ["0";"1";"2";"3";"4";"5";"6";"7";"8";"9";"-"]%char "0"%char).
  { clear. intros c [D| ->]; [|now exists 10%nat]. destruct (digit_cases c D) as (k & K & ->). exists k. split; [lia|].
    do 10 (destruct k as [|k]; [reflexivity|]). lia. }
  intros D D'. destruct (Q c D) as (k & K & ->). destruct (Q c' D') as (k' & K' & ->). clear - K K'.
  do 11 (destruct k as [|k]; [do 11 (destruct k' as [|k']; [cbn; intro E; (discriminate E || (injection E as ->; split; reflexivity))|]); lia|]). lia.
Qed.
Lemma dec_int_inj a b : dec_int a = dec_int b -> a = b.
Proof.
  unfold dec_int. destruct (Z.ltb_spec a 0), (Z.ltb_spec b 0); intro E.
  - injection E as E. apply dec_inj in E; lia.
  - destruct (dec_ok b ltac:(lia)) as (_ & F & N & _). rewrite <- E in F. cbn in F. apply Forall_inv in F. unfold is_digit in F. cbn in F. lia.
  - destruct (dec_ok a ltac:(lia)) as (_ & F & N & _). rewrite E in F. cbn in F. apply Forall_inv in F. unfold is_digit in F. cbn in F. lia.
  - apply dec_inj in E; lia.
Qed.
Lemma super_inj : forall a b, Forall decc a -> Forall decc b -> flat_map superscript_char a = flat_map superscript_char b -> a = b.
Proof.
  assert (NN : forall c, superscript_char c <> []) by (intros [[] [] [] [] [] [] [] []]; discriminate).
  induction a as [|c a IH]; intros [|c' b] A B E; [reflexivity| | |].
  - cbn [flat_map] in E. specialize (NN c'). destruct (superscript_char c'); [congruence|discriminate].
  - cbn [flat_map] in E. specialize (NN c). destruct (superscript_char c); [congruence|discriminate].
  - cbn [flat_map] in E. inversion A; inversion B; subst. apply super_cons_inj in E as [-> E]; auto. f_equal. now apply IH.
Qed.

(** Logarithms. *)
Lemma ln10 : 0 < ln 10. Proof. rewrite <- ln_1. apply ln_increasing; lra. Qed.
Lemma Rpower10_int (e : Z) : Rpower 10 (IZR e) = powerRZ 10 e.
Proof. rewrite powerRZ_Rpower by lra. reflexivity. Qed.
Lemma xpow10 e : xpow exact (Fin 10) (Fin (IZR e)) = Fin (powerRZ 10 e).
Proof.
  unfold xpow. destruct (Req_EM_T (IZR e) 0) as [Z|Z].
  - apply eq_IZR in Z. subst e. reflexivity.
  - destruct (Rlt_dec 0 10) as [_|C]; [|lra]. unfold exact. now rewrite Rpower10_int.
Qed.
Lemma p10m1 : 1 / 10 = powerRZ 10 (-1).
Proof. unfold powerRZ. change (Pos.to_nat 1) with 1%nat. rewrite pow_1. lra. Qed.
