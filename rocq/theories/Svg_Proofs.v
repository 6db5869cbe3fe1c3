(** Lemmas for Svg_Props.v. *)
From Verif Require Import Base Num Num_Facts Dec Color_Model Color_Spec Color_Proofs Geo_Model Svg_Model Svg_Spec Svg_Embed.
From Coq Require Import Lra.
Local Open Scope R_scope.

(* ---------------- text ---------------- *)
Lemma until_app c a r : ~ In c a -> until c (a ++ c :: r) = Some (a, r).
Proof.
  induction a as [|x a IH]; intro N; cbn [app until].
  - now rewrite ascii_eqb_refl.
  - assert (x <> c) as D by (intros ->; apply N; now left). apply ascii_eqb_neq in D. rewrite D, IH; [reflexivity|].
    intro I. apply N. now right.
Qed.
Lemma until_none c a : ~ In c a -> until c a = None.
Proof.
  induction a as [|x a IH]; intro N; cbn [until]; [reflexivity|].
  assert (x <> c) as D by (intros ->; apply N; now left). apply ascii_eqb_neq in D. rewrite D, IH; [reflexivity|].
  intro I. apply N. now right.
Qed.
Lemma strip_app p r : strip p (p ++ r) = Some r.
Proof. induction p as [|a p IH]; cbn [app strip]; [now destruct r|]. now rewrite ascii_eqb_refl. Qed.
Lemma span_app f a c r : forallb f a = true -> f c = false -> span f (a ++ c :: r) = (a, c :: r).
Proof.
  intros A C. induction a as [|x a IH]; cbn [app span].
  - now rewrite C.
  - cbn [forallb] in A. apply andb_prop in A as [X A]. rewrite X, IH by exact A. reflexivity.
Qed.
Lemma words_nonempty s : words s <> [].
Proof. destruct s as [|c r]; cbn [words]; [discriminate|]. destruct (Ascii.eqb c " "); [discriminate|]. destruct (words r); discriminate. Qed.
Lemma words_app a b : words (a ++ s_ " " ++ b) = words a ++ words b.
Proof.
  induction a as [|c a IH]; cbn [app words].
  - reflexivity.
  - rewrite IH. destruct (Ascii.eqb c " "); [reflexivity|]. pose proof (words_nonempty a) as N.
    destruct (words a) as [|w l]; [congruence|]. reflexivity.
Qed.
Lemma words_one a : ~ In " "%char a -> words a = [a].
Proof.
  induction a as [|c a IH]; intro N; cbn [words]; [reflexivity|].
  assert (c <> " "%char) as D by (intros ->; apply N; now left). apply ascii_eqb_neq in D. rewrite D, IH; [reflexivity|].
  intro I. apply N. now right.
Qed.

(* ---------------- numbers ---------------- *)
(** The characters of numbers; of every attribute value. *)
Definition numc (c : ascii) : Prop := is_digit c \/ c = "-"%char \/ c = "."%char.
Definition cleanc (c : ascii) : Prop := c <> c_dq /\ c <> "<"%char /\ c <> "&"%char.

Lemma digit_not c : is_digit c -> forall x, (nat_of_ascii x < 48 \/ 57 < nat_of_ascii x)%nat -> c <> x.
Proof. unfold is_digit. intros D x H ->. lia. Qed.
Ltac code := vm_compute; lia.
Lemma digit_clean c : is_digit c -> cleanc c.
Proof. intro D. unfold cleanc. repeat split; apply (digit_not c D); code. Qed.
Lemma numc_clean c : numc c -> cleanc c.
Proof. intros [D|[-> | ->]]; [now apply digit_clean| |]; repeat split; discriminate. Qed.
Lemma numc_not_space c : numc c -> c <> " "%char.
Proof. intros [D|[-> | ->]]; [apply (digit_not c D); code| |]; discriminate. Qed.
Lemma no_space t : Forall numc t -> ~ In " "%char t.
Proof. intros F I. rewrite Forall_forall in F. now apply (numc_not_space " "%char (F _ I)). Qed.

Lemma digitb c : is_digit c -> is_digitb c = true.
Proof. unfold is_digit, is_digitb. intro H. apply andb_true_intro; split; apply Nat.leb_le; lia. Qed.
Lemma digits_ok s : s <> [] -> Forall is_digit s -> digits s = true.
Proof.
  intros N F. unfold digits. apply andb_true_intro; split.
  - destruct s; [congruence|reflexivity].
  - apply forallb_forall. intros c I. apply digitb. rewrite Forall_forall in F. now apply F.
Qed.
Lemma no_dot s : Forall is_digit s -> ~ In "."%char s.
Proof. intros F I. rewrite Forall_forall in F. apply (digit_not "."%char (F _ I) "."%char); [code|reflexivity]. Qed.
Lemma read_whole s : s <> [] -> Forall is_digit s -> read_abs s = Some (value s, 0%nat).
Proof. intros N F. unfold read_abs. rewrite until_none by now apply no_dot. now rewrite digits_ok. Qed.
Lemma not_minus s : s <> [] -> Forall is_digit s -> forall r, read_decimal (s ++ r) = read_abs (s ++ r).
Proof.
  intros N F r. destruct s as [|c s]; [congruence|]. cbn [app read_decimal].
  assert (Ascii.eqb c "-" = false) as -> by (apply ascii_eqb_neq, (digit_not c); [now inversion F|code]). reflexivity.
Qed.
Lemma numc_digits s : Forall is_digit s -> Forall numc s.
Proof. apply Forall_impl. intros; now left. Qed.

Lemma value_app a b : Forall is_digit b -> value (a ++ b) = (value a * 10 ^ Z.of_nat (length b) + value b)%Z.
Proof.
  intros F. unfold value. rewrite fold_left_app. generalize (fold_left (fun z c => z * 10 + (Z.of_nat (nat_of_ascii c) - 48)) a 0)%Z.
  clear a. intro z.
  assert (forall b u, fold_left (fun z c => z * 10 + (Z.of_nat (nat_of_ascii c) - 48)) b u
     = u * 10 ^ Z.of_nat (length b) + fold_left (fun z c => z * 10 + (Z.of_nat (nat_of_ascii c) - 48)) b 0)%Z as G.
  { clear. induction b as [|c b IH]; intro u; cbn [fold_left length].
    - cbn. lia.
    - rewrite (IH (u * 10 + _)%Z), (IH (0 * 10 + _)%Z). rewrite Nat2Z.inj_succ, Z.pow_succ_r by lia. ring. }
  apply G.
Qed.

Lemma close_whole z t : (0 <= z)%Z \/ True -> dec_int z = t ->
  exists q, read_decimal t = Some q /\ dval q = IZR z /\ Forall numc t /\ t <> [].
Proof.
  intros _ <-. unfold dec_int. destruct (Z.ltb_spec z 0) as [L|L].
  - destruct (dec_ok (- z) ltac:(lia)) as (V & F & N & _). exists ((- (- z))%Z, 0%nat).
    cbn [s_ list_ascii_of_string app read_decimal]. rewrite ascii_eqb_refl, (read_whole (dec (- z)) N F), V.
    split; [reflexivity|]. split; [unfold dval; cbn [fst snd pow]; rewrite Z.opp_involutive; field|].
    split; [|discriminate]. constructor; [right; now left|]. now apply numc_digits.
  - destruct (dec_ok z L) as (V & F & N & _). exists (z, 0%nat).
    rewrite <- (app_nil_r (dec z)), (not_minus (dec z) N F), app_nil_r, (read_whole _ N F), V.
    split; [reflexivity|]. split; [unfold dval; cbn [fst snd pow]; field|]. split; [now apply numc_digits|exact N].
Qed.

Lemma fixed3_ok x : exists q, read_decimal (fixed3 x) = Some q /\ Rabs (dval q - x) <= 1 / 2000 /\
  Forall numc (fixed3 x) /\ fixed3 x <> [].
Proof.
  unfold fixed3. set (n := ZnearestE (Rabs x * 1000)). cbv zeta.
  assert (E : Rabs (IZR n - Rabs x * 1000) <= 1 / 2).
  { rewrite Rabs_minus_sym. replace (1 / 2) with (/ 2) by field. apply Znearest_half. }
  assert (P : (0 <= n)%Z).
  { unfold n. pose proof (Rabs_pos x). replace 0%Z with (ZnearestE 0).
    - apply (@Zrnd_le ZnearestE (valid_rnd_N _)). lra.
    - apply (@Zrnd_IZR ZnearestE (valid_rnd_N _) 0). }
  clearbody n.
  destruct (dec_ok (n / 1000) ltac:(apply Z.div_pos; lia)) as (V & F & N & _).
  set (a := dec (n / 1000)) in *.
  set (b := [dig (n / 100 mod 10); dig (n / 10 mod 10); dig (n mod 10)]).
  assert (B : Forall is_digit b).
  { unfold b. do 3 (apply Forall_cons; [apply dig_digit, Z.mod_pos_bound; lia|]). apply Forall_nil. }
  assert (Vb : value (a ++ b) = n).
  { rewrite value_app by exact B. rewrite V. unfold b, value. cbn [fold_left length].
    rewrite !dig_code by (apply Z.mod_pos_bound; lia).
    assert (H1 := Z.mod_pos_bound (n / 100) 10 ltac:(lia)). assert (H2 := Z.mod_pos_bound (n / 10) 10 ltac:(lia)).
    assert (H3 := Z.mod_pos_bound n 10 ltac:(lia)).
    pose proof (Z.div_mod n 10 ltac:(lia)). pose proof (Z.div_mod (n / 10) 10 ltac:(lia)).
    pose proof (Z.div_mod (n / 100) 10 ltac:(lia)).
    rewrite (Z.div_div n 10 10) in * by lia. rewrite (Z.div_div n 100 10) in * by lia.
    change (10 * 10)%Z with 100%Z in *. change (100 * 10)%Z with 1000%Z in *.
    change (10 ^ Z.of_nat 3)%Z with 1000%Z. lia. }
  assert (R0 : read_abs (a ++ s_ "." ++ b) = Some (n, 3%nat)).
  { unfold read_abs. change (s_ "." ++ b) with ("."%char :: b). rewrite until_app by (now apply no_dot).
    rewrite (digits_ok a N F), (digits_ok b ltac:(discriminate) B). cbn [andb]. now rewrite Vb. }
  assert (C : Forall numc (a ++ s_ "." ++ b)).
  { apply Forall_app. split; [now apply numc_digits|]. constructor; [right; now right|]. now apply numc_digits. }
  destruct (Rlt_dec x 0) as [L|L].
  - exists ((- n)%Z, 3%nat). cbn [s_ list_ascii_of_string app read_decimal]. rewrite ascii_eqb_refl.
    change ("."%char :: b) with (s_ "." ++ b). rewrite R0. split; [reflexivity|].
    rewrite (Rabs_left x L) in E. split; [|split; [constructor; [right; now left|exact C]|discriminate]].
    unfold dval. cbn [fst snd]. rewrite opp_IZR. apply Rabs_le. apply Rabs_le_inv in E. cbn [pow]. lra.
  - exists (n, 3%nat). cbn [app]. rewrite (not_minus a N F), R0. split; [reflexivity|].
    rewrite (Rabs_pos_eq x ltac:(lra)) in E. split; [|split; [exact C|destruct a; [congruence|discriminate]]].
    unfold dval. cbn [fst snd]. apply Rabs_le. apply Rabs_le_inv in E. cbn [pow]. lra.
Qed.

Lemma svg_number_ok x t : svg_number (Fin x) = Ret t ->
  exists q, read_decimal t = Some q /\ close x q /\ Forall numc t /\ t <> [].
Proof.
  unfold svg_number. destruct (Req_EM_T x (IZR (Ztrunc x))) as [E|E].
  - cbn [to_int]. cbv zeta. destruct (_ && _)%bool; cbn [bind]; [|discriminate]. intro H. injection H as H.
    destruct (close_whole (Ztrunc x) t (or_intror I) H) as (q & Q & V & C & N). exists q.
    split; [exact Q|]. split; [|now split]. unfold close. rewrite V, <- E. split; [|reflexivity].
    rewrite Rminus_diag_eq by reflexivity. rewrite Rabs_R0. lra.
  - intro H. injection H as <-. destruct (fixed3_ok x) as (q & Q & V & C & N). exists q.
    split; [exact Q|]. split; [|now split]. split; [exact V|]. intros z ->. rewrite Ztrunc_IZR in E. congruence.
Qed.

(** Lists of numbers. *)
Inductive texts : list R -> list str -> list decimal -> Prop :=
| texts_nil : texts [] [] []
| texts_cons x l t ts q qs : svg_number (Fin x) = Ret t -> read_decimal t = Some q -> close x q ->
    Forall numc t -> t <> [] -> texts l ts qs -> texts (x :: l) (t :: ts) (q :: qs).
Lemma texts_close l ts qs : texts l ts qs -> Forall2 close l qs.
Proof. induction 1; constructor; auto. Qed.
Lemma texts_decimals l ts qs : texts l ts qs -> decimals ts = Some qs.
Proof. induction 1 as [|x l t ts q qs _ Q _ _ _ _ IH]; [reflexivity|]. cbn [decimals]. now rewrite Q, IH. Qed.
Definition spacec (c : ascii) : Prop := numc c \/ c = " "%char.
Lemma numbers_ok l t : numbers (map Fin l) = Ret t ->
  exists ts qs, texts l ts qs /\ Forall spacec t /\ (l = [] /\ t = [] \/ t <> [] /\ words t = ts).
Proof.
  revert t. induction l as [|x l IH]; intros t H.
  - cbn in H. injection H as <-. exists [], []. split; [constructor|]. split; [constructor|now left].
  - destruct l as [|y l].
    + cbn [map numbers] in H. destruct (svg_number_ok x t H) as (q & Q & C & F & N).
      exists [t], [q]. split; [constructor; auto; constructor|]. split; [eapply Forall_impl; [|exact F]; intros; now left|].
      right. split; [exact N|]. apply words_one. now apply no_space.
    + change (numbers (map Fin (x :: y :: l))) with
        (let* t := svg_number (Fin x) in let* u := numbers (map Fin (y :: l)) in Ret (t ++ s_ " " ++ u)) in H.
      destruct (svg_number (Fin x)) as [a| | | | ] eqn:A; try discriminate. cbn [bind] in H.
      destruct (numbers (map Fin (y :: l))) as [u| | | | ] eqn:U; try discriminate. cbn [bind] in H.
      injection H as <-. destruct (svg_number_ok x a A) as (q & Q & C & F & N).
      destruct (IH u eq_refl) as (ts & qs & T & S & [[E _]|[_ W]]); [discriminate|].
      exists (a :: ts), (q :: qs). split; [constructor; auto|]. split.
      * apply Forall_app. split; [eapply Forall_impl; [|exact F]; intros; now left|]. constructor; [now right|exact S].
      * right. split; [destruct a; [congruence|discriminate]|]. transitivity (words (a ++ s_ " " ++ u)); [reflexivity|]. rewrite words_app, W. rewrite words_one by now apply no_space. reflexivity.
Qed.
Lemma read_list_ok l t : numbers (map Fin l) = Ret t -> exists qs, read_list t = Some qs /\ Forall2 close l qs /\ Forall spacec t.
Proof.
  intro H. destruct (numbers_ok l t H) as (ts & qs & T & S & [[-> ->]|[N W]]).
  - exists []. repeat split; constructor.
  - exists qs. split; [|split; [now apply (texts_close l ts)|exact S]]. unfold read_list. destruct t; [congruence|]. rewrite W.
    now apply (texts_decimals l).
Qed.

(* ---------------- outlines ---------------- *)
Definition pathc (c : ascii) : Prop := spacec c \/ In c ["M"; "L"; "Q"; "C"; "Z"]%char.
Lemma spacec_pathc s : Forall spacec s -> Forall pathc s.
Proof. apply Forall_impl. intros; now left. Qed.

Lemma coords_command s : (match s with SClose => False | _ => True end) ->
  exists k, In k ["M"; "L"; "Q"; "C"]%char /\
  svg_command (command s) = let* t := numbers (map Fin (coords s)) in Ret (k :: t).
Proof.
  destruct s; intro H; try contradiction;
   [exists "M"%char | exists "L"%char | exists "Q"%char | exists "C"%char]; (split; [cbn; tauto | reflexivity]).
Qed.
Lemma words_letter k t ts : k <> " "%char -> t <> [] -> words t = ts ->
  exists w r, ts = w :: r /\ words (k :: t) = (k :: w) :: r.
Proof.
  intros K N W. cbn [words]. apply ascii_eqb_neq in K. rewrite K, W.
  pose proof (words_nonempty t) as M. rewrite W in M. destruct ts as [|w r]; [congruence|]. now exists w, r.
Qed.
Ltac inv_texts := repeat match goal with H : texts (_ :: _) _ _ |- _ => inversion H; subst; clear H | H : texts [] _ _ |- _ => inversion H; subst; clear H end.
Lemma segment_ok s t : svg_command (command s) = Ret t ->
  exists q, seg_rel close s q /\ Forall pathc t /\ t <> [] /\
  forall r, read_segs (words t ++ r) = match read_segs r with Some u => Some (q :: u) | None => None end.
Proof.
  intro H. destruct s as [x y|x y|a b x y|a b c e x y|].
  5: { cbn in H. injection H as <-. exists SClose. split; [constructor|]. split; [constructor; [right; cbn; tauto|constructor]|].
       split; [discriminate|]. intro r. reflexivity. }
  - change (svg_command (command (SMove x y))) with (let* t := numbers (map Fin [x; y]) in Ret ("M"%char :: t)) in H.
    destruct (numbers (map Fin [x; y])) as [u| | | | ] eqn:U; try discriminate. cbn [bind] in H. injection H as <-.
    destruct (numbers_ok _ _ U) as (ts & qs & T & S & [[E _]|[N W]]); [discriminate|].
    destruct (words_letter "M" u ts ltac:(discriminate) N W) as (w & v & -> & E2). clear W. inv_texts.
    eexists (SMove _ _). split; [constructor; eassumption|].
    split; [constructor; [right; cbn; tauto|now apply spacec_pathc]|]. split; [discriminate|]. intro r.
    rewrite E2.
    cbn [app read_segs]. repeat match goal with K : read_decimal ?q = Some _ |- _ => rewrite K; clear K end. reflexivity.
  - change (svg_command (command (SLine x y))) with (let* t := numbers (map Fin [x; y]) in Ret ("L"%char :: t)) in H.
    destruct (numbers (map Fin [x; y])) as [u| | | | ] eqn:U; try discriminate. cbn [bind] in H. injection H as <-.
    destruct (numbers_ok _ _ U) as (ts & qs & T & S & [[E _]|[N W]]); [discriminate|].
    destruct (words_letter "L" u ts ltac:(discriminate) N W) as (w & v & -> & E2). clear W. inv_texts.
    eexists (SLine _ _). split; [constructor; eassumption|].
    split; [constructor; [right; cbn; tauto|now apply spacec_pathc]|]. split; [discriminate|]. intro r.
    rewrite E2.
    cbn [app read_segs]. repeat match goal with K : read_decimal ?q = Some _ |- _ => rewrite K; clear K end. reflexivity.
  - change (svg_command (command (SQuad a b x y))) with (let* t := numbers (map Fin [a; b; x; y]) in Ret ("Q"%char :: t)) in H.
    destruct (numbers (map Fin [a; b; x; y])) as [u| | | | ] eqn:U; try discriminate. cbn [bind] in H. injection H as <-.
    destruct (numbers_ok _ _ U) as (ts & qs & T & S & [[E _]|[N W]]); [discriminate|].
    destruct (words_letter "Q" u ts ltac:(discriminate) N W) as (w & v & -> & E2). clear W. inv_texts.
    eexists (SQuad _ _ _ _). split; [constructor; eassumption|].
    split; [constructor; [right; cbn; tauto|now apply spacec_pathc]|]. split; [discriminate|]. intro r.
    rewrite E2.
    cbn [app read_segs]. repeat match goal with K : read_decimal ?q = Some _ |- _ => rewrite K; clear K end. reflexivity.
  - change (svg_command (command (SCubic a b c e x y))) with (let* t := numbers (map Fin [a; b; c; e; x; y]) in Ret ("C"%char :: t)) in H.
    destruct (numbers (map Fin [a; b; c; e; x; y])) as [u| | | | ] eqn:U; try discriminate. cbn [bind] in H. injection H as <-.
    destruct (numbers_ok _ _ U) as (ts & qs & T & S & [[E _]|[N W]]); [discriminate|].
    destruct (words_letter "C" u ts ltac:(discriminate) N W) as (w & v & -> & E2). clear W. inv_texts.
    eexists (SCubic _ _ _ _ _ _). split; [constructor; eassumption|].
    split; [constructor; [right; cbn; tauto|now apply spacec_pathc]|]. split; [discriminate|]. intro r.
    rewrite E2.
    cbn [app read_segs]. repeat match goal with K : read_decimal ?q = Some _ |- _ => rewrite K; clear K end. reflexivity.
Qed.
Lemma outline_ok o t : svg_path_data (map command o) = Ret t ->
  exists q, read_outline t = Some q /\ Forall2 (seg_rel close) o q /\ Forall pathc t.
Proof.
  assert (G : o <> [] -> svg_path_data (map command o) = Ret t ->
    exists q, t <> [] /\ read_segs (words t) = Some q /\ Forall2 (seg_rel close) o q /\ Forall pathc t).
  { revert t. induction o as [|s o IH]; intros t N H; [congruence|]. destruct o as [|s2 o].
    - cbn [map svg_path_data] in H. destruct (segment_ok s t H) as (q & Q & F & T & R0). exists [q].
      specialize (R0 []). rewrite app_nil_r in R0. repeat split; auto.
    - change (svg_path_data (map command (s :: s2 :: o))) with
        (let* t := svg_command (command s) in let* u := svg_path_data (map command (s2 :: o)) in Ret (t ++ s_ " " ++ u)) in H.
      destruct (svg_command (command s)) as [a| | | | ] eqn:A; try discriminate. cbn [bind] in H.
      destruct (svg_path_data (map command (s2 :: o))) as [u| | | | ] eqn:U; try discriminate. cbn [bind] in H.
      injection H as <-. destruct (segment_ok s a A) as (q & Q & F & T & R0).
      destruct (IH u ltac:(discriminate) eq_refl) as (qs & N2 & R1 & Q1 & F1). exists (q :: qs).
      split; [destruct a; [congruence|discriminate]|].
      split; [transitivity (read_segs (words (a ++ s_ " " ++ u))); [reflexivity|]; rewrite words_app, R0, R1; reflexivity|].
      split; [now constructor|]. apply Forall_app. split; [exact F|]. constructor; [left; now right|exact F1]. }
  intro H. destruct o as [|s o].
  - cbn in H. injection H as <-. exists []. repeat split; constructor.
  - destruct (G ltac:(discriminate) H) as (q & N & Q & R0 & F). exists q. split; [|now split].
    unfold read_outline. destruct t; [congruence|exact Q].
Qed.

(* ---------------- the direction of y ---------------- *)
Lemma rnd64_id x : is64 x -> rnd64 x = x.
Proof. intro H. unfold rnd64. apply round_generic; [auto with typeclass_instances|exact H]. Qed.
Lemma rnd64_0 : rnd64 0 = 0.
Proof. unfold rnd64. apply round_0. auto with typeclass_instances. Qed.
Lemma is64_1 : is64 1.
Proof. unfold is64. apply generic_format_FLT. exists (Float radix2 1 0); [cbn; unfold F2R; cbn; lra|cbn; lia|cbn; lia]. Qed.
Lemma rnd64_1 : rnd64 1 = 1.
Proof. apply rnd64_id, is64_1. Qed.
Lemma is64_opp x : is64 x -> is64 (- x).
Proof. apply generic_format_opp. Qed.
Lemma proj_eq h : is64 h -> proj rnd64 (Fin h) =
  mk_mat3 (Fin 1) (Fin 0) (Fin 0) (Fin 0) (Fin (-1)) (Fin h) (Fin 0) (Fin 0) (Fin 1).
Proof.
  intro H. unfold proj, mmul, translate2, scale2, sum3. cbn [ma mb mc md me mf mg mh mi vx vy xmul xadd].
  rewrite ?Rmult_0_l, ?Rmult_0_r, ?Rmult_1_l, ?Rmult_1_r, ?rnd64_0, ?rnd64_1, ?Rplus_0_l, ?Rplus_0_r, ?rnd64_0, ?rnd64_1,
    ?Rplus_0_l, ?Rplus_0_r, ?rnd64_0, ?rnd64_1.
  rewrite (rnd64_id h H). rewrite ?(rnd64_id h H).
  assert (M : rnd64 (-1) = -1) by (apply rnd64_id, is64_opp, is64_1).
  repeat (rewrite ?M, ?Rplus_0_r, ?rnd64_0, ?rnd64_1). reflexivity.
Qed.
Lemma move_flip h x y : is64 h -> is64 x -> is64 y ->
  move_point rnd64 (proj rnd64 (Fin h)) (P2 x y) = P2 x (rnd64 (h - y)).
Proof.
  intros H X Y. rewrite proj_eq by exact H. unfold move_point, mapply, sum3, P2. cbn [ma mb mc md me mf mg mh mi vx vy wx wy wz xmul xadd].
  rewrite ?Rmult_0_l, ?Rmult_0_r, ?Rmult_1_l, ?Rmult_1_r, ?rnd64_0, ?rnd64_1, ?Rplus_0_l, ?Rplus_0_r.
  rewrite (rnd64_id x X), (rnd64_id h H), ?(rnd64_id x X). rewrite ?Rplus_0_r, ?(rnd64_id x X).
  replace (-1 * y) with (- y) by ring. rewrite (rnd64_id (- y) (is64_opp y Y)), (rnd64_id (- y) (is64_opp y Y)).
  f_equal; f_equal. f_equal. ring.
Qed.
Lemma flipped h o : is64 h -> good_outline o ->
  path_transform rnd64 (map command o) (proj rnd64 (Fin h)) = map command (map (flip h) o).
Proof.
  intros H G. unfold path_transform. rewrite !map_map. apply map_ext_in. intros s I.
  unfold good_outline in G. rewrite Forall_forall in G. specialize (G s I). clear I.
  destruct s; cbn [coords command transform_cmd flip] in *;
    repeat match goal with K : Forall is64 (_ :: _) |- _ => inversion K; subst; clear K end; rewrite ?move_flip by assumption; reflexivity.
Qed.

(* ---------------- colours ---------------- *)
Definition hexc (c : ascii) : Prop := exists n, (n < 16)%nat /\ c = low n.
Lemma hexval_low n : (n < 16)%nat -> hexval (low n) = Some n.
Proof. intro H. do 16 (destruct n as [|n]; [reflexivity|]). lia. Qed.
Lemma low_clean n : (n < 16)%nat -> cleanc (low n).
Proof. intro H. do 16 (destruct n as [|n]; [repeat split; discriminate|]). lia. Qed.
Lemma byte_split k : (k < 256)%nat -> exists n m, (n < 16)%nat /\ (m < 16)%nat /\ k = (16 * n + m)%nat.
Proof.
  intro H. exists (k / 16)%nat, (k mod 16)%nat. split; [apply Nat.div_lt_upper_bound; lia|].
  split; [apply Nat.mod_upper_bound; lia|]. apply Nat.div_mod. lia.
Qed.
Lemma is64_255 : is64 255.
Proof. unfold is64. apply generic_format_FLT. exists (Float radix2 255 0); [cbn; unfold F2R; cbn; lra|cbn; lia|cbn; lia]. Qed.
Lemma channel_ok x : 0 <= x <= 1 -> exists k, (k < 256)%nat /\ channel x k /\ to_int (xmul rnd64 (Fin x) (Fin 255)) = Ret (Z.of_nat k).
Proof.
  intro H. cbn [xmul to_int]. set (y := rnd64 (x * 255)).
  assert (Y : 0 <= y <= 255).
  { unfold y. split.
    - rewrite <- rnd64_0. apply round_le; auto with typeclass_instances. lra.
    - apply Rle_trans with (rnd64 255); [apply round_le; auto with typeclass_instances; lra|rewrite (rnd64_id 255 is64_255); lra]. }
  assert (T : Ztrunc y = Zfloor y) by (apply Ztrunc_floor; lra). cbv zeta. rewrite T.
  assert (F0 : (0 <= Zfloor y)%Z) by (apply Zfloor_lub; lra).
  assert (F1 : (Zfloor y <= 255)%Z). { apply le_IZR. pose proof (Zfloor_lb y). lra. }
  exists (Z.to_nat (Zfloor y)). split; [lia|]. split.
  - unfold channel. fold y. rewrite INR_IZR_INZ, Z2Nat.id by lia. split; [apply Zfloor_lb|apply Zfloor_ub].
  - rewrite Z2Nat.id by lia. replace ((- 2 ^ 31 <=? Zfloor y) && (Zfloor y <? 2 ^ 31))%Z with true; [reflexivity|].
    symmetry. apply andb_true_intro. split; [apply Z.leb_le|apply Z.ltb_lt]; lia.
Qed.
Lemma color_ok c : unit_interval c -> exists t l, to_hex_str rnd64 3 (col c) = Ret t /\ read_color t = Some l /\
  shown c l /\ Forall cleanc t /\ str_eqb t (s_ "none") = false.
Proof.
  intros (R0 & G0 & B0 & _).
  destruct (channel_ok _ R0) as (r & Lr & Cr & Tr). destruct (channel_ok _ G0) as (g & Lg & Cg & Tg).
  destruct (channel_ok _ B0) as (b & Lb & Cb & Tb).
  destruct (byte_split r Lr) as (r1 & r2 & ? & ? & ->). destruct (byte_split g Lg) as (g1 & g2 & ? & ? & ->).
  destruct (byte_split b Lb) as (b1 & b2 & ? & ? & ->).
  exists ("#"%char :: [low r1; low r2; low g1; low g2; low b1; low b2]), (16 * r1 + r2, 16 * g1 + g2, 16 * b1 + b2)%nat.
  split; [|split; [|split; [now split; [|split]|split]]].
  - unfold to_hex_str. change (4 <? 3)%nat with false. cbv iota. cbn [firstn hex_channels col c_r c_g c_b].
    rewrite Tr. cbn [bind]. rewrite Tg. cbn [bind]. rewrite Tb. cbn [bind]. rewrite !hex_int_byte by assumption. reflexivity.
  - unfold read_color. rewrite !hexval_low by assumption. reflexivity.
  - repeat constructor; try (apply low_clean; assumption); discriminate.
  - destruct (str_eqb_spec ("#"%char :: [low r1; low r2; low g1; low g2; low b1; low b2]) (s_ "none")) as [E|E]; [discriminate|reflexivity].
Qed.
Lemma black_level c : color_is_black (col c) = true -> forall l, shown c l -> l = (0, 0, 0)%nat.
Proof.
  unfold color_is_black. cbn [col c_r c_g c_b]. intros H l (A & B & C).
  apply andb_prop in H as [H H3]. apply andb_prop in H as [H1 H2].
  assert (Z : forall x n, xeq (Fin x) (Fin 0) = true -> channel x n -> n = 0%nat).
  { intros x n E. cbn [xeq] in E. destruct (Req_EM_T x 0) as [->|]; [|discriminate]. unfold channel. rewrite Rmult_0_l, rnd64_0.
    intros [K _]. destruct n; [reflexivity|]. rewrite S_INR in K. pose proof (pos_INR n). lra. }
  destruct l as [[l1 l2] l3]. cbn [fst snd] in *. now rewrite (Z _ _ H1 A), (Z _ _ H2 B), (Z _ _ H3 C).
Qed.

(* ---------------- attributes ---------------- *)
Definition attr_text (a : str * str) : str := s_ " " ++ fst a ++ s_ "=" ++ [c_dq] ++ snd a ++ [c_dq].
Definition ok_attr (a : str * str) : Prop := fst a <> [] /\ forallb name_char (fst a) = true /\ Forall cleanc (snd a).
Lemma attr_plain n v : Forall cleanc v -> svg_attr n v = attr_text (n, v).
Proof.
  intro F. unfold svg_attr, attr_text. cbn [fst snd]. do 3 f_equal. f_equal.
  assert (flat_map escape_quote v = v) as ->; [|reflexivity].
  induction v as [|c v IH]; [reflexivity|]. inversion F as [|? ? C F2]; subst. cbn [flat_map]. rewrite IH by exact F2.
  unfold escape_quote. destruct C as [C _]. apply ascii_eqb_neq in C. now rewrite C.
Qed.
Lemma unescape_clean v : Forall cleanc v -> unescape v = Some v.
Proof.
  induction 1 as [|c v (_ & A & B) _ IH]; [reflexivity|]. cbn [unescape]. apply ascii_eqb_neq in A, B. now rewrite A, B, IH.
Qed.
Fixpoint nodupb (l : list str) : bool :=
  match l with [] => true | a :: r => negb (existsb (fun b => str_eqb b a) r) && nodupb r end.
Lemma read_attrs_ok l : forall n r, Forall ok_attr l -> nodupb (map fst l) = true ->
  (match r with c :: _ => c <> " "%char | [] => True end) -> (length l < n)%nat ->
  read_attrs n (flat_map attr_text l ++ r) = Some (l, r).
Proof.
  induction l as [|[name v] l IH]; intros n r F D S L; (destruct n as [|n]; [cbn in L; lia|]).
  - cbn [flat_map app read_attrs]. destruct r as [|c r]; [reflexivity|]. apply ascii_eqb_neq in S. now rewrite S.
  - inversion F as [|? ? (N & C & V) F2]; subst. cbn [fst snd] in *.
    cbn [map nodupb] in D. apply andb_prop in D as [D1 D2]. apply negb_true_iff in D1.
    assert (E : flat_map attr_text ((name, v) :: l) ++ r = " "%char :: (name ++ "="%char :: c_dq :: (v ++ c_dq :: (flat_map attr_text l ++ r)))).
    { cbn [flat_map]. unfold attr_text at 1. cbn [fst snd]. rewrite <- !app_assoc. reflexivity. }
    rewrite E. cbn [read_attrs]. rewrite ascii_eqb_refl. rewrite span_app by (exact C || reflexivity).
    destruct name as [|x name]; [congruence|]. change (Ascii.eqb "=" "=" && Ascii.eqb c_dq """")%bool with true. cbv iota.
    change """"%char with c_dq.
    assert (~ In c_dq v) as NI by (intro I; rewrite Forall_forall in V; destruct (V _ I) as [Q _]; congruence).
    rewrite until_app by exact NI.
    rewrite (unescape_clean v V).
    rewrite IH by (auto; cbn [length] in L; lia).
    assert (existsb (fun a => str_eqb (fst a) (x :: name)) l = false) as ->; [|reflexivity].
    rewrite <- D1. clear. induction l as [|a l IH]; cbn [existsb map]; [reflexivity|]. now rewrite IH.
Qed.
Lemma flat_map_length {A} (f : A -> str) l : (forall a, f a <> []) -> (length l <= length (flat_map f l))%nat.
Proof.
  intro H. induction l as [|a l IH]; cbn [flat_map length]; [lia|]. rewrite app_length. specialize (H a).
  destruct (f a); [congruence|]. cbn [length]. lia.
Qed.
Lemma attr_text_nonempty a : attr_text a <> [].
Proof. discriminate. Qed.

(* ---------------- elements and the document ---------------- *)
Definition elem_text (e : str * attrs) : str := s_ "  <" ++ fst e ++ flat_map attr_text (snd e) ++ s_ "/>" ++ [c_nl].
Definition ok_elem (e : str * attrs) : Prop :=
  forallb name_char (fst e) = true /\ snd e <> [] /\ Forall ok_attr (snd e) /\ nodupb (map fst (snd e)) = true.
Lemma read_elements_ok es : forall n, Forall ok_elem es -> (length es < n)%nat ->
  read_elements n (flat_map elem_text es ++ s_ "</svg>" ++ [c_nl]) = Some es.
Proof.
  induction es as [|[name l] es IH]; intros n F L; (destruct n as [|n]; [cbn in L; lia|]).
  - cbn [flat_map app read_elements]. now rewrite str_eqb_refl.
  - inversion F as [|? ? (N & M & A & D) F2]; subst. cbn [fst snd] in *.
    set (tail := flat_map elem_text es ++ s_ "</svg>" ++ [c_nl]).
    assert (E : flat_map elem_text ((name, l) :: es) ++ s_ "</svg>" ++ [c_nl]
      = s_ "  <" ++ (name ++ (flat_map attr_text l ++ (s_ "/>" ++ [c_nl]) ++ tail))).
    { cbn [flat_map]. unfold elem_text at 1. cbn [fst snd]. unfold tail. rewrite <- !app_assoc. reflexivity. }
    rewrite E. cbn [read_elements].
    destruct (str_eqb_spec (s_ "  <" ++ (name ++ (flat_map attr_text l ++ (s_ "/>" ++ [c_nl]) ++ tail))) (s_ "</svg>" ++ [c_nl])) as [Q|_]; [discriminate|].
    rewrite strip_app.
    destruct l as [|a l]; [congruence|].
    assert (B : exists u, flat_map attr_text (a :: l) ++ (s_ "/>" ++ [c_nl]) ++ tail = " "%char :: u) by (eexists; reflexivity).
    destruct B as [u B]. rewrite B, span_app by (exact N || reflexivity). rewrite <- B.
    rewrite read_attrs_ok; [| assumption | assumption | discriminate | ].
    + rewrite strip_app. unfold tail. rewrite IH by (auto; cbn [length] in L; lia). reflexivity.
    + rewrite app_length. pose proof (flat_map_length attr_text (a :: l) attr_text_nonempty). cbn [length] in *.
      rewrite app_length. cbn [s_ list_ascii_of_string app length]. lia.
Qed.
Lemma comment_end v r : ~ In "-"%char v -> end_comment (v ++ s_ " (clip-lang.org) -->" ++ r) = Some r.
Proof.
  induction v as [|c v IH]; intro N.
  - reflexivity.
  - cbn [app end_comment]. change (strip (s_ "--") (c :: v ++ s_ " (clip-lang.org) -->" ++ r))
      with (if Ascii.eqb "-" c then strip (s_ "-") (v ++ s_ " (clip-lang.org) -->" ++ r) else None).
    destruct (Ascii.eqb_spec "-" c) as [<-|_]; [exfalso; apply N; now left|]. apply IH. intro I. apply N. now right.
Qed.
Definition document (version : str) (w h : str) (es : list (str * attrs)) : str :=
  s_ "<?xml version=""1.0"" encoding=""UTF-8"" ?>" ++ [c_nl] ++
  s_ "<!-- Generated by clip v" ++ version ++ s_ " (clip-lang.org) -->" ++ [c_nl] ++
  s_ "<svg" ++ flat_map attr_text [(s_ "xmlns", s_ "http://www.w3.org/2000/svg"); (s_ "width", w); (s_ "height", h)] ++ s_ ">" ++ [c_nl] ++
  flat_map elem_text es ++ s_ "</svg>" ++ [c_nl].
Lemma clean_const (s : str) : forallb (fun c => negb (Ascii.eqb c c_dq) && negb (Ascii.eqb c "<") && negb (Ascii.eqb c "&"))%bool s = true -> Forall cleanc s.
Proof.
  intro H. rewrite Forall_forall. rewrite forallb_forall in H. intros c I. specialize (H c I).
  apply andb_prop in H as [H H3]. apply andb_prop in H as [H1 H2]. rewrite negb_true_iff in H1, H2, H3.
  repeat split; now apply ascii_eqb_neq.
Qed.
Lemma ok_const n v : n <> [] -> forallb name_char n = true -> Forall cleanc v -> ok_attr (n, v).
Proof. now repeat split. Qed.
Lemma read_document version w h es : ~ In "-"%char version -> Forall cleanc w -> Forall cleanc h -> Forall ok_elem es ->
  read_xml (document version w h es) = Some ([(s_ "xmlns", s_ "http://www.w3.org/2000/svg"); (s_ "width", w); (s_ "height", h)], es).
Proof.
  intros V W H E. unfold read_xml, document.
  set (l := [(s_ "xmlns", s_ "http://www.w3.org/2000/svg"); (s_ "width", w); (s_ "height", h)]).
  set (body := flat_map elem_text es ++ s_ "</svg>" ++ [c_nl]).
  assert (S1 : forall r, s_ "<?xml version=""1.0"" encoding=""UTF-8"" ?>" ++ [c_nl] ++ s_ "<!-- Generated by clip v" ++ version ++ r
    = (s_ "<?xml version=""1.0"" encoding=""UTF-8"" ?>" ++ [c_nl] ++ s_ "<!--") ++ (s_ " Generated by clip v" ++ version) ++ r).
  { intro r. rewrite <- !app_assoc. reflexivity. }
  rewrite S1, strip_app, comment_end.
  2: { intro I. apply in_app_or in I as [I|I]; [|contradiction]. vm_compute in I.
       repeat (destruct I as [I|I]; [discriminate|]). contradiction. }
  assert (S2 : forall r, [c_nl] ++ s_ "<svg" ++ r = ([c_nl] ++ s_ "<svg") ++ r) by (intro; now rewrite <- app_assoc).
  rewrite S2, strip_app.
  assert (S3 : forall r, s_ ">" ++ [c_nl] ++ r = (s_ ">" ++ [c_nl]) ++ r) by (intro; now rewrite <- app_assoc).
  rewrite S3, read_attrs_ok.
  - rewrite strip_app. unfold body. rewrite read_elements_ok; [reflexivity|assumption|].
    rewrite app_length. cut (length es <= length (flat_map elem_text es))%nat; [cbn [s_ list_ascii_of_string app length]; lia|].
    apply flat_map_length. discriminate.
  - unfold l. do 3 (apply Forall_cons; [split; [discriminate|split; [reflexivity|cbn [snd]; first [assumption|now apply clean_const]]]|]).
    apply Forall_nil.
  - reflexivity.
  - discriminate.
  - rewrite !app_length. match goal with |- context [flat_map attr_text ?x] => pose proof (flat_map_length attr_text x attr_text_nonempty) as Q; set (m := length (flat_map attr_text x)) in * end.
    cbn [length] in *. cbn [s_ list_ascii_of_string app length]. lia.
Qed.

Lemma Ret_inj {A} (x y : A) : Ret x = Ret y -> x = y.
Proof. congruence. Qed.
(* ---------------- the attributes that are written ---------------- *)
Lemma num_clean t : Forall numc t -> Forall cleanc t.
Proof. apply Forall_impl. exact numc_clean. Qed.
Lemma spacec_clean c : spacec c -> cleanc c.
Proof. intros [N| ->]; [now apply numc_clean|repeat split; discriminate]. Qed.
Lemma path_clean t : Forall pathc t -> Forall cleanc t.
Proof.
  apply Forall_impl. intros c [S|I]; [now apply spacec_clean|].
  cbn in I. repeat (destruct I as [<-|I]; [repeat split; discriminate|]). contradiction.
Qed.
Lemma attr_num_ok n x t : svg_attr_num n (Fin x) = Ret t ->
  exists v q, t = attr_text (n, v) /\ read_decimal v = Some q /\ close x q /\ Forall cleanc v.
Proof.
  unfold svg_attr_num. destruct (svg_number (Fin x)) as [v| | | | ] eqn:V; try discriminate. cbn [bind]. intro H. apply Ret_inj in H; subst t.
  destruct (svg_number_ok x v V) as (q & Q & C & F & _). exists v, q. rewrite attr_plain by now apply num_clean.
  repeat split; try apply C; auto. now apply num_clean.
Qed.
(** An opacity: left out for 1. *)
Definition opt_num (n : str) (x : R) (l : attrs) : Prop :=
  (l = [] /\ x = 1) \/ exists v q, l = [(n, v)] /\ read_decimal v = Some q /\ close x q /\ Forall cleanc v.
Lemma opacity_ok n c t : opacity_attr n (col c) = Ret t -> exists l, t = flat_map attr_text l /\ opt_num n (q_a c) l.
Proof.
  unfold opacity_attr. cbn [col c_a xeq]. destruct (Req_EM_T (q_a c) 1) as [E|E]; intro H.
  - apply Ret_inj in H; subst t. exists []. split; [reflexivity|now left].
  - destruct (attr_num_ok _ _ _ H) as (v & q & -> & Q & C & K). exists [(n, v)]. cbn [flat_map]. rewrite app_nil_r.
    split; [reflexivity|]. right. now exists v, q.
Qed.
Definition opt_fill (c : rgba) (l : attrs) : Prop :=
  (l = [] /\ shown c (0, 0, 0)%nat) \/
  exists v lv, l = [(s_ "fill", v)] /\ read_color v = Some lv /\ shown c lv /\ Forall cleanc v /\ str_eqb v (s_ "none") = false.
Lemma fill_ok c t : unit_interval c -> fill_attrs rnd64 (col c) = Ret t ->
  exists a b, t = flat_map attr_text (a ++ b) /\ opt_fill c a /\ opt_num (s_ "fill-opacity") (q_a c) b.
Proof.
  intros U H. unfold fill_attrs in H. destruct (color_ok c U) as (h & lv & T & RC & SH & CL & NN). rewrite T in H. cbn [bind] in H.
  destruct (opacity_attr (s_ "fill-opacity") (col c)) as [o| | | | ] eqn:O; try discriminate. cbn [bind] in H. apply Ret_inj in H; subst t.
  destruct (opacity_ok _ _ _ O) as (b & -> & B).
  destruct (color_is_black (col c)) eqn:K.
  - exists [], b. split; [reflexivity|]. split; [|exact B]. left. split; [reflexivity|].
    now rewrite <- (black_level c K lv SH).
  - exists [(s_ "fill", h)], b. cbn [app flat_map]. rewrite attr_plain by exact CL. split; [reflexivity|]. split; [|exact B].
    right. now exists h, lv.
Qed.
Lemma stroke_ok c w t : unit_interval c -> stroke_attrs rnd64 (col c) (Fin w) = Ret t ->
  exists v lv b u q, t = flat_map attr_text ((s_ "stroke", v) :: b ++ [(s_ "stroke-width", u)]) /\
    read_color v = Some lv /\ shown c lv /\ Forall cleanc v /\ str_eqb v (s_ "none") = false /\
    opt_num (s_ "stroke-opacity") (q_a c) b /\ read_decimal u = Some q /\ close w q /\ Forall cleanc u.
Proof.
  intros U H. unfold stroke_attrs in H. destruct (color_ok c U) as (h & lv & T & RC & SH & CL & NN). rewrite T in H. cbn [bind] in H.
  destruct (opacity_attr (s_ "stroke-opacity") (col c)) as [o| | | | ] eqn:O; try discriminate. cbn [bind] in H.
  destruct (svg_attr_num (s_ "stroke-width") (Fin w)) as [k| | | | ] eqn:W; try discriminate. cbn [bind] in H. apply Ret_inj in H; subst t.
  destruct (opacity_ok _ _ _ O) as (b & -> & B). destruct (attr_num_ok _ _ _ W) as (u & q & -> & Q & C & F).
  exists h, lv, b, u, q. split; [|now repeat (split; [assumption|])].
  cbn [flat_map]. rewrite flat_map_app, attr_plain by exact CL. cbn [flat_map]. now rewrite app_nil_r.
Qed.
Lemma path_attr_ok h o t : is64 h -> good_outline o -> path_attr rnd64 (Fin h) (map command o) = Ret t ->
  exists v q, t = attr_text (s_ "d", v) /\ read_outline v = Some q /\ Forall2 (seg_rel close) (map (flip h) o) q /\ Forall cleanc v.
Proof.
  intros H G E. unfold path_attr in E. rewrite flipped in E by assumption.
  destruct (svg_path_data (map command (map (flip h) o))) as [v| | | | ] eqn:V; try discriminate. cbn [bind] in E. apply Ret_inj in E; subst t.
  destruct (outline_ok _ _ V) as (q & Q & F & C). exists v, q. rewrite attr_plain by now apply path_clean.
  repeat split; auto. now apply path_clean.
Qed.
Definition aa_list (aa : option bool) : attrs := match aa with Some false => [(s_ "shape-rendering", s_ "crispEdges")] | _ => [] end.
Lemma aa_ok aa : aa_attrs aa = flat_map attr_text (aa_list aa).
Proof. destruct aa as [[|]|]; reflexivity. Qed.

Lemma get_cons n v l m : get ((n, v) :: l) m = if str_eqb n m then Some v else get l m.
Proof. unfold get. cbn [find fst]. now destruct (str_eqb n m). Qed.
Lemma get_nil m : get [] m = None.
Proof. reflexivity. Qed.
Ltac names := repeat match goal with |- context [str_eqb (s_ ?a) (s_ ?b)] =>
  let r := eval vm_compute in (str_eqb (s_ a) (s_ b)) in change (str_eqb (s_ a) (s_ b)) with r; cbv iota end.
Ltac gets := unfold attr; repeat (rewrite ?get_cons, ?get_nil; names).
Lemma read_paint_color v lv : read_color v = Some lv -> str_eqb v (s_ "none") = false -> read_paint v = Some (Some lv).
Proof. intros R0 N. unfold read_paint. now rewrite N, R0. Qed.
Lemma paint_none : read_paint (s_ "none") = Some None.
Proof. reflexivity. Qed.
Lemma crisp_edges : read_crisp (s_ "crispEdges") = Some true.
Proof. reflexivity. Qed.
Lemma close_one : close 1 one.
Proof. unfold close, dval, one. cbn [fst snd pow]. replace (1 / 1 - 1) with 0 by field. rewrite Rabs_R0. split; [lra|]. intros; field. Qed.
Lemma close_zero : close 0 zero.
Proof. unfold close, dval, zero. cbn [fst snd pow]. replace (0 / 1 - 0) with 0 by field. rewrite Rabs_R0. split; [lra|]. intros; field. Qed.
Definition crisp_of (aa : option bool) : bool := match aa with Some false => true | _ => false end.

(** A written element: its text, that it is well-formed, and what it paints. *)
Definition written (t : str) (ps : list (paint R rgba)) : Prop :=
  exists e qs, t = elem_text e /\ ok_elem e /\ paints e = Some qs /\ Forall2 (paint_rel close shown) ps qs.

(** The attributes of a path element; each but the first can be left out. *)
Definition ol (n : string) (v : option str) : attrs := match v with Some v => [(s_ n, v)] | None => [] end.
Definition path_attrs (v : str) (f fo s so sw da df cr : option str) : attrs :=
  (s_ "d", v) :: ol "fill" f ++ ol "fill-opacity" fo ++ ol "stroke" s ++ ol "stroke-opacity" so ++ ol "stroke-width" sw ++
  ol "stroke-dasharray" da ++ ol "stroke-dashoffset" df ++ ol "shape-rendering" cr.
Definition oor (v w : option str) : option str := match v with Some v => Some v | None => w end.
Lemma oor_none v : oor v None = v.
Proof. now destruct v. Qed.
Lemma get_ol n v r m : get (ol n v ++ r) m = if str_eqb (s_ n) m then oor v (get r m) else get r m.
Proof. destruct v as [v|]; cbn [ol app oor]; [rewrite get_cons; now destruct (str_eqb (s_ n) m)|now destruct (str_eqb (s_ n) m)]. Qed.
Definition absent (n : str) (r : attrs) : Prop := existsb (fun b => str_eqb b n) (map fst r) = false.
Lemma absent_nil n : absent n [].
Proof. reflexivity. Qed.
Lemma absent_ol n m v r : str_eqb (s_ m) n = false -> absent n r -> absent n (ol m v ++ r).
Proof. intros E A. destruct v as [v|]; [|exact A]. unfold absent. cbn [ol app map existsb fst]. now rewrite E. Qed.
Lemma nodup_ol n v r : absent (s_ n) r -> nodupb (map fst r) = true -> nodupb (map fst (ol n v ++ r)) = true.
Proof. intros A N. destruct v as [v|]; [|exact N]. cbn [ol app map nodupb fst]. unfold absent in A. now rewrite A, N. Qed.
Definition oread {A} (f : str -> option A) (default : option A) (v : option str) : option A := match v with Some v => f v | None => default end.
Lemma known_ol n v r : existsb (str_eqb (s_ n)) known = true ->
  forallb (fun a : str * str => existsb (str_eqb (fst a)) known) (ol n v ++ r) = forallb (fun a : str * str => existsb (str_eqb (fst a)) known) r.
Proof. intro K. destruct v as [v|]; cbn [ol app forallb fst]; [now rewrite K|reflexivity]. Qed.
Lemma ol_nil n v : ol n v = ol n v ++ [].
Proof. now rewrite app_nil_r. Qed.
Lemma paints_path v f fo s so sw da df cr : paints (s_ "path", path_attrs v f fo s so sw da df cr) =
  match read_outline v, oread read_paint (Some (Some (0, 0, 0)%nat)) f, oread read_decimal (Some one) fo, oread read_paint (Some None) s,
    oread read_decimal (Some one) so, oread read_decimal (Some one) sw, oread read_list (Some []) da, oread read_decimal (Some zero) df,
    oread read_crisp (Some false) cr with
  | Some o, Some f, Some fo, Some s, Some so, Some w, Some dash, Some off, Some crisp =>
        Some (match f with Some c => [Fill o c fo crisp] | None => [] end ++
              match s with Some c => [Stroke o c so w dash off crisp] | None => [] end)
  | _, _, _, _, _, _, _, _, _ => None
  end.
Proof.
  unfold paints. cbn [fst snd].
  assert (forallb (fun a : str * str => existsb (str_eqb (fst a)) known) (path_attrs v f fo s so sw da df cr) = true) as ->.
  { unfold path_attrs. rewrite (ol_nil "shape-rendering"). cbn [forallb fst]. rewrite !known_ol by (vm_compute; reflexivity). vm_compute. reflexivity. }
  unfold outline. cbn [fst snd]. names. unfold attr, path_attrs. rewrite (ol_nil "shape-rendering").
  repeat (rewrite get_cons; names). repeat (rewrite get_ol; names). rewrite !get_nil, !oor_none. reflexivity.
Qed.
Definition oclean (v : option str) : Prop := match v with Some v => Forall cleanc v | None => True end.
Lemma ok_ol n v r : s_ n <> [] -> forallb name_char (s_ n) = true -> oclean v -> Forall ok_attr r -> Forall ok_attr (ol n v ++ r).
Proof. intros A B C F. destruct v as [v|]; [|exact F]. cbn [ol app]. constructor; [split; [exact A|split; [exact B|exact C]]|exact F]. Qed.
Lemma path_ok v f fo s so sw da df cr : Forall cleanc v -> oclean f -> oclean fo -> oclean s -> oclean so -> oclean sw -> oclean da -> oclean df -> oclean cr ->
  ok_elem (s_ "path", path_attrs v f fo s so sw da df cr).
Proof.
  intros. split; [reflexivity|]. split; [discriminate|]. split; cbn [snd].
  - unfold path_attrs. constructor; [split; [discriminate|split; [reflexivity|assumption]]|]. rewrite (ol_nil "shape-rendering").
    repeat (apply ok_ol; [discriminate|reflexivity|assumption|]). constructor.
  - unfold path_attrs. match goal with |- nodupb (map fst (_ :: ?x)) = true => change (nodupb (map fst (ol "d" (Some v) ++ x)) = true) end. rewrite (ol_nil "shape-rendering").
    repeat (apply nodup_ol; [repeat (apply absent_ol; [vm_compute; reflexivity|]); apply absent_nil|]). reflexivity.
Qed.
Lemma written_path v f fo s so sw da df cr ps qs : Forall cleanc v -> oclean f -> oclean fo -> oclean s -> oclean so -> oclean sw -> oclean da -> oclean df -> oclean cr ->
  paints (s_ "path", path_attrs v f fo s so sw da df cr) = Some qs -> Forall2 (paint_rel close shown) ps qs ->
  written (element (flat_map attr_text (path_attrs v f fo s so sw da df cr))) ps.
Proof.
  intros. exists (s_ "path", path_attrs v f fo s so sw da df cr), qs. split; [reflexivity|]. split; [now apply path_ok|]. now split.
Qed.
(** Opacities and fills as such. *)
Lemma opt_num_ol n x l : opt_num (s_ n) x l -> exists v q, l = ol n v /\ oclean v /\ oread read_decimal (Some one) v = Some q /\ close x q.
Proof.
  intros [[-> ->]|(v & q & -> & Q & C & F)].
  - exists None, one. repeat split; cbn; try apply close_one; auto.
  - exists (Some v), q. repeat split; cbn; auto; apply C.
Qed.
Lemma opt_fill_ol c l : opt_fill c l -> exists v lv, l = ol "fill" v /\ oclean v /\
  oread read_paint (Some (Some (0, 0, 0)%nat)) v = Some (Some lv) /\ shown c lv.
Proof.
  intros [[-> S]|(v & lv & -> & RC & S & F & N)].
  - exists None, (0, 0, 0)%nat. split; [reflexivity|]. split; [exact I|]. split; [reflexivity|exact S].
  - exists (Some v), lv. split; [reflexivity|]. split; [exact F|]. split; [|exact S]. now apply read_paint_color.
Qed.
Lemma aa_ol aa : exists v, aa_list aa = ol "shape-rendering" v /\ oclean v /\ oread read_crisp (Some false) v = Some (crisp_of aa).
Proof.
  destruct aa as [[|]|]; [exists None|exists (Some (s_ "crispEdges"))|exists None]; repeat split.
  apply clean_const. reflexivity.
Qed.
Lemma clean_none : Forall cleanc (s_ "none").
Proof. apply clean_const. reflexivity. Qed.
Ltac finish := eapply written_path; cbn [oclean]; try eassumption; try exact I; try exact clean_none;
  [rewrite paints_path; repeat match goal with
     | K : ?x = Some _ |- context [?x] => rewrite K end; cbn [oread app];
   repeat match goal with
     | K : ?x = Some _ |- context [?x] => rewrite K end;
   rewrite ?paint_none; reflexivity
  | cbn [app]; repeat first [assumption | apply Forall2_cons | apply Forall2_nil | apply rel_fill | apply rel_stroke | apply close_zero]].
Lemma elem_eq a l : element (flat_map attr_text (a :: l)) = elem_text (s_ "path", a :: l).
Proof. unfold element, elem_text. cbn [fst snd]. reflexivity. Qed.

Ltac outs H := repeat match type of H with
  | bind ?m _ = Ret _ => let x := fresh "x" in let E := fresh "E" in destruct m as [x| | | | ] eqn:E; try discriminate H; cbn [bind] in H
  end.
Ltac app_attr := cbn [flat_map app]; rewrite ?flat_map_app; cbn [flat_map app]; rewrite ?app_nil_r, <- ?app_assoc.
Lemma add_fill_ok h o aa c t : is64 h -> good_outline o -> unit_interval c ->
  add_fill rnd64 (Fin h) (map command o) aa (col c) = Ret t ->
  written t [Fill (map (flip h) o) c (q_a c) (crisp_of aa)].
Proof.
  intros H G U E. unfold add_fill in E. outs E. apply Ret_inj in E. subst t. rename E0 into A, E1 into B.
  destruct (path_attr_ok _ _ _ H G A) as (v & q & -> & Q & F & C). destruct (fill_ok _ _ U B) as (a & b & -> & FA & FB).
  rewrite aa_ok. destruct (opt_fill_ol _ _ FA) as (f & lv & -> & Cf & Rf & Sf).
  destruct (opt_num_ol _ _ _ FB) as (fo & fq & -> & Co & Ro & So). destruct (aa_ol aa) as (cr & -> & Cc & Rc).
  replace (attr_text (s_ "d", v) ++ flat_map attr_text (ol "fill" f ++ ol "fill-opacity" fo) ++ flat_map attr_text (ol "shape-rendering" cr))
    with (flat_map attr_text (path_attrs v f fo None None None None None cr)).
  2: { unfold path_attrs. cbn [flat_map ol app]. now rewrite !flat_map_app, <- !app_assoc. }
  finish.
Qed.
Lemma add_hatch_ok sort_cw fuel h s hs o t : is64 h -> good_outline o -> unit_interval (h_color hs) ->
  hatched sort_cw fuel s hs o ->
  add_hatch rnd64 sort_cw fuel (Fin h) (map command (sh_outline s)) (sh_aa s)
    (mk_hatch (col (h_color hs)) (Fin (h_angle hs)) (Fin (h_offset hs)) (Fin (h_stride hs)) (Fin (h_width hs))) = Ret t ->
  written t [Fill (map (flip h) o) (h_color hs) (q_a (h_color hs)) (crisp_of (sh_aa s))].
Proof.
  intros H G U HH E. unfold add_hatch in E. cbn [fh_color fh_angle fh_offset fh_stride fh_width] in E. unfold hatched in HH. rewrite HH in E.
  cbn [bind] in E. apply (add_fill_ok h o (sh_aa s) (h_color hs) t H G U). exact E.
Qed.
Lemma add_stroke_ok h o aa c w t : is64 h -> good_outline o -> unit_interval c ->
  add_stroke rnd64 (Fin h) (map command o) aa (mk_stroke (col c) (Fin w)) = Ret t ->
  written t [Stroke (map (flip h) o) c (q_a c) w [] 0 (crisp_of aa)].
Proof.
  intros H G U E. unfold add_stroke in E. cbn [ss_color ss_width] in E. outs E. apply Ret_inj in E. subst t. rename E0 into A, E1 into B.
  destruct (path_attr_ok _ _ _ H G A) as (v & q & -> & Q & F & C).
  destruct (stroke_ok _ _ _ U B) as (sv & lv & b & u & uq & -> & RC & SH & SC & NN & FB & UQ & CU & UC).
  rewrite aa_ok, attr_plain by (apply clean_const; reflexivity).
  destruct (opt_num_ol _ _ _ FB) as (so & sq & -> & Co & Ro & So). destruct (aa_ol aa) as (cr & -> & Cc & Rc).
  match goal with |- written (element ?x) _ => replace x with (flat_map attr_text (path_attrs v (Some (s_ "none")) None (Some sv) so (Some u) None None cr)) end.
  2: { unfold path_attrs. cbn [flat_map ol app]. rewrite !flat_map_app. cbn [flat_map]. rewrite ?app_nil_r, <- !app_assoc. reflexivity. }
  pose proof (read_paint_color _ _ RC NN) as PC. finish.
Qed.
Lemma add_dash_ok h o aa l t : is64 h -> good_outline o -> unit_interval (l_color l) ->
  add_dash rnd64 (Fin h) (map command o) aa (mk_dash (col (l_color l)) (Fin (l_width l)) (map Fin (l_pattern l)) (Fin (l_offset l))) = Ret t ->
  written t [Stroke (map (flip h) o) (l_color l) (q_a (l_color l)) (l_width l) (l_pattern l) (l_offset l) (crisp_of aa)].
Proof.
  intros H G U E. unfold add_dash in E. cbn [sd_color sd_width sd_pattern sd_offset] in E. outs E. apply Ret_inj in E. subst t.
  rename E0 into N, E1 into A, E2 into B, E3 into D.
  destruct (read_list_ok _ _ N) as (dq & DR & DC & DS).
  destruct (path_attr_ok _ _ _ H G A) as (v & q & -> & Q & F & C).
  destruct (stroke_ok _ _ _ U B) as (sv & lv & b & u & uq & -> & RC & SH & SC & NN & FB & UQ & CU & UC).
  destruct (attr_num_ok _ _ _ D) as (fv & fq & -> & FQ & FC & FCl).
  assert (DCl : Forall cleanc x) by (eapply Forall_impl; [|exact DS]; exact spacec_clean).
  rewrite aa_ok, !attr_plain by (exact DCl || (apply clean_const; reflexivity)).
  destruct (opt_num_ol _ _ _ FB) as (so & sq & -> & Co & Ro & So). destruct (aa_ol aa) as (cr & -> & Cc & Rc).
  match goal with |- written (element ?y) _ => replace y with (flat_map attr_text (path_attrs v (Some (s_ "none")) None (Some sv) so (Some u) (Some x) (Some fv) cr)) end.
  2: { unfold path_attrs. cbn [flat_map ol app]. rewrite !flat_map_app. cbn [flat_map]. rewrite ?app_nil_r, <- !app_assoc. reflexivity. }
  pose proof (read_paint_color _ _ RC NN) as PC. finish.
Qed.
Lemma add_compound_ok h o aa c c2 w t : is64 h -> good_outline o -> unit_interval c -> unit_interval c2 ->
  add_compound rnd64 (Fin h) (map command o) (col c) (mk_stroke (col c2) (Fin w)) aa = Ret t ->
  written t [Fill (map (flip h) o) c (q_a c) (crisp_of aa); Stroke (map (flip h) o) c2 (q_a c2) w [] 0 (crisp_of aa)].
Proof.
  intros H G U1 U E. unfold add_compound in E. cbn [ss_color ss_width] in E. outs E. apply Ret_inj in E. subst t.
  rename E0 into A, E1 into B1, E2 into B.
  destruct (path_attr_ok _ _ _ H G A) as (v & q & -> & Q & F & C).
  destruct (fill_ok _ _ U1 B1) as (fa & fb & -> & FA & FBB).
  destruct (stroke_ok _ _ _ U B) as (sv & lv & b & u & uq & -> & RC & SH & SC & NN & FB & UQ & CU & UC).
  rewrite aa_ok. destruct (opt_fill_ol _ _ FA) as (f & lv2 & -> & Cf & Rf & Sf).
  destruct (opt_num_ol _ _ _ FBB) as (fo & fq & -> & Co & Ro & So). destruct (opt_num_ol _ _ _ FB) as (so & sq & -> & Co2 & Ro2 & So2).
  destruct (aa_ol aa) as (cr & -> & Cc & Rc).
  match goal with |- written (element ?x) _ => replace x with (flat_map attr_text (path_attrs v f fo (Some sv) so (Some u) None None cr)) end.
  2: { unfold path_attrs. cbn [flat_map ol app]. rewrite !flat_map_app. cbn [flat_map]. rewrite !flat_map_app. cbn [flat_map]. rewrite ?app_nil_r, <- !app_assoc. reflexivity. }
  pose proof (read_paint_color _ _ RC NN) as PC. finish.
Qed.

(** Sequences of elements. *)
Definition all_written (t : str) (ps : list (paint R rgba)) : Prop :=
  exists es qs, t = flat_map elem_text es /\ Forall ok_elem es /\ all_paints es = Some qs /\ Forall2 (paint_rel close shown) ps qs.
Lemma written_nil : all_written [] [].
Proof. exists [], []. repeat split; constructor. Qed.
Lemma all_paints_app a b : all_paints (a ++ b) = match all_paints a, all_paints b with Some x, Some y => Some (x ++ y) | _, _ => None end.
Proof.
  induction a as [|e a IH]; cbn [app all_paints]; [now destruct (all_paints b)|]. rewrite IH.
  destruct (paints e); [|reflexivity]. destruct (all_paints a); [|reflexivity]. destruct (all_paints b); [now rewrite app_assoc|reflexivity].
Qed.
Lemma written_app t1 t2 p1 p2 : all_written t1 p1 -> all_written t2 p2 -> all_written (t1 ++ t2) (p1 ++ p2).
Proof.
  intros (e1 & q1 & -> & O1 & P1 & F1) (e2 & q2 & -> & O2 & P2 & F2). exists (e1 ++ e2), (q1 ++ q2).
  split; [now rewrite flat_map_app|]. split; [now apply Forall_app|]. split; [now rewrite all_paints_app, P1, P2|now apply Forall2_app].
Qed.
Lemma written_one t ps : written t ps -> all_written t ps.
Proof.
  intros (e & qs & -> & O & P & F). exists [e], qs. cbn [flat_map all_paints]. rewrite app_nil_r, P, app_nil_r.
  repeat split; auto.
Qed.
Lemma each_written {A B} (f : A -> outcome str) (g : B -> A) (ps : B -> list (paint R rgba)) l :
  (forall b t, In b l -> f (g b) = Ret t -> all_written t (ps b)) ->
  forall t, each f (map g l) = Ret t -> all_written t (flat_map ps l).
Proof.
  induction l as [|b l IH]; intros H t E; cbn [map each flat_map] in *.
  - apply Ret_inj in E. subst t. apply written_nil.
  - outs E. apply Ret_inj in E. subst t. apply written_app; [apply H; [now left|assumption]|]. apply IH; [|reflexivity].
    intros; apply H; [now right|assumption].
Qed.
Lemma flat_map_single {A B} (f : A -> B) l : flat_map (fun a => [f a]) l = map f l.
Proof. induction l as [|a l IH]; cbn [flat_map map app]; [reflexivity|]. now rewrite IH. Qed.
Lemma each_hatch sort_cw fuel h s l hs t : is64 h -> Forall2 (hatched sort_cw fuel s) l hs -> Forall good_outline hs ->
  Forall (fun x => unit_interval (h_color x)) l ->
  each (add_hatch rnd64 sort_cw fuel (Fin h) (map command (sh_outline s)) (sh_aa s))
    (map (fun h => mk_hatch (col (h_color h)) (Fin (h_angle h)) (Fin (h_offset h)) (Fin (h_stride h)) (Fin (h_width h))) l) = Ret t ->
  all_written t (map (fun p => Fill (map (flip h) (snd p)) (h_color (fst p)) (q_a (h_color (fst p))) (crisp_of (sh_aa s))) (combine l hs)).
Proof.
  intros H F. revert t. induction F as [|x o l hs HX F IH]; intros t G U E; cbn [map each combine] in *.
  - apply Ret_inj in E. subst t. apply written_nil.
  - inversion G; subst. inversion U; subst. outs E. apply Ret_inj in E. subst t.
    match goal with |- all_written (?a ++ ?b) (?p :: ?q) => change (p :: q) with ([p] ++ q) end.
    apply written_app; [|apply IH; first [assumption|reflexivity]]. apply written_one. cbn [fst snd]. apply (add_hatch_ok sort_cw fuel h s x o); assumption.
Qed.

Lemma add_path_ok sort_cw fuel h s ss fs hs t : is64 h -> good_shape s ->
  Forall2 (hatched sort_cw fuel s) (sh_hatches s) hs -> Forall good_outline hs ->
  add_path rnd64 sort_cw fuel (Fin h) (command_of s ss fs) = Ret t -> all_written t (expected h s hs).
Proof.
  intros H (GO & UF & UH & US & UD) HH GH E.
  assert (GEN : forall t, (let* a := each (add_fill rnd64 (Fin h) (map command (sh_outline s)) (sh_aa s)) (fills (compound_of s)) in
        let* b := each (add_hatch rnd64 sort_cw fuel (Fin h) (map command (sh_outline s)) (sh_aa s)) (hatches (compound_of s)) in
        let* e := each (add_stroke rnd64 (Fin h) (map command (sh_outline s)) (sh_aa s)) (strokes (compound_of s)) in
        let* g := each (add_dash rnd64 (Fin h) (map command (sh_outline s)) (sh_aa s)) (dashes (compound_of s)) in
        Ret (a ++ b ++ e ++ g)) = Ret t -> all_written t (expected h s hs)).
  { clear E t. intros t E. outs E. apply Ret_inj in E. subst t. rename E0 into A, E1 into B, E2 into C, E3 into D.
    cbn [compound_of fills hatches strokes dashes] in A, B, C, D. rewrite Forall_forall in UF, US, UD.
    unfold expected. fold (crisp_of (sh_aa s)). cbv zeta. repeat apply written_app.
    - rewrite <- flat_map_single. eapply each_written; [|exact A]. intros b t I E. apply written_one. apply add_fill_ok; auto.
    - eapply each_hatch; eassumption.
    - rewrite <- flat_map_single. eapply each_written; [|exact C]. intros b t I E. apply written_one. apply add_stroke_ok; auto.
    - rewrite <- flat_map_single. eapply each_written; [|exact D]. intros b t I E. apply written_one. apply add_dash_ok; auto. }
  unfold add_path in E. cbn [command_of dc_path dc_style dc_aa] in E.
  destruct (fills (compound_of s)) as [|f [|f2 fr]] eqn:EF; try exact (GEN t E).
  destruct (hatches (compound_of s)) as [|hh hr] eqn:EH; try exact (GEN t E).
  destruct (strokes (compound_of s)) as [|st [|st2 sr]] eqn:ES; try exact (GEN t E).
  destruct (dashes (compound_of s)) as [|dd dr] eqn:ED; try exact (GEN t E).
  clear GEN. destruct s as [o fl ht st0 ds aa]. cbn [compound_of fills hatches strokes dashes sh_outline sh_fills sh_hatches sh_strokes sh_dashes sh_aa] in *.
  destruct fl as [|c [|? ?]]; try discriminate EF. destruct ht; try discriminate EH. destruct st0 as [|[c2 w] [|? ?]]; try discriminate ES.
  destruct ds; try discriminate ED. cbn [map fst snd] in *. injection EF as <-. injection ES as <-.
  inversion UF; subst. inversion US; subst. cbn [fst] in *. unfold expected. cbn [sh_outline sh_fills sh_hatches sh_strokes sh_dashes sh_aa map combine app fst snd].
  apply written_one. eapply add_compound_ok; eauto.
Qed.
(** Names the shapes by their hatchings' outlines. *)
Lemma draw_ok sort_cw fuel h l t : is64 h ->
  Forall (fun p => good_shape (fst p) /\ Forall2 (hatched sort_cw fuel (fst p)) (sh_hatches (fst p)) (snd p) /\ Forall good_outline (snd p)) l ->
  forall g : shape * list (list (seg R)) -> draw_command, (forall p, exists ss fs, g p = command_of (fst p) ss fs) ->
  each (add_path rnd64 sort_cw fuel (Fin h)) (map g l) = Ret t ->
  all_written t (flat_map (fun p => expected h (fst p) (snd p)) l).
Proof.
  intros H F g Hg E. eapply each_written; [|exact E]. intros p u I E2. rewrite Forall_forall in F. destruct (F p I) as (G & HH & GO).
  destruct (Hg p) as (ss & fs & Q). rewrite Q in E2. eapply add_path_ok; eassumption.
Qed.
