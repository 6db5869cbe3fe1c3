(** Lemmas about the string functions. *)
From Verif Require Import Base Str_Model Str_Spec.

Lemma app_len_inj {A} (a a' x y : list A) : length a = length a' -> a ++ x = a' ++ y -> a = a' /\ x = y.
Proof.
  revert a'. induction a as [|c a IH]; intros [|d a'] L E; try discriminate; auto.
  cbn in *. injection E as -> E. destruct (IH a') as [-> ->]; auto.
Qed.

Lemma app_prefix {A} (x y p q : list A) : x ++ y = p ++ q -> length p <= length x -> exists w, x = p ++ w.
Proof.
  revert p. induction x as [|c x IH]; intros [|d p] E L; cbn in *; try lia; eauto.
  injection E as -> E. destruct (IH p E) as (w & ->); [lia|]. eauto.
Qed.

(* ---------------- find ---------------- *)
Lemma starts_iff p s : starts p s = true <-> exists r, s = p ++ r.
Proof.
  revert s. induction p as [|a p IH]; intro s; cbn.
  - split; eauto.
  - destruct s as [|b s]; [split; [discriminate|intros (r & H); discriminate]|].
    rewrite andb_true_iff, Ascii.eqb_eq, IH. split.
    + intros (-> & r & ->). now exists r.
    + intros (r & H). injection H as -> ->. eauto.
Qed.
Lemma find_sub_some p s i : find_sub p s = Some i -> first_at p s (firstn i s) (skipn (i + length p) s) /\ i + length p <= length s.
Proof.
  revert i. induction s as [|x s IH]; intros i; cbn [find_sub].
  - destruct (starts p []) eqn:S; [|discriminate]. intro H. injection H as <-. apply starts_iff in S as (r & S).
    destruct p; [|discriminate]. cbn. split; [|lia]. split; [reflexivity|]. intros. cbn. lia.
  - destruct (starts p (x :: s)) eqn:S.
    + intro H. injection H as <-. apply starts_iff in S as (r & S). rewrite S. cbn [firstn plus].
      split.
      * split; [|intros; cbn; lia]. rewrite skipn_app, skipn_all, Nat.sub_diag. reflexivity.
      * rewrite app_length. lia.
    + destruct (find_sub p s) as [j|]; [|discriminate]. cbn. intro H. injection H as <-.
      destruct (IH j eq_refl) as [[E L] B]. cbn [firstn plus skipn length]. split; [|lia]. split.
      * rewrite E at 1. reflexivity.
      * intros a' b' H. destruct a' as [|y a'].
        -- exfalso. assert (starts p (x :: s) = true); [|congruence]. apply starts_iff. exists b'. exact H.
        -- cbn in H. injection H as -> H. specialize (L a' b' H). cbn. lia.
Qed.
Lemma find_sub_none p s : find_sub p s = None -> ~ contains p s.
Proof.
  induction s as [|x s IH]; cbn [find_sub].
  - destruct (starts p []) eqn:S; [discriminate|]. intros _ (a & b & H).
    destruct a; [|discriminate]. destruct p; [discriminate|discriminate].
  - destruct (starts p (x :: s)) eqn:S; [discriminate|]. destruct (find_sub p s) as [j|]; [discriminate|].
    intros _ (a & b & H). destruct a as [|y a].
    + assert (starts p (x :: s) = true); [|congruence]. apply starts_iff. exists b. exact H.
    + injection H as -> H. apply (IH eq_refl). now exists a, b.
Qed.
Lemma find_from_skip p a b : find_from p (a ++ b) (length a) = option_map (plus (length a)) (find_sub p b).
Proof.
  unfold find_from. rewrite app_length. assert (length a <=? length a + length b = true) as -> by (apply Nat.leb_le; lia).
  now rewrite skipn_app, skipn_all, Nat.sub_diag.
Qed.
Lemma first_at_unique p s a b a' b' : first_at p s a b -> first_at p s a' b' -> a = a' /\ b = b'.
Proof.
  intros [E L] [E' L']. assert (length a = length a') as Q by (pose proof (L _ _ E'); pose proof (L' _ _ E); lia).
  rewrite E in E'. apply app_len_inj in E' as [-> E']; [|exact Q]. apply app_inv_head in E'. auto.
Qed.

(* ---------------- split and join ---------------- *)
(** Splitting, without positions. *)
Fixpoint pieces (fuel : nat) (pat s : str) : outcome (list str) :=
  match fuel with
  | O => Diverge
  | S f => match find_sub pat s with
           | None => Ret [s]
           | Some i => let* l := pieces f pat (skipn (i + length pat) s) in Ret (firstn i s :: l)
           end
  end.
Lemma split_loop_pieces fuel pat : forall a b parts,
  split_loop fuel (a ++ b) pat (length a) parts = let* l := pieces fuel pat b in Ret (parts ++ l).
Proof.
  induction fuel as [|f IH]; intros a b parts; [reflexivity|]. cbn [split_loop pieces]. rewrite find_from_skip.
  destruct (find_sub pat b) as [i|] eqn:F; cbn [option_map bind].
  - apply find_sub_some in F as [_ L].
    assert (E : a ++ b = (a ++ firstn (i + length pat) b) ++ skipn (i + length pat) b)
      by (rewrite <- app_assoc, firstn_skipn; reflexivity).
    replace (length a + i + length pat) with (length (a ++ firstn (i + length pat) b))
      by (rewrite app_length, firstn_length; lia).
    rewrite E at 1. rewrite IH.
    replace (length a + i - length a) with i by lia. rewrite skipn_app, skipn_all, Nat.sub_diag. cbn [app skipn].
    destruct (pieces f pat (skipn (i + length pat) b)); cbn [bind]; auto. now rewrite <- app_assoc.
  - now rewrite skipn_app, skipn_all, Nat.sub_diag.
Qed.
Lemma split_pieces fuel s pat : split fuel s pat = pieces fuel pat s.
Proof.
  unfold split. pose proof (split_loop_pieces fuel pat [] s []) as H. cbn in H. rewrite H.
  destruct (pieces fuel pat s); reflexivity.
Qed.
Lemma pieces_terminates pat : pat <> [] -> forall fuel s, length s < fuel -> exists l, pieces fuel pat s = Ret l.
Proof.
  intro P. induction fuel as [|f IH]; intros s L; [lia|]. cbn.
  destruct (find_sub pat s) as [i|] eqn:F; [|eauto]. apply find_sub_some in F as [_ B].
  destruct (IH (skipn (i + length pat) s)) as (l & ->).
  - rewrite skipn_length. destruct pat; [congruence|cbn in *; lia].
  - cbn. eauto.
Qed.
Lemma glue_cons sep x l : l <> [] -> glue sep (x :: l) = x ++ sep ++ glue sep l.
Proof. destruct l; [congruence|reflexivity]. Qed.
Lemma pieces_not_nil fuel pat s l : pieces fuel pat s = Ret l -> l <> [].
Proof.
  destruct fuel; [discriminate|]. cbn. destruct (find_sub pat s).
  - destruct (pieces fuel pat _); try discriminate. cbn. intro H. injection H as <-. discriminate.
  - intro H. injection H as <-. discriminate.
Qed.
Lemma first_at_prefix_clean p s a b : p <> [] -> first_at p s a b -> ~ contains p a.
Proof.
  intros P [E L] (x & y & ->). specialize (L x (y ++ p ++ b)). rewrite E in L.
  rewrite <- !app_assoc in L. specialize (L eq_refl). rewrite !app_length in L. destruct p; [congruence|cbn in L; lia].
Qed.
Lemma pieces_sound pat : pat <> [] -> forall fuel s l, pieces fuel pat s = Ret l ->
  glue pat l = s /\ Forall (fun x => ~ contains pat x) l.
Proof.
  intro P. induction fuel as [|f IH]; intros s l; [discriminate|]. cbn.
  destruct (find_sub pat s) as [i|] eqn:F.
  - apply find_sub_some in F as [F B]. destruct (pieces f pat (skipn (i + length pat) s)) as [l'| | | |] eqn:Q; try discriminate.
    cbn. intro H. injection H as <-. destruct (IH _ _ Q) as [G A]. rewrite glue_cons by (eapply pieces_not_nil; eauto).
    rewrite G. split; [symmetry; apply F|]. constructor; auto. eapply first_at_prefix_clean; eauto.
  - intro H. injection H as <-. split; [reflexivity|]. constructor; auto. now apply find_sub_none.
Qed.
(** Splitting what was glued. *)
Definition no_overlap (sep x : str) : Prop := forall a b, x ++ sep = a ++ sep ++ b -> b = [].
Lemma pieces_glue pat : pat <> [] -> forall l fuel, l <> [] -> length (glue pat l) < fuel ->
  (forall x, In x l -> ~ contains pat x) -> (forall x, In x (removelast l) -> no_overlap pat x) ->
  pieces fuel pat (glue pat l) = Ret l.
Proof.
  intro P. induction l as [|x l IH]; intros fuel N L C O; [congruence|].
  destruct fuel as [|f]; [lia|]. destruct l as [|y l].
  - cbn. destruct (find_sub pat x) as [i|] eqn:F; [|reflexivity]. apply find_sub_some in F as [[E _] _].
    exfalso. apply (C x); [now left|]. now exists (firstn i x), (skipn (i + length pat) x).
  - rewrite glue_cons in * by discriminate. cbn [pieces].
    assert (FA : first_at pat (x ++ pat ++ glue pat (y :: l)) x (glue pat (y :: l))).
    { split; [reflexivity|]. intros a' b' E. destruct (le_lt_dec (length x) (length a')) as [|Q]; [assumption|]. exfalso.
      (* pat starts inside x *)
      assert (X : exists z, z <> [] /\ x = a' ++ z).
      { destruct (app_prefix x _ a' _ E) as (z & ->); [lia|]. exists z. split; auto. intros ->.
        rewrite app_nil_r in Q. lia. }
      destruct X as (z & Z & ->). rewrite <- app_assoc in E. apply app_inv_head in E.
      (* z ++ pat ++ rest = pat ++ b', so pat is a prefix of z ++ pat *)
      assert (W : exists w, z ++ pat = pat ++ w).
      { rewrite app_assoc in E. apply app_prefix in E; auto. rewrite app_length. lia. }
      destruct W as (w & W). assert (WN : w = []).
      { apply (O (a' ++ z)) with (a := a'); [|now rewrite <- app_assoc, W]. cbn. left. reflexivity. }
      subst w. rewrite app_nil_r in W. apply (f_equal (@length _)) in W. rewrite app_length in W.
      destruct z; [congruence|cbn in W; lia]. }
    destruct (find_sub pat (x ++ pat ++ glue pat (y :: l))) as [i|] eqn:F.
    + apply find_sub_some in F as [F _]. destruct (first_at_unique _ _ _ _ _ _ F FA) as [-> ->].
      rewrite IH; [reflexivity|discriminate| | |].
      * rewrite !app_length in L. destruct pat; [congruence|cbn in L |- *; lia].
      * intros; apply C; now right.
      * intros z Hz. apply O. cbn. destruct l; [contradiction|]. now right.
    + exfalso. apply find_sub_none in F. apply F. exists x, (glue pat (y :: l)). reflexivity.
Qed.

Lemma join_loop_ok l i sep out : join_loop l i sep out =
  match l with [] => out | _ => out ++ (if 0 <? i then sep else []) ++ glue sep l end.
Proof.
  revert i out. induction l as [|x l IH]; intros i out; [reflexivity|]. cbn [join_loop]. rewrite IH.
  destruct l as [|y l].
  - cbn. destruct i; cbn; now rewrite <- ?app_assoc.
  - cbn [Nat.ltb Nat.leb]. rewrite (glue_cons sep x) by discriminate.
    destruct i; cbn; rewrite <- ?app_assoc; reflexivity.
Qed.
Lemma join_glue l sep : join l sep = glue sep l.
Proof. unfold join. rewrite join_loop_ok. destruct l; reflexivity. Qed.

(* ---------------- replace ---------------- *)
Fixpoint rep (fuel : nat) (p r s : str) : outcome str :=
  match fuel with
  | O => Diverge
  | S f => match find_sub p s with
           | None => Ret s
           | Some i => let* t := rep f p r (skipn (i + length p) s) in Ret (firstn i s ++ r ++ t)
           end
  end.
Lemma replace_loop_rep fuel p r : forall a b,
  replace_loop fuel (a ++ b) p r (length a) = let* t := rep fuel p r b in Ret (a ++ t).
Proof.
  induction fuel as [|f IH]; intros a b; [reflexivity|]. cbn [replace_loop rep]. rewrite find_from_skip.
  destruct (find_sub p b) as [i|] eqn:F; cbn [option_map bind]; [|reflexivity].
  apply find_sub_some in F as [_ L].
  assert (E : replace_at (a ++ b) (length a + i) (length p) r = (a ++ firstn i b ++ r) ++ skipn (i + length p) b).
  { unfold replace_at. rewrite firstn_app, skipn_app. rewrite firstn_all2 by lia. rewrite skipn_all2 by lia.
    replace (length a + i - length a) with i by lia. replace (length a + i + length p - length a) with (i + length p) by lia.
    now rewrite <- !app_assoc. }
  rewrite E. replace (length a + i + length r) with (length (a ++ firstn i b ++ r))
    by (rewrite !app_length, firstn_length; lia).
  rewrite IH. destruct (rep f p r (skipn (i + length p) b)); cbn; auto. now rewrite <- !app_assoc.
Qed.
Lemma replace_all_rep fuel s p r : s <> [] -> replace_all fuel s p r = rep fuel p r s.
Proof.
  intro N. unfold replace_all. destruct s as [|x s]; [congruence|]. cbn [length Nat.eqb].
  pose proof (replace_loop_rep fuel p r [] (x :: s)) as H. cbn [app length] in H. rewrite H.
  destruct (rep fuel p r (x :: s)); reflexivity.
Qed.
Lemma rep_ok p r : p <> [] -> forall fuel s, length s < fuel -> exists t, rep fuel p r s = Ret t /\ replaced p r s t.
Proof.
  intro P. induction fuel as [|f IH]; intros s L; [lia|]. cbn.
  destruct (find_sub p s) as [i|] eqn:F.
  - apply find_sub_some in F as [F B]. destruct (IH (skipn (i + length p) s)) as (t & -> & R).
    + rewrite skipn_length. destruct p; [congruence|cbn in *; lia].
    + cbn. eexists. split; [reflexivity|]. econstructor; eauto.
  - exists s. split; auto. constructor. now apply find_sub_none.
Qed.
Lemma replaced_unique p r s t t' : replaced p r s t -> replaced p r s t' -> t = t'.
Proof.
  intro H. revert t'. induction H as [s N|s a b b' F R IH]; intros t' H'.
  - destruct H' as [|s a b b' F R]; [reflexivity|]. exfalso. apply N. destruct F as [E _]. now exists a, b.
  - destruct H' as [s N|s a2 b2 b2' F2 R2]; [exfalso; apply N; destruct F as [E _]; now exists a, b|].
    destruct (first_at_unique _ _ _ _ _ _ F F2) as [-> ->]. f_equal. f_equal. now apply IH.
Qed.
Lemma replace_empty_pattern fuel s r : forall cur, cur <= length s -> replace_loop fuel s [] r cur = Diverge.
Proof.
  revert s. induction fuel as [|f IH]; intros s cur L; [reflexivity|]. cbn [replace_loop].
  unfold find_from. assert (cur <=? length s = true) as -> by (now apply Nat.leb_le).
  assert (find_sub [] (skipn cur s) = Some 0) as -> by (destruct (skipn cur s); reflexivity). cbn [option_map].
  rewrite Nat.add_0_r. apply IH. unfold replace_at. cbn [length]. rewrite Nat.add_0_r, !app_length, firstn_length, skipn_length. lia.
Qed.

(* ---------------- comparing ---------------- *)
Lemma begins_with_iff s p : begins_with s p = true <-> exists r, s = p ++ r.
Proof.
  unfold begins_with. destruct (Nat.ltb_spec (length s) (length p)) as [L|L].
  - split; [discriminate|]. intros (r & ->). rewrite app_length in L. lia.
  - destruct (str_eqb_spec (firstn (length p) s) p) as [E|E].
    + split; auto. intros _. exists (skipn (length p) s). rewrite <- E at 1. now rewrite firstn_skipn.
    + split; [discriminate|]. intros (r & ->). exfalso. apply E. now rewrite firstn_app, firstn_all, Nat.sub_diag, app_nil_r.
Qed.
Lemma ends_with_iff s x : ends_with s x = true <-> exists r, s = r ++ x.
Proof.
  unfold ends_with. destruct (Nat.ltb_spec (length s) (length x)) as [L|L].
  - split; [discriminate|]. intros (r & ->). rewrite app_length in L. lia.
  - rewrite (firstn_all2 (skipn _ _)) by (rewrite skipn_length; lia).
    destruct (str_eqb_spec (skipn (length s - length x) s) x) as [E|E].
    + split; auto. intros _. exists (firstn (length s - length x) s). now rewrite <- (firstn_skipn (length s - length x) s), E at 1.
    + split; [discriminate|]. intros (r & ->). exfalso. apply E. rewrite app_length.
      replace (length r + length x - length x) with (length r) by lia. now rewrite skipn_app, skipn_all, Nat.sub_diag.
Qed.

Lemma before_cons c a b : before a b -> before (c :: a) (c :: b).
Proof. destruct 1 as [a x r|a x y r r' L]; [apply (bf_prefix (c :: a))|now apply (bf_byte (c :: a))]. Qed.
Lemma before_cons_inv c a b : before (c :: a) (c :: b) -> before a b.
Proof.
  intro H. remember (c :: a) as u eqn:U. remember (c :: b) as v eqn:V. revert U V.
  destruct H as [l x r|l x y r r' L]; intros U V.
  - subst l. injection V as <-. constructor.
  - destruct l as [|d l]; cbn in U, V.
    + injection U as -> _. injection V as -> _. lia.
    + injection U as -> <-. injection V as <-. now constructor.
Qed.
Lemma compare_spec a b : (compare a b = (-1)%Z /\ before a b) \/ (compare a b = 0%Z /\ a = b) \/ (compare a b = 1%Z /\ before b a).
Proof.
  revert b. induction a as [|x a IH]; intros [|y b]; cbn [compare].
  - auto.
  - left. split; auto. apply (bf_prefix []).
  - right. right. split; auto. apply (bf_prefix []).
  - destruct (Ascii.eqb_spec x y) as [->|N].
    + destruct (IH b) as [(-> & H)|[(-> & ->)|(-> & H)]]; auto using before_cons.
    + destruct (Nat.ltb_spec (nat_of_ascii x) (nat_of_ascii y)) as [L|L].
      * left. split; auto. now apply (bf_byte []).
      * right. right. split; auto. apply (bf_byte []).
        assert (nat_of_ascii x <> nat_of_ascii y); [|lia]. intro E. apply N.
        rewrite <- (ascii_nat_embedding x), <- (ascii_nat_embedding y). now rewrite E.
Qed.
Lemma before_compare a b : before a b -> compare a b = (-1)%Z.
Proof.
  destruct 1 as [a x r|a x y r r' L]; induction a as [|c a IH]; cbn [compare app].
  - reflexivity.
  - now rewrite Ascii.eqb_refl.
  - destruct (Ascii.eqb_spec x y) as [->|]; [lia|]. apply Nat.ltb_lt in L. now rewrite L.
  - now rewrite Ascii.eqb_refl.
Qed.
Lemma before_irrefl a : ~ before a a.
Proof. intro H. apply before_compare in H. assert (compare a a = 0%Z) by (clear; induction a; cbn; rewrite ?Ascii.eqb_refl; auto). congruence. Qed.
Lemma before_trans a b c : before a b -> before b c -> before a c.
Proof.
  revert b c. induction a as [|x a IH]; intros [|y b] [|z c] H1 H2;
    try (apply before_compare in H1; discriminate H1);
    try (apply before_compare in H2; discriminate H2).
  - apply (bf_prefix []).
  - destruct (Nat.lt_trichotomy (nat_of_ascii x) (nat_of_ascii y)) as [L|[E|L]].
    + destruct (Nat.lt_trichotomy (nat_of_ascii y) (nat_of_ascii z)) as [L2|[E2|L2]].
      * apply (bf_byte []). lia.
      * apply (bf_byte []). lia.
      * exfalso. apply before_compare in H2. cbn [compare] in H2. destruct (Ascii.eqb_spec y z); [subst; lia|].
        destruct (Nat.ltb_spec (nat_of_ascii y) (nat_of_ascii z)); [lia|discriminate].
    + assert (x = y) as -> by (rewrite <- (ascii_nat_embedding x), <- (ascii_nat_embedding y); now rewrite E).
      apply before_cons_inv in H1. destruct (Nat.lt_trichotomy (nat_of_ascii y) (nat_of_ascii z)) as [L2|[E2|L2]].
      * now apply (bf_byte []).
      * assert (y = z) as -> by (rewrite <- (ascii_nat_embedding y), <- (ascii_nat_embedding z); now rewrite E2).
        apply before_cons_inv in H2. apply before_cons. eauto.
      * exfalso. apply before_compare in H2. cbn [compare] in H2. destruct (Ascii.eqb_spec y z); [subst; lia|].
        destruct (Nat.ltb_spec (nat_of_ascii y) (nat_of_ascii z)); [lia|discriminate].
    + exfalso. apply before_compare in H1. cbn [compare] in H1. destruct (Ascii.eqb_spec x y); [subst; lia|].
      destruct (Nat.ltb_spec (nat_of_ascii x) (nat_of_ascii y)); [lia|discriminate].
Qed.

(* ---------------- classes ---------------- *)
Ltac all_bytes c := destruct c as [[] [] [] [] [] [] [] []].
Lemma class_iff (f : ascii -> bool) (class s : str) : (forall c, f c = true <-> In c class) ->
  (forallb f s = true <-> all_in class s).
Proof.
  intro H. rewrite forallb_forall. unfold all_in. split; intros A c I; apply H; auto.
Qed.
Definition memb (c : ascii) (l : str) : bool := existsb (Ascii.eqb c) l.
Lemma memb_iff c l : memb c l = true <-> In c l.
Proof.
  unfold memb. rewrite existsb_exists. split.
  - intros (x & I & E). apply Ascii.eqb_eq in E. now subst.
  - intro I. exists c. split; auto. apply Ascii.eqb_refl.
Qed.
Lemma digit_class c : digit_char c = true <-> In c digits.
Proof. rewrite <- memb_iff. replace (digit_char c) with (memb c digits); [tauto|]. all_bytes c; reflexivity. Qed.
Lemma hex_class c : hex_char c = true <-> In c (digits ++ s_ "abcdefABCDEF").
Proof. rewrite <- memb_iff. replace (hex_char c) with (memb c (digits ++ s_ "abcdefABCDEF")); [tauto|]. all_bytes c; reflexivity. Qed.
Lemma alnum_class c : alnum_char c = true <-> In c (digits ++ lower_letters ++ upper_letters).
Proof. rewrite <- memb_iff. replace (alnum_char c) with (memb c (digits ++ lower_letters ++ upper_letters)); [tauto|]. all_bytes c; reflexivity. Qed.
Lemma shell_class c : shell_safe_char c = true <-> In c (digits ++ lower_letters ++ upper_letters ++ s_ "_-.").
Proof. rewrite <- memb_iff. replace (shell_safe_char c) with (memb c (digits ++ lower_letters ++ upper_letters ++ s_ "_-.")); [tauto|]. all_bytes c; reflexivity. Qed.

Lemma number_int_some s r : number_int s = Some r -> exists i, s = i ++ r /\ forallb digit_char i = true /\ (r = [] \/ exists r', r = "."%char :: r').
Proof.
  revert r. induction s as [|c s IH]; cbn; intros r H.
  - injection H as <-. exists []. auto.
  - destruct (Ascii.eqb_spec c ".") as [->|N].
    + injection H as <-. exists []. split; auto. split; auto. right. eauto.
    + destruct (digit_char c) eqn:D; [|discriminate]. destruct (IH _ H) as (i & -> & A & B).
      exists (c :: i). cbn. rewrite D, A. auto.
Qed.
Lemma number_int_ok i r : forallb digit_char i = true -> (r = [] \/ exists r', r = "."%char :: r') -> number_int (i ++ r) = Some r.
Proof.
  intros D R. induction i as [|c i IH]; cbn.
  - destruct R as [->|(r' & ->)]; reflexivity.
  - cbn in D. apply andb_true_iff in D as [C D]. rewrite C. destruct (Ascii.eqb_spec c ".") as [->|]; [discriminate|auto].
Qed.
Lemma not_digit_dash : digit_char "-" = false. Proof. reflexivity. Qed.
Lemma is_number_iff s : is_number s = true <->
  exists sign i f, (sign = [] \/ sign = s_ "-") /\ all_in digits i /\
    (f = [] \/ exists d, f = "."%char :: d /\ all_in digits d) /\ s = sign ++ i ++ f.
Proof.
  unfold is_number. split.
  - intro H. set (s1 := match s with c :: r => if Ascii.eqb c "-" then r else s | [] => s end) in *.
    assert (S1 : exists sign, (sign = [] \/ sign = s_ "-") /\ s = sign ++ s1).
    { unfold s1. destruct s as [|c s]; [exists []; auto|]. destruct (Ascii.eqb_spec c "-") as [->|]; [exists (s_ "-")|exists []]; auto. }
    clearbody s1. destruct S1 as (sign & Sg & ->). destruct (number_int s1) as [s2|] eqn:N; [|discriminate].
    apply number_int_some in N as (i & -> & Di & R). exists sign, i, s2. split; auto.
    split; [apply (class_iff _ _ _ digit_class); auto|]. split; [|reflexivity].
    destruct R as [->|(r' & ->)]; [now left|]. right. exists r'. split; auto. cbn in H. apply (class_iff _ _ _ digit_class); auto.
  - intros (sign & i & f & Sg & Di & F & ->). apply (class_iff _ _ _ digit_class) in Di.
    assert (F' : f = [] \/ exists r', f = "."%char :: r') by (destruct F as [->|(d & -> & _)]; eauto).
    assert (S1 : match sign ++ i ++ f with c :: r => if Ascii.eqb c "-" then r else sign ++ i ++ f | [] => sign ++ i ++ f end = i ++ f).
    { destruct Sg as [->| ->]; [|reflexivity]. cbn [app]. destruct i as [|c i].
      - destruct F' as [->|(r' & ->)]; reflexivity.
      - cbn. destruct (Ascii.eqb_spec c "-") as [->|]; [|reflexivity]. cbn in Di. rewrite not_digit_dash in Di. discriminate. }
    cbv zeta. match goal with |- context [number_int ?x] => replace x with (i ++ f) by (symmetry; exact S1) end.
    rewrite number_int_ok by auto. destruct F as [->|(d & -> & Dd)]; [reflexivity|]. cbn.
    now apply (class_iff _ _ _ digit_class).
Qed.

(* ---------------- trimming ---------------- *)
Lemma ltrim_ok s : (Forall (eq c_sp) s /\ ltrim s = UB) \/ (exists r, ltrim s = Ret r /\ r <> [] /\ stripped_begin (eq c_sp) s r).
Proof.
  induction s as [|c s IH]; cbn.
  - left. auto.
  - destruct (Ascii.eqb_spec c c_sp) as [->|N].
    + destruct IH as [[F E]|(r & E & R & x & -> & A & B)]; [left; auto|right].
      exists r. split; auto. split; auto. exists (c_sp :: x). auto.
    + right. exists (c :: s). split; auto. split; [discriminate|]. exists []. split; auto. split; auto.
      intros r' d H. injection H as -> _. congruence.
Qed.
Lemma pop_back_ok f (class : ascii -> Prop) : (forall c, f c = true <-> class c) -> forall s,
  (Forall class s /\ pop_back_while f (rev s) = UB) \/
  (exists r, pop_back_while f (rev s) = Ret r /\ r <> [] /\ stripped_end class s r).
Proof.
  intro H. induction s as [|c s IH] using rev_ind.
  - left. auto.
  - rewrite rev_app_distr. cbn [rev app]. cbn [pop_back_while]. destruct (f c) eqn:F.
    + apply H in F. destruct IH as [[A E]|(r & E & R & x & -> & A & B)].
      * left. split; auto. apply Forall_app. auto.
      * right. exists r. split; auto. split; auto. exists (x ++ [c]). rewrite app_assoc. split; auto. split; auto.
        apply Forall_app. auto.
    + right. exists (s ++ [c]). cbn [rev]. rewrite rev_involutive. split; auto. split; [destruct s; discriminate|].
      exists []. rewrite app_nil_r. split; auto. split; auto. intros r' d E. apply app_inj_tail in E as [_ <-].
      intro C. apply H in C. congruence.
Qed.
Lemma strip_bytes_ok b s : stripped_end (eq b) s (strip_trailing_bytes s b).
Proof.
  unfold strip_trailing_bytes. induction s as [|c s IH] using rev_ind.
  - exists []. split; auto. split; auto. intros r' d H. cbn in H. destruct r'; discriminate.
  - rewrite rev_app_distr. cbn [rev app strip_bytes_rev]. destruct (Ascii.eqb_spec c b) as [->|N].
    + destruct IH as (x & E & A & B). exists (x ++ [b]). split; [rewrite app_assoc, <- E; reflexivity|]. split; auto.
      apply Forall_app. auto.
    + cbn [rev]. rewrite rev_involutive. exists []. rewrite app_nil_r. split; auto. split; auto.
      intros r' d E. apply app_inj_tail in E as [_ <-]. congruence.
Qed.
Lemma stripped_end_unique class s r r' : stripped_end class s r -> stripped_end class s r' -> r = r'.
Proof.
  intros (x & E & A & B) (x' & E' & A' & B').
  assert (G : forall s r x r' x', s = r ++ x -> s = r' ++ x' -> Forall class x' ->
     (forall q c, r = q ++ [c] -> ~ class c) -> length r <= length r').
  { clear. intros s r x r' x' E E' A' B. destruct (le_lt_dec (length r) (length r')) as [|L]; auto. exfalso.
    destruct r as [|c r _] using rev_ind; [cbn in L; lia|].
    apply (B r c eq_refl). rewrite E in E'. rewrite app_length in L. cbn in L.
    assert (I : nth_error ((r ++ [c]) ++ x) (length r) = Some c).
    { rewrite nth_error_app1 by (rewrite app_length; cbn; lia). rewrite nth_error_app2, Nat.sub_diag by lia. reflexivity. }
    rewrite E', nth_error_app2 in I by lia. apply nth_error_In in I. rewrite Forall_forall in A'. auto. }
  assert (length r = length r') as L by (pose proof (G _ _ _ _ _ E E' A' B); pose proof (G _ _ _ _ _ E' E A B'); lia).
  rewrite E in E'. apply app_len_inj in E' as [-> _]; auto.
Qed.

(* ---------------- searching ---------------- *)
Lemma find_char_ok s c : match find_char s c with
  | Some i => nth_error s i = Some c /\ (forall j, j < i -> nth_error s j <> Some c)
  | None => ~ In c s
  end.
Proof.
  induction s as [|x s IH]; cbn; auto. destruct (Ascii.eqb_spec x c) as [->|N].
  - split; auto. intros j L. lia.
  - destruct (find_char s c) as [i|]; cbn.
    + destruct IH as [A B]. split; auto. intros [|j] L; cbn; [congruence|]. apply B. lia.
    + intros [->|I]; auto.
Qed.
Lemma find_down_ok s c n : n <= length s -> match find_down s c n with
  | Some i => i < n /\ nth_error s i = Some c /\ (forall j, i < j < n -> nth_error s j <> Some c)
  | None => forall j, j < n -> nth_error s j <> Some c
  end.
Proof.
  induction n as [|n IH]; intro L; cbn.
  - intros j H. lia.
  - specialize (IH ltac:(lia)). destruct (nth_error s n) as [x|] eqn:E.
    + destruct (Ascii.eqb_spec x c) as [->|N].
      * split; [lia|]. split; auto. intros j H. lia.
      * destruct (find_down s c n) as [i|].
        -- destruct IH as (A & B & C). split; [lia|]. split; auto. intros j H.
           destruct (Nat.eq_dec j n) as [->|]; [congruence|]. apply C. lia.
        -- intros j H. destruct (Nat.eq_dec j n) as [->|]; [congruence|]. apply IH. lia.
    + apply nth_error_None in E. lia.
Qed.
Lemma as_int_small z : (0 <= z < 2 ^ 31)%Z -> as_int z = z.
Proof. intro H. unfold as_int. rewrite Z.mod_small; lia. Qed.

(* ---------------- case ---------------- *)
Lemma lower_inj a b : lower_char a = lower_char b <-> same_but_case a b.
Proof.
  unfold same_but_case.
  assert (D : forall a, lower_char a = a \/ exists i, i < 26 /\ nth_error upper_letters i = Some a /\ nth_error lower_letters i = Some (lower_char a)).
  { intro x. destruct (memb x upper_letters) eqn:M.
    - right. exists (nat_of_ascii x - 65). revert M. all_bytes x; vm_compute; intro M; try discriminate M; repeat split; lia.
    - left. revert M. all_bytes x; vm_compute; intro M; try discriminate M; reflexivity. }
  assert (LL : forall i x, nth_error lower_letters i = Some x -> lower_char x = x).
  { intros i x H. apply nth_error_In in H. apply memb_iff in H. revert H. all_bytes x; vm_compute; intro M; try discriminate M; reflexivity. }
  assert (LU : forall i x y, nth_error lower_letters i = Some x -> nth_error upper_letters i = Some y -> lower_char y = x).
  { intros i x y A B. assert (I : nth_error (combine lower_letters upper_letters) i = Some (x, y)).
    { clear - A B. revert i A B. generalize upper_letters as l'. generalize lower_letters as l.
      induction l as [|c l IH]; intros [|d l'] [|i] A B; try discriminate; cbn in *; [congruence|eauto]. }
    apply nth_error_In in I.
    assert (C : forallb (fun p => Ascii.eqb (lower_char (snd p)) (fst p)) (combine lower_letters upper_letters) = true)
      by (vm_compute; reflexivity).
    rewrite forallb_forall in C. specialize (C _ I). now apply Ascii.eqb_eq in C. }
  split.
  - intro E. destruct (D a) as [A|(i & I & A1 & A2)], (D b) as [B|(j & J & B1 & B2)].
    + left. congruence.
    + right. exists j. left. split; [congruence|auto].
    + right. exists i. right. split; [congruence|auto].
    + left. assert (i = j) as ->.
      { apply (proj1 (NoDup_nth_error lower_letters)); [|apply nth_error_Some; congruence|congruence].
        assert (N : forall l, (fix nd (l : str) := match l with [] => true | x :: l' => negb (memb x l') && nd l' end) l = true -> NoDup l).
        { clear. induction l as [|x l IH]; intro H; [constructor|]. apply andb_true_iff in H as [A B]. constructor; auto.
          intro I. apply memb_iff in I. rewrite I in A. discriminate. }
        apply N. vm_compute. reflexivity. }
      congruence.
  - intros [->|(i & [[A B]|[A B]])]; auto.
    + rewrite (LL i a A). symmetry. eapply LU; eauto.
    + rewrite (LL i b A). eapply LU; eauto.
Qed.

(* ---------------- hex ---------------- *)
Lemma hex_loop_ok l i sep out : hex_loop l i sep out =
  match l with [] => out | _ => out ++ (if sep && (0 <? i) then [c_sp] else []) ++ glue (if sep then [c_sp] else []) (map hex_byte l) end.
Proof.
  revert i out. induction l as [|x l IH]; intros i out; [reflexivity|]. cbn [hex_loop]. rewrite IH.
  destruct l as [|y l].
  - cbn [map glue]. destruct (sep && (0 <? i)); rewrite <- ?app_assoc; reflexivity.
  - cbn [map]. rewrite (glue_cons _ (hex_byte x)) by discriminate.
    destruct sep; destruct i; cbn [andb Nat.ltb Nat.leb app]; rewrite <- ?app_assoc; reflexivity.
Qed.
Definition hex_val (c : ascii) : nat :=
  match find_char hex_table c with Some n => n | None => 0 end.
Definition unhex_byte (a b : ascii) : ascii := ascii_of_nat (16 * hex_val a + hex_val b).
Lemma unhex_hex c : match hex_byte c with [a; b] => unhex_byte a b = c | _ => False end.
Proof. all_bytes c; vm_compute; reflexivity. Qed.
Lemma hex_byte_inj a b x y : hex_byte a ++ x = hex_byte b ++ y -> a = b /\ x = y.
Proof.
  pose proof (unhex_hex a) as A. pose proof (unhex_hex b) as B.
  destruct (hex_byte a) as [|a1 [|a2 [|]]]; try contradiction. destruct (hex_byte b) as [|b1 [|b2 [|]]]; try contradiction.
  cbn. intro H. injection H as -> -> ->. split; congruence.
Qed.
Lemma hex_glue_inj sep a b : glue sep (map hex_byte a) = glue sep (map hex_byte b) -> a = b.
Proof.
  revert b. induction a as [|x a IH]; intros [|y b] H; auto.
  - destruct b; cbn in H; discriminate.
  - destruct a; cbn in H; discriminate.
  - assert (exists u v, glue sep (map hex_byte (x :: a)) = hex_byte x ++ u /\ glue sep (map hex_byte (y :: b)) = hex_byte y ++ v /\
        u = match a with [] => [] | _ => sep ++ glue sep (map hex_byte a) end /\
        v = match b with [] => [] | _ => sep ++ glue sep (map hex_byte b) end) as (u & v & U & V & Eu & Ev).
    { do 2 eexists. split; [|split; [|split; reflexivity]].
      - destruct a; cbn [map]; [cbn; now rewrite ?app_nil_r|]. now rewrite glue_cons.
      - destruct b; cbn [map]; [cbn; now rewrite ?app_nil_r|]. now rewrite glue_cons. }
    rewrite U, V in H. apply hex_byte_inj in H as [-> H]. f_equal. rewrite Eu, Ev in H.
    destruct a as [|x' a], b as [|y' b]; auto.
    + exfalso. apply (f_equal (@length _)) in H. rewrite app_length in H. cbn [map] in H.
      destruct b; cbn in H; lia.
    + exfalso. apply (f_equal (@length _)) in H. rewrite app_length in H. cbn [map] in H.
      destruct a; cbn in H; lia.
    + apply app_inv_head in H. apply IH. exact H.
Qed.
Lemma glue_hex_length sep a : length (glue sep (map hex_byte a)) = 2 * length a + (length a - 1) * length sep.
Proof.
  induction a as [|x a IH]; [reflexivity|]. destruct a as [|y a].
  - cbn. lia.
  - cbn [map] in *. rewrite glue_cons by discriminate. rewrite !app_length, IH. unfold hex_byte at 1. cbn [length].
    replace (S (S (length a)) - 1) with (S (length a)) by lia. replace (S (length a) - 1) with (length a) by lia. lia.
Qed.

(* ---------------- toString(double) ---------------- *)

(** On a text int "." frac: the zeros at the end of frac go, but not its first digit. *)
Lemma strip_zeros_ok i d1 dr : i <> [] -> d1 <> "."%char -> ~ In "."%char dr ->
  exists k z, dr = k ++ z /\ Forall (eq "0"%char) z /\ (forall k0 c, k = k0 ++ [c] -> c <> "0"%char) /\
    rev (strip_zeros (rev (i ++ "."%char :: d1 :: dr))) = i ++ "."%char :: d1 :: k.
Proof.
  intros N D1. induction dr as [|c dr IH] using rev_ind; intro ND.
  - exists [], []. split; auto. split; auto. split; [intros k0 c H; destruct k0; discriminate|].
    change (i ++ "."%char :: d1 :: []) with (i ++ ["."%char] ++ [d1]). rewrite !rev_app_distr. cbn [rev app].
    destruct (rev i) as [|y ri] eqn:R; [apply (f_equal (@rev _)) in R; rewrite rev_involutive in R; cbn in R; congruence|].
    cbn [strip_zeros]. rewrite Ascii.eqb_refl. cbn [negb]. rewrite andb_false_r.
    apply (f_equal (@rev _)) in R. rewrite rev_involutive in R. cbn [rev] in R |- *. rewrite <- app_assoc. cbn [app].
    rewrite R. rewrite <- !app_assoc. reflexivity.
  - assert (ND' : ~ In "."%char dr) by (intro I; apply ND, in_or_app; auto).
    assert (NC : c <> "."%char) by (intro; subst; apply ND, in_or_app; right; now left).
    replace (i ++ "."%char :: d1 :: dr ++ [c]) with ((i ++ "."%char :: d1 :: dr) ++ [c]) by now rewrite <- app_assoc.
    rewrite rev_app_distr. cbn [rev app].
    destruct (Ascii.eqb_spec c "0") as [->|NZ].
    + destruct (IH ND') as (k & z & -> & Z & K & E). exists k, (z ++ ["0"%char]).
      split; [now rewrite app_assoc|]. split; [apply Forall_app; auto|]. split; auto.
      rewrite <- E. f_equal.
      set (t := rev (i ++ "."%char :: d1 :: k ++ z)).
      assert (T : exists b b2 t', t = b :: b2 :: t' /\ b <> "."%char).
      { unfold t. change ("."%char :: d1 :: k ++ z) with (["."%char] ++ [d1] ++ (k ++ z)). rewrite !rev_app_distr.
        destruct (rev z ++ rev k) as [|b l] eqn:Q.
        - cbn. exists d1, "."%char, (rev i). auto.
        - exists b. cbn. destruct l as [|b2 l]; cbn; do 2 eexists; (split; [reflexivity|]);
          intro; subst b; apply ND'; apply in_rev; rewrite rev_app_distr, Q; now left. }
      destruct T as (b & b2 & t' & -> & B). cbn [strip_zeros]. rewrite Ascii.eqb_refl.
      destruct (Ascii.eqb_spec b ".") as [|_]; [contradiction|]. reflexivity.
    + exists (dr ++ [c]), []. rewrite app_nil_r. split; auto. split; auto. split.
      * intros k0 x H. apply app_inj_tail in H as [_ <-]. auto.
      * assert (S : strip_zeros (c :: rev (i ++ "."%char :: d1 :: dr)) = c :: rev (i ++ "."%char :: d1 :: dr)).
        { cbn [strip_zeros]. destruct (Ascii.eqb_spec c "0"); [contradiction|]. cbn [andb].
          destruct (rev (i ++ "."%char :: d1 :: dr)) as [|? [|? ?]]; reflexivity. }
        rewrite S. cbn [rev]. rewrite rev_involutive, <- app_assoc. reflexivity.
Qed.
