(** C32 - C37, C57, C58: strings. *)
From Verif Require Import Base Str_Model Str_Spec Str_Proofs.

(* ======================= C32 ======================= *)

(** Splitting ends, its pieces are free of the separator, and joining gives the text back. *)
Theorem C32_split_then_join : forall s sep, sep <> [] ->
  exists l, (forall fuel, length s < fuel -> split fuel s sep = Ret l) /\ l <> [] /\
    join l sep = s /\ Forall (fun x => ~ contains sep x) l.
Proof.
  intros s sep N. destruct (pieces_terminates sep N (S (length s)) s) as (l & P); [lia|]. exists l.
  destruct (pieces_sound sep N _ _ _ P) as [G F]. split; [|split; [|split]]; auto.
  - intros fuel L. rewrite split_pieces. destruct (pieces_terminates sep N fuel s L) as (l' & P'). rewrite P'. f_equal.
    assert (M : forall f1 f2 s l1 l2, pieces f1 sep s = Ret l1 -> pieces f2 sep s = Ret l2 -> l1 = l2).
    { clear. induction f1 as [|f1 IH]; intros [|f2] s l1 l2 A B; try discriminate. cbn in A, B.
      destruct (find_sub sep s) as [i|]; [|congruence].
      destruct (pieces f1 sep _) as [x| | | |] eqn:X; try discriminate. destruct (pieces f2 sep _) as [y| | | |] eqn:Y; try discriminate.
      cbn in *. rewrite (IH _ _ _ _ X Y) in A. congruence. }
    eapply M; eauto.
  - eapply pieces_not_nil; eauto.
  - now rewrite join_glue.
Qed.
Print Assumptions C32_split_then_join.
Example C32_split_then_join_example :
  split 100 (s_ "a,b,,c,") (s_ ",") = Ret [s_ "a"; s_ "b"; s_ ""; s_ "c"; s_ ""] /\
  split 100 [] (s_ ",") = Ret [[]] /\ join [s_ "a"; s_ "b"] (s_ ", ") = s_ "a, b".
Proof. repeat split. Qed.

(** With a one-byte separator, splitting a join gives the pieces back. *)
Theorem C32_join_then_split_byte : forall c l fuel, l <> [] -> (forall x, In x l -> ~ In c x) ->
  length (join l [c]) < fuel -> split fuel (join l [c]) [c] = Ret l.
Proof.
  intros c l fuel N C L. rewrite split_pieces, join_glue in *. apply pieces_glue; auto; [discriminate| |].
  - intros x I (a & b & ->). apply (C _ I). apply in_or_app. right. now left.
  - intros x I a b E. assert (I' : In x l) by (clear - I; induction l as [|y l IH]; [contradiction|]; cbn in I; destruct l; [contradiction|]; destruct I; [now left|right; auto]).
    destruct b as [|y b] using rev_ind; auto. exfalso. clear IHb. rewrite !app_assoc in E. apply app_inj_tail in E as [E _].
    apply (C x I'). rewrite E. apply in_or_app. left. apply in_or_app. right. now left.
Qed.
Print Assumptions C32_join_then_split_byte.
Example C32_join_then_split_byte_example : split 100 (join [s_ "x"; s_ ""; s_ "yz"] (s_ ";")) (s_ ";") = Ret [s_ "x"; s_ ""; s_ "yz"].
Proof. reflexivity. Qed.

(** In general a piece must not form the separator together with the start of the separator
    that follows it. *)
Theorem C32_join_then_split_partial : forall sep l fuel, sep <> [] -> l <> [] ->
  (forall x, In x l -> ~ contains sep x) ->
  (forall x a b, In x (removelast l) -> x ++ sep = a ++ sep ++ b -> b = []) ->
  length (join l sep) < fuel -> split fuel (join l sep) sep = Ret l.
Proof.
  intros sep l fuel S N C O L. rewrite split_pieces, join_glue in *. apply pieces_glue; auto.
  intros x I a b E. eapply O; eauto.
Qed.
Print Assumptions C32_join_then_split_partial.
Example C32_join_then_split_example : split 100 (join [s_ "a-"; s_ "b"] (s_ "->")) (s_ "->") = Ret [s_ "a-"; s_ "b"].
Proof. reflexivity. Qed.

(** Being free of the separator is not enough, and the empty list does not come back. *)
Theorem C32_join_then_split_refuted :
  (exists sep l, sep <> [] /\ l <> [] /\ (forall x, In x l -> ~ contains sep x) /\
     split 100 (join l sep) sep <> Ret l) /\
  (forall sep fuel, sep <> [] -> 0 < fuel -> split fuel (join [] sep) sep = Ret [[]]).
Proof.
  split.
  - exists (s_ "aa"), [s_ "a"; s_ "b"]. split; [discriminate|]. split; [discriminate|]. split.
    + intros x I (a & b & E). assert (length x = 1) by (destruct I as [<-|[<-|[]]]; reflexivity).
      rewrite E, !app_length in H. cbn in H. lia.
    + vm_compute. discriminate.
  - intros sep fuel N L. destruct fuel as [|f]; [lia|]. rewrite split_pieces. destruct sep; [congruence|]. reflexivity.
Qed.
Print Assumptions C32_join_then_split_refuted.

(* ======================= C33 ======================= *)

Theorem C33_replaced_partial : forall s pat r, pat <> [] ->
  exists t, (forall fuel, length s < fuel -> replace_all fuel s pat r = Ret t) /\ replaced pat r s t /\
    forall t', replaced pat r s t' -> t' = t.
Proof.
  intros s pat r N. destruct (rep_ok pat r N (S (length s)) s) as (t & P & R); [lia|]. exists t. split; [|split; auto].
  - intros fuel L. destruct s as [|x s].
    + unfold replace_all. cbn in *. destruct pat; [congruence|]. cbn in P. congruence.
    + rewrite replace_all_rep by discriminate. destruct (rep_ok pat r N fuel _ L) as (t' & -> & R').
      f_equal. eapply replaced_unique; eauto.
  - intros t' R'. eapply replaced_unique; eauto.
Qed.
Print Assumptions C33_replaced_partial.
Example C33_replaced_example :
  replace_all 100 (s_ "aaa&b&") (s_ "&") (s_ "&amp;") = Ret (s_ "aaa&amp;b&amp;") /\
  replace_all 100 (s_ "aaa") (s_ "aa") (s_ "b") = Ret (s_ "ba").
Proof. split; reflexivity. Qed.

(** An empty pattern never ends, whatever the replacement. *)
Theorem C33_empty_pattern_refuted : forall s r fuel, s <> [] -> replace_all fuel s [] r = Diverge.
Proof.
  intros s r fuel N. unfold replace_all. destruct s as [|x s]; [congruence|]. cbn [length Nat.eqb].
  apply replace_empty_pattern. lia.
Qed.
Print Assumptions C33_empty_pattern_refuted.

(* ======================= C34 ======================= *)

(** compare gives -1, 0 or 1, by the order of strings. *)
Theorem C34_compare : forall a b,
  (compare a b = (-1)%Z <-> before a b) /\ (compare a b = 0%Z <-> a = b) /\ (compare a b = 1%Z <-> before b a).
Proof.
  intros a b. assert (R : forall x, compare x x = 0%Z) by (induction x as [|c x IH]; cbn; rewrite ?Ascii.eqb_refl; auto).
  destruct (compare_spec a b) as [(E & H)|[(E & H)|(E & H)]]; rewrite E; repeat split; intro Q; auto; try discriminate Q.
  - subst. exfalso. eapply before_irrefl; eauto.
  - exfalso. eapply before_irrefl. eapply before_trans; eauto.
  - subst. exfalso. eapply before_irrefl; eauto.
  - subst. exfalso. eapply before_irrefl; eauto.
  - exfalso. eapply before_irrefl. eapply before_trans; eauto.
  - subst. exfalso. eapply before_irrefl; eauto.
Qed.
Print Assumptions C34_compare.

(** It is a total order. *)
Theorem C34_total_order : forall a b c,
  compare a b = (- compare b a)%Z /\ (compare a b = 0%Z <-> a = b) /\
  ((compare a b <= 0)%Z -> (compare b c <= 0)%Z -> (compare a c <= 0)%Z).
Proof.
  intros a b c. split; [|split].
  - destruct (compare_spec a b) as [(E & H)|[(E & H)|(E & H)]]; rewrite E.
    + assert (compare b a = 1%Z) as -> by (now apply C34_compare). reflexivity.
    + subst. now rewrite E.
    + assert (compare b a = (-1)%Z) as -> by (now apply C34_compare). reflexivity.
  - apply C34_compare.
  - intros A B. destruct (compare_spec a b) as [(E & H)|[(E & H)|(E & H)]]; rewrite E in A; [| |lia];
    destruct (compare_spec b c) as [(E2 & H2)|[(E2 & H2)|(E2 & H2)]]; rewrite E2 in B; try lia; subst.
    + assert (compare a c = (-1)%Z) as -> by (apply C34_compare; eapply before_trans; eauto). lia.
    + rewrite E. lia.
    + rewrite E2. lia.
    + rewrite E2. lia.
Qed.
Print Assumptions C34_total_order.
Example C34_compare_example : compare (s_ "ab") (s_ "abc") = (-1)%Z /\ compare (s_ "b") (s_ "abc") = 1%Z /\
  compare ["200"%char] (s_ "z") = 1%Z.
Proof. repeat split. Qed.

Theorem C34_prefix_suffix : forall s x,
  (begins_with s x = true <-> exists r, s = x ++ r) /\ (ends_with s x = true <-> exists r, s = r ++ x).
Proof. intros s x. split; [apply begins_with_iff|apply ends_with_iff]. Qed.
Print Assumptions C34_prefix_suffix.
Example C34_prefix_suffix_example : begins_with (s_ "fig.svg") (s_ "fig") = true /\ ends_with (s_ "fig.svg") (s_ ".svg") = true /\
  ends_with (s_ "svg") (s_ ".svg") = false /\ begins_with [] [] = true.
Proof. repeat split. Qed.

(* ======================= C35 ======================= *)

(** Trimming is right for every text with something left to keep. *)
Theorem C35_trim_partial : forall s,
  (~ Forall (eq c_sp) s -> exists r, ltrim s = Ret r /\ stripped_begin (eq c_sp) s r) /\
  (~ Forall (eq c_sp) s -> exists r, rtrim s = Ret r /\ stripped_end (eq c_sp) s r) /\
  (~ Forall (eq "/"%char) s -> exists r, strip_trailing_slashes s = Ret r /\ stripped_end (eq "/"%char) s r) /\
  (~ Forall (fun c => c = c_nl \/ c = c_cr) s -> exists r, chomp s = Ret r /\ stripped_end (fun c => c = c_nl \/ c = c_cr) s r).
Proof.
  intro s. split; [|split; [|split]]; intro H.
  - destruct (ltrim_ok s) as [[A _]|(r & A & _ & B)]; [contradiction|eauto].
  - destruct (pop_back_ok (fun c => Ascii.eqb c c_sp) (eq c_sp) ltac:(intro c; rewrite Ascii.eqb_eq; intuition congruence) s) as [[A _]|(r & A & _ & B)]; [contradiction|eauto].
  - destruct (pop_back_ok (fun c => Ascii.eqb c "/") (eq "/"%char) ltac:(intro c; rewrite Ascii.eqb_eq; intuition congruence) s) as [[A _]|(r & A & _ & B)]; [contradiction|eauto].
  - destruct (pop_back_ok (fun c => Ascii.eqb c c_nl || Ascii.eqb c c_cr) (fun c => c = c_nl \/ c = c_cr) ltac:(intro c; rewrite orb_true_iff, !Ascii.eqb_eq; tauto) s) as [[A _]|(r & A & _ & B)]; [contradiction|eauto].
Qed.
Print Assumptions C35_trim_partial.
Example C35_trim_example : ltrim (s_ "  a b ") = Ret (s_ "a b ") /\ rtrim (s_ "  a b ") = Ret (s_ "  a b") /\
  strip_trailing_slashes (s_ "/a/b//") = Ret (s_ "/a/b") /\ chomp (s_ "x" ++ [c_cr; c_nl]) = Ret (s_ "x").
Proof. repeat split. Qed.

(** With nothing to keep - also for the empty text - the behaviour is undefined. *)
Theorem C35_trim_refuted : forall s,
  (Forall (eq c_sp) s -> ltrim s = UB /\ rtrim s = UB) /\
  (Forall (eq "/"%char) s -> strip_trailing_slashes s = UB) /\
  (Forall (fun c => c = c_nl \/ c = c_cr) s -> chomp s = UB).
Proof.
  intro s.
  assert (E : forall class (r : str), r <> [] -> Forall class s -> stripped_end class s r -> False).
  { intros class r N F (x & -> & _ & B). destruct r as [|c r _] using rev_ind; [congruence|].
    apply (B r c eq_refl). rewrite Forall_forall in F. apply F. apply in_or_app. left. apply in_or_app. right. now left. }
  split; [|split]; [intro H; split| |]; try intro H.
  - destruct (ltrim_ok s) as [[_ A]|(r & _ & N & x & -> & _ & B)]; auto. exfalso. destruct r as [|c r]; [congruence|].
    apply (B r c eq_refl). rewrite Forall_forall in H. apply H. apply in_or_app. right. now left.
  - destruct (pop_back_ok (fun c => Ascii.eqb c c_sp) (eq c_sp) ltac:(intro c; rewrite Ascii.eqb_eq; intuition congruence) s) as [[_ A]|(r & _ & N & B)]; auto. exfalso; eauto.
  - destruct (pop_back_ok (fun c => Ascii.eqb c "/") (eq "/"%char) ltac:(intro c; rewrite Ascii.eqb_eq; intuition congruence) s) as [[_ A]|(r & _ & N & B)]; auto. exfalso; eauto.
  - destruct (pop_back_ok (fun c => Ascii.eqb c c_nl || Ascii.eqb c c_cr) (fun c => c = c_nl \/ c = c_cr) ltac:(intro c; rewrite orb_true_iff, !Ascii.eqb_eq; tauto) s) as [[_ A]|(r & _ & N & B)]; auto. exfalso; eauto.
Qed.
Print Assumptions C35_trim_refuted.
Example C35_trim_refuted_example : ltrim [] = UB /\ chomp (s_ "") = UB /\ strip_trailing_slashes (s_ "/") = UB.
Proof. repeat split. Qed.

(** On buffers, trailing bytes are stripped correctly in every case. *)
Theorem C35_buffers : forall s b r, strip_trailing_bytes s b = r <-> stripped_end (eq b) s r.
Proof.
  intros s b r. pose proof (strip_bytes_ok b s). split; [intros <-; auto|]. intro. eapply stripped_end_unique; eauto.
Qed.
Print Assumptions C35_buffers.
Example C35_buffers_example : strip_trailing_bytes (s_ "//") "/" = [] /\ strip_trailing_bytes (s_ "a/b/") "/" = s_ "a/b".
Proof. repeat split. Qed.

(* ======================= C36 ======================= *)

Theorem C36_classes : forall s,
  (is_hex_string s = true <-> all_in (digits ++ s_ "abcdefABCDEF") s) /\
  (is_alphanumeric s = true <-> all_in (digits ++ lower_letters ++ upper_letters) s) /\
  (is_shell_safe s = true <-> all_in (digits ++ lower_letters ++ upper_letters ++ s_ "_-.") s) /\
  (is_digit_string s = true <-> all_in digits s).
Proof.
  intro s. split; [|split; [|split]].
  - apply (class_iff _ _ _ hex_class).
  - apply (class_iff _ _ _ alnum_class).
  - apply (class_iff _ _ _ shell_class).
  - apply (class_iff _ _ _ digit_class).
Qed.
Print Assumptions C36_classes.
Example C36_classes_example : is_hex_string (s_ "00fFaA9") = true /\ is_hex_string (s_ "g") = false /\
  is_shell_safe (s_ "a_b-c.txt") = true /\ is_shell_safe (s_ "a b") = false /\ is_digit_string (s_ "12a") = false.
Proof. repeat split. Qed.

(** isNumber: an optional minus, digits, and optionally a point and digits. Missing for the
    full claim: at least one digit. *)
Theorem C36_number_partial : forall s, is_number s = true <->
  exists sign i f, (sign = [] \/ sign = s_ "-") /\ all_in digits i /\
    (f = [] \/ exists d, f = s_ "." ++ d /\ all_in digits d) /\ s = sign ++ i ++ f.
Proof. exact is_number_iff. Qed.
Print Assumptions C36_number_partial.
Example C36_number_example : is_number (s_ "-12.5") = true /\ is_number (s_ "1,5") = false /\ is_number (s_ "1e5") = false /\
  is_number (s_ "+1") = false /\ is_number (s_ ".5") = true.
Proof. repeat split. Qed.

(** Texts without any digit count as numbers (and the empty text as a string of digits). *)
Theorem C36_number_refuted :
  is_number [] = true /\ is_number (s_ "-") = true /\ is_number (s_ ".") = true /\ is_number (s_ "-.") = true /\
  is_digit_string [] = true.
Proof. repeat split. Qed.
Print Assumptions C36_number_refuted.

(** Stripping for the shell keeps exactly the safe characters, in order. *)
Theorem C36_strip_shell : forall s, is_shell_safe (strip_shell s) = true /\
  (is_shell_safe s = true -> strip_shell s = s) /\
  (forall a c b, s = a ++ c :: b -> strip_shell s = strip_shell a ++ (if is_shell_safe [c] then [c] else []) ++ strip_shell b).
Proof.
  intro s.
  assert (Q : forall c, alnum_char c || Ascii.eqb c "_" || Ascii.eqb c "-" || Ascii.eqb c "." = shell_safe_char c) by (intro c; reflexivity).
  unfold strip_shell, is_shell_safe. split; [|split].
  - rewrite forallb_forall. intros c I. apply filter_In in I as [_ I]. now rewrite Q in I.
  - induction s as [|c s IH]; cbn; auto. intro H. apply andb_true_iff in H as [A B]. rewrite <- Q in A.
    change (shell_safe_char c) with (alnum_char c || Ascii.eqb c "_" || Ascii.eqb c "-" || Ascii.eqb c ".") in *.
    rewrite A. now rewrite IH.
  - intros a c b ->. rewrite filter_app. cbn [filter]. rewrite Q. cbn [forallb]. rewrite andb_true_r.
    destruct (shell_safe_char c); reflexivity.
Qed.
Print Assumptions C36_strip_shell.
Example C36_strip_shell_example : strip_shell (s_ "rm -rf /; a.b") = s_ "rm-rfa.b".
Proof. reflexivity. Qed.

(* ======================= C37 ======================= *)

(** Two digits per byte, with a space between them if asked for. *)
Theorem C37_hex_print : forall l sep rv,
  hex_print l sep rv = glue (if sep then s_ " " else []) (map hex2 (if rv then rev l else l)) /\
  length (hex_print l sep rv) = 2 * length l + (if sep then length l - 1 else 0) /\
  (forall l', hex_print l sep rv = hex_print l' sep rv -> l = l').
Proof.
  intros l sep rv.
  assert (E : forall x, hex_print x sep rv = glue (if sep then [c_sp] else []) (map hex_byte (if rv then rev x else x))).
  { assert (E0 : forall y, hex_loop y 0 sep [] = glue (if sep then [c_sp] else []) (map hex_byte y)).
    { intro y. rewrite hex_loop_ok. cbn [Nat.ltb Nat.leb app]. rewrite andb_false_r. destruct y; reflexivity. }
    intro x. apply E0. }
  split; [|split].
  - apply E.
  - rewrite E, glue_hex_length. replace (length (if rv then rev l else l)) with (length l) by (destruct rv; now rewrite ?rev_length).
    destruct sep; cbn [length]; lia.
  - intros l' H. rewrite !E in H. apply hex_glue_inj in H. destruct rv; auto.
    apply (f_equal (@rev _)) in H. now rewrite !rev_involutive in H.
Qed.
Print Assumptions C37_hex_print.
Example C37_hex_print_example : hex_print [ascii_of_nat 23; ascii_of_nat 255; ascii_of_nat 1] true false = s_ "17 ff 01" /\
  hex_print [ascii_of_nat 23; ascii_of_nat 1] false true = s_ "0117" /\ hex_print [] true true = [].
Proof. repeat split. Qed.

(* ======================= C57 ======================= *)

(** Searching for a character. *)
Theorem C57_find : forall s c, match find_char s c with
  | Some i => nth_error s i = Some c /\ (forall j, j < i -> nth_error s j <> Some c)
  | None => ~ In c s
  end.
Proof. exact find_char_ok. Qed.
Print Assumptions C57_find.

Theorem C57_find_last_partial : forall s c, (Z.of_nat (length s) <= 2 ^ 31)%Z -> match find_last s c with
  | Some i => nth_error s i = Some c /\ (forall j, i < j -> nth_error s j <> Some c)
  | None => ~ In c s
  end.
Proof.
  intros s c L. unfold find_last. destruct s as [|x s].
  - cbn. auto.
  - rewrite as_int_small by (cbn [length] in *; lia). set (t := x :: s) in *.
    assert (LT : (Z.of_nat (length t) - 1 <? 0)%Z = false) by (apply Z.ltb_ge; unfold t; cbn [length]; lia). cbv zeta. rewrite LT.
    replace (Z.to_nat (Z.of_nat (length t) - 1 + 1)) with (length t) by lia.
    pose proof (find_down_ok t c (length t) ltac:(lia)) as H. destruct (find_down t c (length t)) as [i|].
    + destruct H as (A & B & C). split; auto. intros j J. destruct (le_lt_dec (length t) j).
      * assert (nth_error t j = None) as -> by (apply nth_error_None; lia). discriminate.
      * apply C. lia.
    + intro I. apply In_nth_error in I as (j & J). apply (H j); auto. apply nth_error_Some. congruence.
Qed.
Print Assumptions C57_find_last_partial.
Example C57_find_example : find_char (s_ "a.b.c") "." = Some 1 /\ find_last (s_ "a.b.c") "." = Some 3 /\ find_last (s_ "abc") "." = None.
Proof. repeat split. Qed.

(** A text of more than 2^31 (and up to 2^32) bytes is not searched at all. *)
Theorem C57_find_last_refuted : forall s c, (2 ^ 31 < Z.of_nat (length s) <= 2 ^ 32)%Z -> find_last s c = None.
Proof.
  intros s c L. unfold find_last, as_int.
  replace (Z.of_nat (length s) - 1 + 2 ^ 31)%Z with (Z.of_nat (length s) - 1 - 2 ^ 31 + 1 * 2 ^ 32)%Z by lia.
  rewrite Z.mod_add, Z.mod_small by lia. cbv zeta.
  assert ((Z.of_nat (length s) - 1 - 2 ^ 31 - 2 ^ 31 <? 0)%Z = true) as -> by (apply Z.ltb_lt; lia). reflexivity.
Qed.
Print Assumptions C57_find_last_refuted.

(** Searching for a text, with and without regard to case. *)
Theorem C57_includes : forall s x, includes s x = true <-> contains x s.
Proof.
  intros s x. unfold includes. destruct (find_sub x s) as [i|] eqn:F.
  - apply find_sub_some in F as [[E _] _]. split; auto. intros _. eexists. eexists. exact E.
  - apply find_sub_none in F. split; [discriminate|contradiction].
Qed.
Print Assumptions C57_includes.
Theorem C57_includesi : forall s x, includesi s x = true <->
  exists a x' b, s = a ++ x' ++ b /\ Forall2 same_but_case x' x.
Proof.
  intros s x. unfold includesi. rewrite C57_includes. unfold contains, to_lower. split.
  - intros (a & b & E).
    assert (G : forall (p q : str) t, map lower_char t = p ++ q -> exists t1 t2, t = t1 ++ t2 /\ map lower_char t1 = p /\ map lower_char t2 = q).
    { clear. induction p as [|c p IH]; intros q t E; [exists [], t; auto|]. destruct t as [|d t]; [discriminate|].
      cbn in E. injection E as <- E. destruct (IH q t E) as (t1 & t2 & -> & <- & <-). exists (d :: t1), t2. auto. }
    destruct (G _ _ _ E) as (a' & r & -> & _ & E2). destruct (G _ _ _ E2) as (x' & b' & -> & E3 & _).
    exists a', x', b'. split; auto. clear - E3. revert x E3.
    induction x' as [|c x' IH]; intros [|d x] E; try discriminate; constructor.
    + cbn in E. injection E as E _. now apply lower_inj.
    + cbn in E. injection E as _ E. auto.
  - intros (a & x' & b & -> & F). exists (map lower_char a), (map lower_char b). rewrite !map_app. f_equal. f_equal.
    clear - F. induction F as [|c d x' x H F IH]; auto. cbn. f_equal; auto. now apply lower_inj.
Qed.
Print Assumptions C57_includesi.
Example C57_includes_example : includes (s_ "fnordmetric") (s_ "metric") = true /\ includesi (s_ "FnordMetric") (s_ "rDmE") = true /\
  includesi (s_ "[x") (s_ "{X") = false.
Proof. repeat split. Qed.

(* ======================= C58 ======================= *)

(** A number is printed like "%f" prints it, without the zeros at the end, except for one
    behind the point. *)
Theorem C58_number_text_partial : forall i d1 dr, i <> [] -> all_in (digits ++ s_ "-") i -> all_in digits (d1 :: dr) ->
  length (i ++ s_ "." ++ d1 :: dr) < 128 ->
  exists k z, dr = k ++ z /\ Forall (eq "0"%char) z /\ (forall k0 c, k = k0 ++ [c] -> c <> "0"%char) /\
    double_to_string (i ++ s_ "." ++ d1 :: dr) = Ret (i ++ s_ "." ++ d1 :: k).
Proof.
  intros i d1 dr N I D L.
  assert (ND : forall c, In c digits -> c <> "."%char).
  { intros c H ->. apply memb_iff in H. discriminate. }
  destruct (strip_zeros_ok i d1 dr N) as (k & z & E & Z & K & S).
  - apply ND, D. now left.
  - intro H. apply (ND "."%char); auto. apply D. now right.
  - exists k, z. split; auto. split; auto. split; auto. unfold double_to_string.
    assert (128 <=? length (i ++ s_ "." ++ d1 :: dr) = false) as -> by (apply Nat.leb_gt; exact L).
    f_equal. exact S.
Qed.
Print Assumptions C58_number_text_partial.
Example C58_number_text_example : double_to_string (s_ "-12.500000") = Ret (s_ "-12.5") /\ double_to_string (s_ "100.000000") = Ret (s_ "100.0") /\
  double_to_string (s_ "0.000123") = Ret (s_ "0.000123").
Proof. repeat split. Qed.

(** Numbers with more than 120 digits before the point (up to 309 are possible) are read
    from behind the end of the buffer. *)
Theorem C58_number_text_refuted : forall i d, 121 <= length i -> length d = 6 -> double_to_string (i ++ s_ "." ++ d) = UB.
Proof.
  intros i d I D. unfold double_to_string. assert (128 <=? length (i ++ s_ "." ++ d) = true) as ->; [|reflexivity].
  apply Nat.leb_le. rewrite !app_length, D. cbn. lia.
Qed.
Print Assumptions C58_number_text_refuted.

(** C57. Changing the case: every letter of the other case becomes its partner and every other byte
    stays what it is. *)
Theorem C57_upper : forall s, Forall2 (fun c u =>
    (exists i, nth_error lower_letters i = Some c /\ nth_error upper_letters i = Some u) \/ (~ In c lower_letters /\ u = c)) s (to_upper s).
Proof.
  intros s. induction s as [|c s IH]; constructor; [|exact IH]. clear.
  assert (G : match find_char lower_letters c with Some i => nth_error upper_letters i = Some (upper_char c) | None => upper_char c = c end)
    by (destruct c as [[] [] [] [] [] [] [] []]; vm_compute; reflexivity).
  pose proof (C57_find lower_letters c) as F. destruct (find_char lower_letters c) as [i|]; [left; exists i; split; [apply F|exact G]|right; auto].
Qed.
Print Assumptions C57_upper.
Theorem C57_lower : forall s, Forall2 (fun c u =>
    (exists i, nth_error upper_letters i = Some c /\ nth_error lower_letters i = Some u) \/ (~ In c upper_letters /\ u = c)) s (to_lower s).
Proof.
  intros s. induction s as [|c s IH]; constructor; [|exact IH]. clear.
  assert (G : match find_char upper_letters c with Some i => nth_error lower_letters i = Some (lower_char c) | None => lower_char c = c end)
    by (destruct c as [[] [] [] [] [] [] [] []]; vm_compute; reflexivity).
  pose proof (C57_find upper_letters c) as F. destruct (find_char upper_letters c) as [i|]; [left; exists i; split; [apply F|exact G]|right; auto].
Qed.
Print Assumptions C57_lower.
Example C57_case_example : to_upper (s_ "aZ-z{`") = s_ "AZ-Z{`" /\ to_lower (s_ "aZ-[@A") = s_ "az-[@a".
Proof. split; reflexivity. Qed.
