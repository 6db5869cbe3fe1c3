(** C107, continued: the messages of the readers, one by one. *)
From Coq Require Import Reals ZArith Lia Permutation.
From Verif Require Import Base Dec Num Sexpr_Model Dispatch_Model Dispatch_Spec Data_Model Scale_Model Units_Model Color_Model Geo_Model Svg_Model Format_Model Cmd_Model Style_Model
  Plist_Model Plist_Spec Plist_Proofs Plist_Props Plot_Model Eval_Model Eval_Spec TimeText_Spec Eval_Proofs Eval_Props4 Say_Model Say_Model2 Say_Spec Say_Proofs Say_Props Say_Props2.

(** The first argument, as a word. *)
Definition first_word (e : list expr) : option str := match e with x :: _ => word_of x | [] => None end.
Lemma value_first e : value_of e = first_word e.
Proof. destruct e as [|[] ?]; reflexivity. Qed.
Lemma shown_same e : inspect_ptr e = as_shown e.
Proof. reflexivity. Qed.
Lemma plain_dec n : plain (Z.of_nat n) (dec (Z.of_nat n)).
Proof. destruct (dec_ok (Z.of_nat n) ltac:(lia)) as (V & D & N & L). repeat split; assumption. Qed.

(* ---------------- lists of commands ---------------- *)
Section Table.
  Context {S : Type}.
  Variable fns : list (str * (list expr -> S -> reply S)).
  (** A command of the table that succeeds, and what is wrong with an element. *)
  Definition table_does (x : expr) (s s' : S) : Prop :=
    exists w args name f, x = EList (w :: args) /\ word_of w = Some name /\ assoc name fns = Some f /\ f args s = Good s'.
  Inductive table_all_do : list expr -> S -> S -> Prop :=
  | td_nil s : table_all_do [] s s
  | td_cons x r s s1 s2 : table_does x s s1 -> table_all_do r s1 s2 -> table_all_do (x :: r) s s2.
  Inductive table_complaint (x : expr) (s : S) (m : str) (place : list expr) : Prop :=
  | t_not_a_list : word_of x <> None -> m = s_ "expected a list, but got: " ++ inspect x -> place = [] -> table_complaint x s m place
  | t_no_name args : x = EList args -> first_word args = None -> m = s_ "expected a literal, but got: " ++ as_shown args -> place = [] -> table_complaint x s m place
  | t_unknown w args name : x = EList (w :: args) -> word_of w = Some name -> assoc name fns = None -> m = s_ "invalid command: '" ++ name ++ s_ "'" -> place = [] -> table_complaint x s m place
  | t_inside w args name f p : x = EList (w :: args) -> word_of w = Some name -> assoc name fns = Some f -> f args s = Says m p -> place = p ++ [x] -> table_complaint x s m place.

  Lemma table_head x s s' m place : table_does x s s' -> table_complaint x s m place -> False.
  Proof.
    intros (w & a & n & f & -> & Wd & F & G) [N|args E W|w0 a0 n0 E W F0|w0 a0 n0 f0 p E W F0 G0].
    - now destruct N. - injection E as <-. cbn [first_word] in W. congruence.
    - injection E as <- <-. congruence. - injection E as <- <-. congruence.
  Qed.
  Lemma table_fault l : forall u t s m place, walkx_said fns false l u t s = Says m place <->
    exists pre x post s1, l = pre ++ x :: post /\ table_all_do pre s s1 /\ table_complaint x s1 m place.
  Proof.
    induction l as [|x l IH]; intros u t s m place.
    { cbn [walkx_said]. split; [discriminate|]. intros (pre & x & post & s1 & E & _). now destruct pre. }
    assert (Here : forall place0, (walkx_said fns false (x :: l) u t s = Says m place0 -> table_complaint x s m place0) ->
        (table_complaint x s m place0 -> walkx_said fns false (x :: l) u t s = Says m place0) -> (forall s', ~ table_does x s s') ->
        (walkx_said fns false (x :: l) u t s = Says m place0 <-> exists pre x0 post s1, x :: l = pre ++ x0 :: post /\ table_all_do pre s s1 /\ table_complaint x0 s1 m place0)).
    { intros q A B C. split.
      - intro H. exists [], x, l, s. split; [reflexivity|]. split; [constructor|now apply A].
      - intros (pre & y & post & s1 & E & D & F). destruct pre as [|z pre]; injection E as <- ->; [inversion D; subst; now apply B|]. inversion D as [|? ? ? s2 ? D1 D2]; subst. exfalso. eapply C. exact D1. }
    destruct x as [args|v|v].
    - cbn [walkx_said]. rewrite value_first. destruct (first_word args) as [k|] eqn:K.
      + destruct args as [|w args]; [discriminate|]. cbn [first_word] in K. cbn [tl]. destruct (assoc k fns) as [f|] eqn:F.
        * destruct (f args s) as [s2|m0 p| | |] eqn:G.
          -- rewrite IH. split.
             ++ intros (pre & y & post & s1 & -> & D & C). exists (EList (w :: args) :: pre), y, post, s1. split; [reflexivity|]. split; [|exact C].
                econstructor; [exists w, args, k, f; repeat split; eassumption|exact D].
             ++ intros (pre & y & post & s1 & E & D & C). destruct pre as [|z pre]; injection E as <- ->.
                ** inversion D; subst. exfalso. eapply table_head; [|exact C]. exists w, args, k, f. repeat split; eassumption.
                ** inversion D as [|? ? ? s3 ? (w0 & a & n & f0 & Q & W & F0 & G0) D2]; subst. injection Q as <- <-. rewrite K in W. injection W as <-. rewrite F in F0. injection F0 as <-. rewrite G in G0. injection G0 as <-.
                   exists pre, y, post, s1. auto.
          -- assert (Z : walkx_said fns false (EList (w :: args) :: l) u t s = Says m0 (p ++ [EList (w :: args)])) by (cbn [walkx_said]; rewrite value_first; cbn [first_word tl]; now rewrite K, F, G).
             rewrite <- Z. apply Here.
             ++ rewrite Z. intro H. injection H as <- <-. eapply t_inside; [reflexivity|exact K|exact F|exact G|reflexivity].
             ++ intros [N|a E W|w0 a n E W F0|w0 a n f0 p0 E W F0 G0 Ep]; [now destruct N|injection E as <-; cbn [first_word] in W; congruence|injection E as <- <-; congruence|].
                injection E as <- <-. rewrite K in W. injection W as <-. rewrite F in F0. injection F0 as <-. rewrite G in G0. injection G0 as <- <-. now rewrite Ep.
             ++ intros s' (w0 & a & n & f0 & E & W & F0 & G0). injection E as <- <-. congruence.
          -- split; [discriminate|]. intros (pre & y & post & s1 & E & D & C). exfalso. destruct pre as [|z pre]; injection E as <- ->.
             ++ inversion D; subst. destruct C as [N|a E W|w0 a n E W F0|w0 a n f0 p0 E W F0 G0 Ep]; [now destruct N|injection E as <-; cbn [first_word] in W; congruence|injection E as <- <-; congruence|]. injection E as <- <-. congruence.
             ++ inversion D as [|? ? ? s3 ? (w0 & a & n & f0 & Q & W & F0 & G0) D2]; subst. injection Q as <- <-. congruence.
          -- split; [discriminate|]. intros (pre & y & post & s1 & E & D & C). exfalso. destruct pre as [|z pre]; injection E as <- ->.
             ++ inversion D; subst. destruct C as [N|a E W|w0 a n E W F0|w0 a n f0 p0 E W F0 G0 Ep]; [now destruct N|injection E as <-; cbn [first_word] in W; congruence|injection E as <- <-; congruence|]. injection E as <- <-. congruence.
             ++ inversion D as [|? ? ? s3 ? (w0 & a & n & f0 & Q & W & F0 & G0) D2]; subst. injection Q as <- <-. congruence.
          -- split; [discriminate|]. intros (pre & y & post & s1 & E & D & C). exfalso. destruct pre as [|z pre]; injection E as <- ->.
             ++ inversion D; subst. destruct C as [N|a E W|w0 a n E W F0|w0 a n f0 p0 E W F0 G0 Ep]; [now destruct N|injection E as <-; cbn [first_word] in W; congruence|injection E as <- <-; congruence|]. injection E as <- <-. congruence.
             ++ inversion D as [|? ? ? s3 ? (w0 & a & n & f0 & Q & W & F0 & G0) D2]; subst. injection Q as <- <-. congruence.
        * assert (Z : walkx_said fns false (EList (w :: args) :: l) u t s = Says (s_ "invalid command: '" ++ k ++ s_ "'") []) by (cbn [walkx_said]; rewrite value_first; cbn [first_word tl]; now rewrite K, F).
          unfold error_. rewrite <- Z. apply Here.
          -- rewrite Z. intro H. injection H as <- <-. eapply t_unknown; [reflexivity|exact K|exact F|reflexivity|reflexivity].
          -- intros [N|a E W|w0 a n E W F0 -> ->|w0 a n f0 p0 E W F0 G0 Ep]; [now destruct N|injection E as <-; cbn [first_word] in W; congruence| |injection E as <- <-; congruence].
             injection E as <- <-. rewrite K in W. injection W as <-. exact Z.
          -- intros s' (w0 & a & n & f0 & E & W & F0 & G0). injection E as <- <-. congruence.
      + assert (Z : walkx_said fns false (EList args :: l) u t s = Says (s_ "expected a literal, but got: " ++ as_shown args) []) by (cbn [walkx_said]; rewrite value_first; now rewrite K).
        unfold error_. rewrite <- (shown_same args) in Z. rewrite <- Z. apply Here.
        -- rewrite Z. intro H. injection H as <- <-. eapply t_no_name; [reflexivity|exact K|reflexivity|reflexivity].
        -- intros [N|a E W -> ->|w0 a n E W F0|w0 a n f0 p0 E W F0 G0 Ep]; [now destruct N| |injection E as ->; cbn [first_word] in K; congruence|injection E as ->; cbn [first_word] in K; congruence].
           injection E as <-. exact Z.
        -- intros s' (w0 & a & n & f0 & E & W & F0 & G0). injection E as ->. cbn [first_word] in K. congruence.
    - apply Here.
      + cbn [walkx_said]. intro H. injection H as <- <-. apply t_not_a_list; [discriminate|reflexivity|reflexivity].
      + intros [N -> ->|a E|w0 a n E|w0 a n f0 p0 E]; try discriminate E. reflexivity.
      + intros s' (w0 & a & n & f0 & E & _). discriminate E.
    - apply Here.
      + cbn [walkx_said]. intro H. injection H as <- <-. apply t_not_a_list; [discriminate|reflexivity|reflexivity].
      + intros [N -> ->|a E|w0 a n E|w0 a n f0 p0 E]; try discriminate E. reflexivity.
      + intros s' (w0 & a & n & f0 & E & _). discriminate E.
  Qed.
End Table.
(** C107. The same for the options of an element and of the page, which are kept in a table. *)
Theorem C107_first_option : forall (S : Type) (fns : list (str * (list expr -> S -> reply S))) (l : list expr) (s : S) (m : str) (place : list expr),
  run_said fns l s = Says m place <->
  exists pre x post s1, l = pre ++ x :: post /\ table_all_do fns pre s s1 /\ table_complaint fns x s1 m place.
Proof.
  intros S fns l s m place. rewrite <- (table_fault fns l [] []). unfold run_said. destruct (walkx_said fns false l [] [] s) as [[s' r]|m0 p| | |]; cbn [rbind]; [split; discriminate| |split; discriminate..]. split; intro H; injection H as <- <-; reflexivity.
Qed.
Print Assumptions C107_first_option.

(* ---------------- words and numbers ---------------- *)
(** C107. A switch is on or off; anything else is shown. *)
Theorem C107_switch : forall (e : list expr),
  (forall b, expr_to_switch_said e = Good b <-> first_word e = Some (if b then s_ "on" else s_ "off")) /\
  (first_word e <> Some (s_ "on") -> first_word e <> Some (s_ "off") ->
   expr_to_switch_said e = Says (s_ "argument error; expected 'on' or 'off', got: " ++ as_shown e) []).
Proof.
  intro e. unfold expr_to_switch_said. rewrite value_first. cbv zeta. destruct (first_word e) as [v|].
  - destruct (str_eqb_spec v (s_ "on")) as [->|N1]; [split; [intros []; split; intro H; first [reflexivity|discriminate H]|congruence]|].
    destruct (str_eqb_spec v (s_ "off")) as [->|N2]; [split; [intros []; split; intro H; first [reflexivity|discriminate H]|congruence]|].
    split; [intros []; split; intro H; first [discriminate H|congruence]|reflexivity].
  - split; [intros []; split; discriminate|reflexivity].
Qed.
Print Assumptions C107_switch.
(** C107. A number: a list, or nothing, is not one; a word that is not one is shown. *)
Definition says_no_number (stod : str -> option (xr * nat)) (e : list expr) (m : str) : Prop :=
  (first_word e = None /\ m = s_ "expected value") \/ (exists v, first_word e = Some v /\ stod v = None /\ m = s_ "invalid number: " ++ v).
Theorem C107_number : forall (stod : str -> option (xr * nat)) (e : list expr),
  (forall m t, expr_to_float64_said stod e = Says m t <-> says_no_number stod e m /\ t = []) /\
  (forall q, expr_to_float64_said stod e = Good q <-> exists v n, first_word e = Some v /\ stod v = Some (q, n)).
Proof.
  intros stod e. unfold expr_to_float64_said, says_no_number. rewrite value_first. destruct (first_word e) as [v|].
  - destruct (stod v) as [[q n]|] eqn:E.
    + split; [intros m t; split; [discriminate|]; intros ([(X & _)|(w & X & Y & _)] & _); congruence|]. intro q'. split; [intro H; injection H as <-; eauto|]. intros (w & k & X & Y). congruence.
    + split; [|intro q; split; [discriminate|]; intros (w & k & X & Y); congruence]. intros m t. split.
      * intro H. injection H as <- <-. split; [right; eauto|reflexivity].
      * intros ([(X & _)|(w & X & _ & ->)] & ->); [discriminate|]. injection X as <-. reflexivity.
  - split; [|intro q; split; [discriminate|]; intros (w & k & X & Y); congruence]. intros m t. split.
    + intro H. injection H as <- <-. split; [left; auto|reflexivity].
    + intros ([(_ & ->)|(w & X & _)] & ->); [reflexivity|discriminate].
Qed.
Print Assumptions C107_number.
(** C107. A range: two numbers; the message has the number of arguments given and expected, or is that
    of the first which is not a number. *)
Theorem C107_range : forall (stod : str -> option (xr * nat)) (e : list expr) (v1 v2 : option xr),
  (length e <> 2%nat -> exists m, expr_to_float64_opt_pair_said stod e v1 v2 = ((v1, v2), Says m []) /\ nargs_message (length e) 2 m) /\
  (forall a b m t, e = [a; b] -> (snd (expr_to_float64_opt_pair_said stod e v1 v2) = Says m t <->
     t = [] /\ (says_no_number stod [a] m \/ (exists q, expr_to_float64_said stod [a] = Good q) /\ says_no_number stod [b] m))).
Proof.
  intros stod e v1 v2. split.
  - intro N. destruct e as [|a [|b [|c r]]]; try (cbn in N; lia); (eexists; split; [reflexivity|]; apply (@nargs_says unit _ _ _ [] eq_refl)).
  - intros a b m t ->. cbn [expr_to_float64_opt_pair_said]. destruct (C107_number stod [a; b]) as (A1 & A2). destruct (C107_number stod [b]) as (B1 & B2).
    change (says_no_number stod [a; b]) with (says_no_number stod [a]) in A1. change (expr_to_float64_said stod [a; b]) with (expr_to_float64_said stod [a]) in *.
    destruct (expr_to_float64_said stod [a]) as [x|m0 t0| | |] eqn:EA.
    + assert (NA : ~ says_no_number stod [a] m) by (intro Q; specialize (proj2 (A1 m []) (conj Q eq_refl)); discriminate).
      destruct (expr_to_float64_said stod [b]) as [y|m1 t1| | |] eqn:EB; cbn [snd]; try (exfalso; revert EB; unfold expr_to_float64_said; destruct (value_of [b]) as [w|]; [destruct (stod w) as [[]|]|]; discriminate).
      * split; [discriminate|]. intros (_ & [Q|(_ & Q)]); [contradiction|]. specialize (proj2 (B1 m []) (conj Q eq_refl)). discriminate.
      * split; [intro H; injection H as <- <-; destruct (proj1 (B1 _ _) eq_refl) as (Q & ->); split; [reflexivity|right; split; [eauto|exact Q]]|intros (-> & [Q|(_ & Q)]); [contradiction|]]. pose proof (proj2 (B1 m []) (conj Q eq_refl)) as Z. injection Z as -> ->. reflexivity.
    + cbn [snd]. split; [intro H; injection H as <- <-; destruct (proj1 (A1 _ _) eq_refl) as (Q & ->); split; [reflexivity|now left]|]. intros (-> & [Q|((q & Q) & _)]); [|discriminate]. pose proof (proj2 (A1 m []) (conj Q eq_refl)) as Z. injection Z as -> ->. reflexivity.
    + exfalso. revert EA. unfold expr_to_float64_said. destruct (value_of [a]) as [w|]; [destruct (stod w) as [[]|]|]; discriminate.
    + exfalso. revert EA. unfold expr_to_float64_said. destruct (value_of [a]) as [w|]; [destruct (stod w) as [[]|]|]; discriminate.
    + exfalso. revert EA. unfold expr_to_float64_said. destruct (value_of [a]) as [w|]; [destruct (stod w) as [[]|]|]; discriminate.
Qed.
Print Assumptions C107_range.

(** C107. A length: what is not a word is shown, a word that does not begin with a number is called an
    invalid number (for the unit see C107_units). *)
Theorem C107_length : forall (d : R -> R) (stod : str -> option (xr * nat)) (e : list expr),
  (first_word e = None -> measure_read_said d stod e = Says (s_ "argument error; expected a value, got: " ++ as_shown e) []) /\
  (forall v, first_word e = Some v -> stod v = None -> measure_read_said d stod e = Says (s_ "invalid number: '" ++ v ++ s_ "'") []) /\
  (forall v q n, first_word e = Some v -> stod v = Some (q, n) -> forall m t, measure_read_said d stod e = Says m t -> (n < length v)%nat \/ (length v < n)%nat).
Proof.
  intros d stod e. unfold measure_read_said. pose proof (value_first e) as VF. split; [|split].
  - intro H. rewrite VF, H. reflexivity.
  - intros v H S. rewrite VF, H. unfold parse_measure_said. now rewrite S.
  - intros v q n H S m t. rewrite VF, H. unfold parse_measure_said. rewrite S. destruct (Nat.eqb_spec n (length v)); [discriminate|]. intros _. lia.
Qed.
Print Assumptions C107_length.
(** C107. Sizes by value: only a list (linear a b) is accepted; the messages say so, and how many
    arguments there were. *)
Definition linear_form (e : list expr) (args : list expr) : Prop := exists w r, e = EList (w :: args) :: r /\ word_of w = Some (s_ "linear").
Theorem C107_measure_map : forall (d : R -> R) (stod : str -> option (xr * nat)) (l : layer) (e : list expr),
  ((forall items r, e <> EList items :: r) -> measure_map_read_said d stod l e = Says (s_ "invalid argument to <measure-map>; expected a list, but got: '" ++ as_shown e ++ s_ "'") []) /\
  (forall items r, e = EList items :: r -> first_word items <> Some (s_ "linear") -> exists lines, line_list [s_ "linear"] lines /\
     measure_map_read_said d stod l e = Says (s_ "invalid value to <measure-map>; got '" ++ as_shown items ++ s_ "', but expected one of: " ++ [c_nl] ++ lines) []) /\
  (forall args, linear_form e args -> length args <> 2%nat -> exists n, plain (Z.of_nat (length args)) n /\
     measure_map_read_said d stod l e = Says (s_ "invalid number of arguments for 'linear'; expected two, got: " ++ n) []) /\
  (forall f, measure_map_read_said d stod l e = Good f -> exists a b, linear_form e [a; b]).
Proof.
  intros d stod l e. split; [|split; [|split]].
  - intro N. destruct e as [|[items|v|v] r]; [reflexivity|exfalso; now apply (N items r)|reflexivity|reflexivity].
  - intros items r -> N. exists (s_ "  - linear" ++ [c_nl]). split; [apply (ll_more (s_ "linear") [] []); constructor|].
    cbn [measure_map_read_said]. rewrite value_first. destruct (first_word items) as [k|]; [|reflexivity]. destruct (str_eqb_spec k (s_ "linear")) as [->|_]; [congruence|reflexivity].
  - intros args (w & r & -> & Hw) N. exists (dec (Z.of_nat (length args))). split; [apply plain_dec|]. cbn [measure_map_read_said]. rewrite value_first. cbn [first_word tl]. rewrite Hw.
    change (str_eqb (s_ "linear") (s_ "linear")) with true. cbv iota. destruct args as [|a [|b [|c q]]]; try reflexivity. cbn in N. lia.
  - intros f H. destruct e as [|[items|v|v] r]; try discriminate. cbn [measure_map_read_said] in H. rewrite value_first in H. destruct items as [|w items]; [discriminate|]. cbn [first_word tl] in H.
    destruct (word_of w) as [k|] eqn:Hw; [|discriminate]. destruct (str_eqb_spec k (s_ "linear")) as [->|_]; [|discriminate]. destruct items as [|a [|b [|c q]]]; try discriminate. exists a, b, w, r. now split.
Qed.
Print Assumptions C107_measure_map.

(* ---------------- placements ---------------- *)
(** The placements with a fixed number of arguments. *)
Definition takes_args : list (str * (nat * str)) :=
  [(s_ "linear", (1%nat, s_ "one")); (s_ "linear-align", (1%nat, s_ "one")); (s_ "linear-alignat", (2%nat, s_ "two")); (s_ "linear-interval", (3%nat, s_ "three"));
   (s_ "exponential", (1%nat, s_ "one")); (s_ "exponential-steps", (2%nat, s_ "two"))].
(** C107. A placement with a wrong number of arguments: the message names it, says how many it takes, and
    how many there were. *)
Theorem C107_placement_arguments : forall (stod : str -> option (xr * nat)) (name : str) (k : nat) (number : str) (w : expr) (args : list expr),
  In (name, (k, number)) takes_args -> word_of w = Some name -> length args <> k ->
  exists n, plain (Z.of_nat (length args)) n /\
    configure_layout_said stod [EList (w :: args)] = Says (s_ "invalid number of arguments for '" ++ name ++ s_ "'; expected " ++ number ++ s_ ", got: " ++ n) [].
Proof.
  intros stod name k number w args I Hw N. exists (dec (Z.of_nat (length args))). split; [apply plain_dec|].
  unfold configure_layout_said. unfold list_headed. rewrite !value_first. cbn [first_word tl]. rewrite !Hw.
  cbn [takes_args In] in I. decompose [or] I; clear I; try contradiction;
    match goal with H : (?a, (?b, ?c)) = (name, (k, number)) |- _ => assert (name = a) by congruence; assert (k = b) as Ek by congruence; assert (number = c) by congruence; clear H; subst name number; try rewrite Ek in L; try rewrite Ek in N end;
    repeat match goal with |- context [str_eqb (s_ ?a) (s_ ?b)] => let r := eval vm_compute in (str_eqb (s_ a) (s_ b)) in change (str_eqb (s_ a) (s_ b)) with r; cbv iota end;
    destruct args as [|a1 [|a2 [|a3 [|a4 args]]]]; cbn [length] in N; try lia; reflexivity.
Qed.
Print Assumptions C107_placement_arguments.
Theorem C107_placement_numbers : forall (stod : str -> option (xr * nat)) (name : str) (k : nat) (number : str) (w : expr) (pre : list expr) (x : expr) (post : list expr) (m : str),
  In (name, (k, number)) takes_args -> word_of w = Some name -> length (pre ++ x :: post) = k ->
  (forall y, In y pre -> exists q, expr_to_float64_said stod [y] = Good q) -> says_no_number stod [x] m ->
  configure_layout_said stod [EList (w :: pre ++ x :: post)] = Says m [].
Proof.
  intros stod name k number w pre x post m I Hw L P X.
  assert (XX : expr_to_float64_said stod [x] = Says m []) by (apply (proj1 (C107_number stod [x])); now split).
  assert (F : forall y r, expr_to_float64_said stod (y :: r) = expr_to_float64_said stod [y]) by reflexivity.
  unfold configure_layout_said. unfold list_headed. rewrite !value_first. cbn [first_word tl]. rewrite !Hw.
  cbn [takes_args In] in I. decompose [or] I; clear I; try contradiction;
    match goal with H : (?a, (?b, ?c)) = (name, (k, number)) |- _ => assert (name = a) by congruence; assert (k = b) as Ek by congruence; assert (number = c) by congruence; clear H; subst name number; try rewrite Ek in L; try rewrite Ek in N end;
    repeat match goal with |- context [str_eqb (s_ ?a) (s_ ?b)] => let r := eval vm_compute in (str_eqb (s_ a) (s_ b)) in change (str_eqb (s_ a) (s_ b)) with r; cbv iota end;
    destruct pre as [|p1 [|p2 [|p3 pre]]]; destruct post as [|o1 [|o2 [|o3 post]]]; cbn [app length] in L; rewrite ?app_length in L; cbn [length] in L; try lia;
    cbn [app args1_said args2_said args3_said]; rewrite ?(F _ [_]), ?(F _ [_; _]); 
    try (destruct (P p1 (or_introl eq_refl)) as (q1 & ->)); try (destruct (P p2 (or_intror (or_introl eq_refl))) as (q2 & ->)); cbn [rbind]; rewrite XX; reflexivity.
Qed.
Print Assumptions C107_placement_numbers.

(* ---------------- colours, formats, data ---------------- *)
(** C107. Colours by value: a list that begins with steps or gradient, and an even number of arguments;
    otherwise a message shows what was given, and the two forms. *)
Theorem C107_color_map : forall (f32 : R -> R) (stod : str -> option (xr * nat)) (said : list expr -> str) (palette : list color) (e : list expr),
  (forall x, color_map_read_said f32 stod said palette e = Good x ->
     exists w args r, e = EList (w :: args) :: r /\ (word_of w = Some (s_ "gradient") \/ word_of w = Some (s_ "steps")) /\ Nat.even (length args) = true) /\
  ((forall w args r, e = EList (w :: args) :: r -> word_of w <> Some (s_ "gradient") /\ word_of w <> Some (s_ "steps")) ->
   exists lines, line_list [s_ "steps"; s_ "gradient"] lines /\
     color_map_read_said f32 stod said palette e = Says (s_ "invalid value to <color-map>; got '" ++ as_shown e ++ s_ "', but expected one of: " ++ [c_nl] ++ lines) []) /\
  (forall w args r, e = EList (w :: args) :: r -> word_of w = Some (s_ "gradient") -> Nat.odd (length args) = true ->
     color_map_read_said f32 stod said palette e = Says (s_ "invalid argument to 'gradient'; not a list of pairs: '" ++ as_shown args ++ s_ "'") []).
Proof.
  intros f32 stod said palette e.
  assert (HI : forall k items, head_is k items = match first_word items with Some v => str_eqb v k | None => false end).
  { intros k items. now destruct items as [|[] ?]. }
  split; [|split].
  - intros x H. destruct e as [|[items|v|v] r]; try discriminate. cbn [color_map_read_said] in H. rewrite !HI in H. destruct items as [|w args]; [discriminate|]. cbn [first_word tl] in H.
    exists w, args, r. split; [reflexivity|]. destruct (word_of w) as [k|]; [|discriminate].
    assert (K : forall kind, (rbind (map_stops_said f32 stod said palette args) (fun l => Good (kind : map_kind, l))) = Good x -> Nat.even (length args) = true).
    { intros kind K. unfold map_stops_said in K. destruct (Nat.odd (length args)) eqn:O; [discriminate|]. now rewrite <- Nat.negb_odd, O. }
    destruct (str_eqb_spec k (s_ "gradient")) as [E|_]; [split; [left; now rewrite E|eapply K; exact H]|]. destruct (str_eqb_spec k (s_ "steps")) as [E|_]; [split; [right; now rewrite E|eapply K; exact H]|discriminate].
  - intro N. exists (concat (map bullet [s_ "steps"; s_ "gradient"])). split; [apply lines_concat|]. destruct e as [|[items|v|v] r]; [reflexivity| |reflexivity|reflexivity].
    cbn [color_map_read_said]. rewrite !HI. destruct items as [|w args]; [reflexivity|]. cbn [first_word]. destruct (N w args r eq_refl) as (N1 & N2). destruct (word_of w) as [k|]; [|reflexivity].
    destruct (str_eqb_spec k (s_ "gradient")) as [->|_]; [congruence|]. destruct (str_eqb_spec k (s_ "steps")) as [->|_]; [congruence|reflexivity].
  - intros w args r -> Hw O. cbn [color_map_read_said]. rewrite !HI. cbn [first_word tl]. rewrite Hw. change (str_eqb (s_ "gradient") (s_ "gradient")) with true. cbv iota. unfold map_stops_said. rewrite O. reflexivity.
Qed.
Print Assumptions C107_color_map.
(** C107. Formats of labels: with any other name the message lists exactly those that are accepted; base
    takes one or two arguments, integer none. *)
Definition format_form (name : str) (e : list expr) (args : list expr) : Prop :=
  (exists x r, e = x :: r /\ word_of x = Some name /\ args = [] /\ name <> s_ "custom") \/ (exists w r, e = EList (w :: args) :: r /\ word_of w = Some name).
Theorem C107_formats : forall d stod1 strftime read_file said (e : list expr),
  (forall f, format_configure_said d stod1 strftime read_file said e = Good f -> exists name args, In name formats /\ format_form name e args) /\
  ((forall name args, format_form name e args -> ~ In name formats) -> exists lines, line_list formats lines /\
     format_configure_said d stod1 strftime read_file said e = Says (s_ "invalid value '" ++ as_shown e ++ s_ "', expected one of: " ++ [c_nl] ++ lines) []) /\
  (forall args, format_form (s_ "base") e args -> length args <> 1%nat -> length args <> 2%nat -> exists n, plain (Z.of_nat (length args)) n /\
     format_configure_said d stod1 strftime read_file said e = Says (s_ "invalid number of arguments for 'base'; expected one or two, but got: " ++ n) []) /\
  (forall args, format_form (s_ "integer") e args -> args <> [] -> exists n, plain (Z.of_nat (length args)) n /\
     format_configure_said d stod1 strftime read_file said e = Says (s_ "invalid number of arguments for 'integer'; expected zero, but got: " ++ n) []).
Proof.
  intros d stod1 strftime read_file said e.
  assert (In6 : forall n, In n formats <-> n = s_ "fixed" \/ n = s_ "scientific" \/ n = s_ "datetime" \/ n = s_ "base" \/ n = s_ "integer" \/ n = s_ "custom").
  { intro n. change formats with [s_ "fixed"; s_ "scientific"; s_ "datetime"; s_ "base"; s_ "integer"; s_ "custom"]. cbn [In]. intuition congruence. }
  assert (HW : forall n, Format_Model.is_word e n = match first_word e with Some v => str_eqb v n | None => false end) by (intro n; unfold Format_Model.is_word; now rewrite value_first).
  assert (HL : forall n, list_headed e n = match e with EList items :: _ => match first_word items with Some v => if str_eqb v n then Some (tl items) else None | None => None end | _ => None end).
  { intro n. unfold list_headed. now destruct e as [|[[|[] ?]|v|v] r]. }
  (* the two forms *)
  assert (Forms : (exists v x r, e = x :: r /\ word_of x = Some v) \/ (exists v w args r, e = EList (w :: args) :: r /\ word_of w = Some v) \/ (first_word e = None /\ forall n, list_headed e n = None)).
  { destruct e as [|[[|w args]|v|v] r]; [right; right; split; [reflexivity|intro; reflexivity]|right; right; split; [reflexivity|intro; reflexivity]| |left; now exists v, (ELit v), r|left; now exists v, (EVal v), r].
    destruct (word_of w) as [v|] eqn:Hw; [right; left; now exists v, w, args, r|]. right; right. split; [reflexivity|]. intro n. rewrite HL. cbn [first_word]. now rewrite Hw. }
  split; [|split; [|split]].
  - intros f H. unfold format_configure_said in H. cbv zeta in H. destruct Forms as [(v & x & r & -> & Hx)|[(v & w & args & r & -> & Hw)|(N & NL)]].
    + assert (NLh : forall n, list_headed (x :: r) n = None) by (intro n; apply headed_word; congruence).
      rewrite !HW, !NLh in H. cbn [first_word] in H. rewrite !Hx in H.
      exists v, []. assert (V : In v formats /\ v <> s_ "custom"); [|destruct V as (V & V'); split; [exact V|left; now exists x, r]]. rewrite In6.
      destruct (str_eqb_spec v (s_ "fixed")) as [->|_]; [split; [tauto|discriminate]|]. destruct (str_eqb_spec v (s_ "scientific")) as [->|_]; [split; [tauto|discriminate]|].
      destruct (str_eqb_spec v (s_ "datetime")) as [->|_]; [split; [tauto|discriminate]|]. destruct (str_eqb_spec v (s_ "base")) as [->|_]; [split; [tauto|discriminate]|].
      destruct (str_eqb_spec v (s_ "integer")) as [->|_]; [split; [tauto|discriminate]|]. discriminate.
    + exists v, args. assert (V : In v formats); [|split; [exact V|right; now exists w, r]]. rewrite In6. rewrite !HW, !HL in H. cbn [first_word word_of tl] in H. rewrite !Hw in H.
      destruct (str_eqb_spec v (s_ "fixed")) as [->|_]; [tauto|]. destruct (str_eqb_spec v (s_ "scientific")) as [->|_]; [tauto|].
      destruct (str_eqb_spec v (s_ "datetime")) as [->|_]; [tauto|]. destruct (str_eqb_spec v (s_ "base")) as [->|_]; [tauto|].
      destruct (str_eqb_spec v (s_ "integer")) as [->|_]; [tauto|]. destruct (str_eqb_spec v (s_ "custom")) as [->|_]; [tauto|]. discriminate.
    + rewrite !HW, !NL, !N in H. discriminate.
  - intro No. exists (concat (map bullet formats)). split; [apply lines_concat|]. unfold format_configure_said. cbv zeta. destruct Forms as [(v & x & r & -> & Hx)|[(v & w & args & r & -> & Hw)|(N & NL)]].
    + assert (NLh : forall n, list_headed (x :: r) n = None) by (intro n; apply headed_word; congruence).
      rewrite !HW, !NLh. cbn [first_word]. rewrite !Hx.
      assert (D : forall n, In n formats -> n <> s_ "custom" -> str_eqb v n = false).
      { intros n I C. destruct (str_eqb_spec v n) as [->|]; [|reflexivity]. exfalso. apply (No n []); [left; now exists x, r|exact I]. }
      rewrite !D by (try apply In6; try tauto; discriminate). reflexivity.
    + rewrite !HW, !HL. cbn [first_word word_of tl]. rewrite !Hw. assert (D : forall n, In n formats -> str_eqb v n = false).
      { intros n I. destruct (str_eqb_spec v n) as [->|]; [|reflexivity]. exfalso. apply (No n args); [right; now exists w, r|exact I]. }
      rewrite !D by (apply In6; tauto). reflexivity.
    + rewrite !HW, !NL, !N. reflexivity.
  - intros args [(x & r & -> & Hx & -> & _)|(w & r & -> & Hw)] L1 L2; eexists; (split; [apply plain_dec|]); unfold format_configure_said; cbv zeta.
    + rewrite !HW, !headed_word by congruence. cbn [first_word]. rewrite !Hx. reflexivity.
    + rewrite !HW, !HL. cbn [first_word word_of tl]. rewrite !Hw. change (str_eqb (s_ "base") (s_ "fixed")) with false. change (str_eqb (s_ "base") (s_ "scientific")) with false. change (str_eqb (s_ "base") (s_ "datetime")) with false. change (str_eqb (s_ "base") (s_ "base")) with true. cbv iota.
      destruct args as [|a [|b [|c q]]]; cbn [length] in L1, L2; try lia; reflexivity.
  - intros args [(x & r & -> & Hx & -> & _)|(w & r & -> & Hw)] L; [congruence|]. eexists. split; [apply plain_dec|]. unfold format_configure_said. cbv zeta.
    rewrite !HW, !HL. cbn [first_word word_of tl]. rewrite !Hw. change (str_eqb (s_ "integer") (s_ "fixed")) with false. change (str_eqb (s_ "integer") (s_ "scientific")) with false. change (str_eqb (s_ "integer") (s_ "datetime")) with false.
    change (str_eqb (s_ "integer") (s_ "base")) with false. change (str_eqb (s_ "integer") (s_ "integer")) with true. cbv iota.
    destruct args as [|a q]; [congruence|reflexivity].
Qed.
Print Assumptions C107_formats.
(** C107. Data files of points: if the format is neither given nor to be seen from the name, the message
    shows the path; a format that is not known is shown. *)
Theorem C107_points_file : forall (num : Type) (lm : list expr -> str) (gm : str -> str) (ll : list expr -> @databuf num -> @databuf num * outcome unit) lp (path format : str) (bx by_ : @databuf num),
  path <> [] ->
  (format = [] -> ends_with path (s_ ".csv") = false -> ends_with path (s_ ".geojson") = false ->
   data_load_points2_said lm gm ll lp path format [] [] bx by_ =
     ((bx, by_), Says (s_ "unable to detect the encoding of " ++ path ++ [c_nl] ++ s_ "Please specify the encoding using data-type: [csv|geojson]") [])) /\
  (format <> [] -> format <> s_ "geojson" ->
   exists m, data_load_points2_said lm gm ll lp path format [] [] bx by_ = ((bx, by_), Says m []) /\ names_values m format [s_ "csv"; s_ "geojson"]).
Proof.
  intros num lm gm ll lp path format bx by_ N. destruct path as [|c p]; [congruence|]. set (path := c :: p). split.
  - intros -> C G. unfold data_load_points2_said. cbn [open_message]. unfold detect_format. rewrite C, G. reflexivity.
  - intros F G. destruct format as [|a format]; [congruence|]. set (fmt := a :: format) in *. unfold data_load_points2_said. cbn [open_message].
    change (detect_format path fmt) with fmt. destruct (str_eqb_spec fmt (s_ "geojson")) as [|_]; [contradiction|]. eexists. split; [reflexivity|].
    refine (invalid_value_says (A := unit) _ _ _ _ _ eq_refl _). reflexivity.
Qed.
Print Assumptions C107_points_file.
(** C107. A font is given by one word. *)
Theorem C107_font : forall (W : world) (U : unsaid) (e : list expr) (old : font),
  (length e <> 1%nat -> exists m, set_font_cmd_said W U e old = Says m [] /\ nargs_message (length e) 1 m) /\
  (length e = 1%nat -> first_word e = None -> set_font_cmd_said W U e old = Says (s_ "Expected a value") []).
Proof.
  intros W U e old. split.
  - intro N. destruct e as [|a [|b r]]; try (cbn in N; lia); (eexists; split; [reflexivity|]; apply (@nargs_says unit _ _ _ [] eq_refl)).
  - intros L F. destruct e as [|a [|b r]]; try (cbn in L; lia). cbn [first_word] in F. unfold set_font_cmd_said. rewrite value_first. cbn [first_word]. now rewrite F.
Qed.
Print Assumptions C107_font.

(* ---------------- the tool ---------------- *)
(** C107. A program file that cannot be read: the message has the path and the reason. *)
Theorem C107_unreadable : forall (W : world) (U : unsaid) (version : str) (fonts : font) (stdin : str) (o : os) (opts : list opt) (png : bool) (path : str),
  existsb is_help opts = false -> existsb is_version opts = false -> existsb is_font_load opts = false -> forallb known_opt opts = true -> wants opts png ->
  path <> s_ "-" -> w_read_file W path = None ->
  main_said W U version (Ret fonts) stdin o opts [path] =
    Ret (failure, s_ "ERROR: unable to read input file (" ++ path ++ s_ "): error while reading file: '" ++ path ++ s_ "': " ++ u_strerror U path ++ [c_nl]).
Proof.
  intros W U version fonts stdin o opts png path Hh Hv Hf K Wf NP RF.
  unfold main_said. rewrite flags0_ok, K. unfold cli_run_said, flags_of. cbn [fl_version fl_help fl_export fl_fonts]. rewrite Hv, Hh.
  assert (C : exists fmt, choose_format (flags_of opts) = Ret fmt).
  { unfold choose_format, flags_of. cbn [fl_format fl_export]. unfold wants in Wf. destruct (last_opt is_format opts) as [[|c f]|]; cbn [or_else]; [eauto| |eauto].
    destruct png; rewrite Wf; eexists; reflexivity. }
  destruct C as [fmt C]. unfold flags_of in C. rewrite Hv, Hh in C. rewrite C.
  assert (FL : map opt_arg (filter is_font_load opts) = []).
  { clear - Hf. induction opts as [|x r IH]; [reflexivity|]. cbn [existsb] in Hf. apply orb_false_iff in Hf as [Hx Hr]. cbn [filter]. rewrite Hx. now apply IH. }
  rewrite FL. unfold layer_create. cbn [forM fold_right]. destruct (str_eqb_spec path (s_ "-")) as [|_]; [contradiction|].
  rewrite RF. reflexivity.
Qed.
Print Assumptions C107_unreadable.
(** C107. Reading a list of lengths: with messages as without (the pattern of a dashed line). *)
Theorem C107_same_strokes : forall (W : world) (E : env) (e : list expr) (s : stroke_style), erase (stroke_style_read_said W E e s) = stroke_style_read W E e s.
Proof. exact stroke_same. Qed.
Print Assumptions C107_same_strokes.

(** Cases. *)
Example C107_option_case :
  run_said [(s_ "a", fun e (s : nat) => rbind (expr_to_switch_said e) (fun _ => Good (S s)))] [EList [ELit (s_ "a"); ELit (s_ "on")]; EList [ELit (s_ "b")]] 0%nat = Says (s_ "invalid command: 'b'") [].
Proof. reflexivity. Qed.
Example C107_placement_case : forall stod, configure_layout_said stod [EList [ELit (s_ "linear-interval"); ELit (s_ "1")]] =
  Says (s_ "invalid number of arguments for 'linear-interval'; expected three, got: 1") [].
Proof. reflexivity. Qed.
