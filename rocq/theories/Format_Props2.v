(** C50: which format a label-format option chooses. *)
From Coq Require Import Reals.
From Flocq Require Import Core.
From Verif Require Import Base Num Sexpr_Model Dispatch_Model Data_Model Format_Model Cmd_Model Cmd_Spec Cmd_Proofs Style_Model Style_Spec Style_Props Demo.
Local Open Scope R_scope.

Section Spec.
  Variable d : R -> R.
  Variable stod : str -> option xr.
  Variable strftime : str -> Z -> str.
  Variable read_file : str -> option str.
  (** A text that is a number; its whole part must fit. *)
  Definition whole (bits : Z) (x : expr) (n : nat) : Prop :=
    exists v, stod (raw_value x) = Some v /\ to_unsigned bits v = Ret n.
  (** fixed, scientific (with the number of digits behind the point, or 1), datetime (with a
      format), base (with the base, and a precision that has no effect), integer, and custom with
      labels or with a data source. *)
  Inductive format_means (e : list expr) : formatter -> Prop :=
  | f_fixed1 : chosen ["fixed"%string] e [] -> format_means e (format_fixed stod 1)
  | f_fixed x p : chosen ["fixed"%string] e [x] -> whole 32 x p -> format_means e (format_fixed stod p)
  | f_sci1 : chosen ["scientific"%string] e [] -> format_means e (format_scientific d stod 1)
  | f_sci x p : chosen ["scientific"%string] e [x] -> whole 32 x p -> format_means e (format_scientific d stod p)
  | f_time1 : chosen ["datetime"%string] e [] -> format_means e (format_datetime d stod strftime (s_ "%Y-%m-%d %H:%M:%S"))
  | f_time x : chosen ["datetime"%string] e [x] -> format_means e (format_datetime d stod strftime (raw_value x))
  | f_base x b : chosen ["base"%string] e [x] -> whole 32 x b -> format_means e (format_base d stod b 1)
  | f_base2 x y b p : chosen ["base"%string] e [x; y] -> whole 32 x b -> whole 64 y p -> format_means e (format_base d stod b p)
  | f_integer : chosen ["integer"%string] e [] -> format_means e (format_integer stod)
  | f_custom w a r : word "custom" w -> e = EList (w :: a) :: r -> (forall l s, a <> EList l :: s) -> format_means e (format_custom (map raw_value a))
  | f_custom_data w a r l s vs : word "custom" w -> e = EList (w :: a) :: r -> a = EList l :: s ->
      data_load_strings read_file a [] = (vs, Ret tt) -> format_means e (format_custom vs).
End Spec.

Definition named (e : list expr) (n : string) (conf : list expr -> outcome formatter) (other : outcome formatter) : outcome formatter :=
  if Format_Model.is_word e (s_ n) then conf [] else match list_headed e (s_ n) with Some a => conf a | None => other end.

(** C50. A label format is accepted if and only if it is one of the documented ones with the
    right arguments, and is then the format of that name. *)
Theorem C50_choice : forall (d : R -> R) (stod : str -> option xr) (strftime : str -> Z -> str) (read_file : str -> option str) (e : list expr) (fm : formatter),
  format_configure d stod strftime read_file e = Ret fm <-> format_means d stod strftime read_file e fm.
Proof.
  intros d stod strftime read_file e fm.
  assert (N : forall n conf other, named e n conf other = Ret fm <->
    (exists a, chosen [n] e a /\ conf a = Ret fm) \/ ((forall a, ~ chosen [n] e a) /\ other = Ret fm)).
  { intros n conf other. unfold named. change (Format_Model.is_word e (s_ n)) with (is_word e n). change (list_headed e (s_ n)) with (list_of e n).
    assert (I : In n [n]) by now left.
    destruct (is_word e n) eqn:A; [|destruct (list_of e n) as [a|] eqn:B].
    - pose proof (chosen_word n [n] e I A) as C. split; [eauto|]. intros [(a & C' & H)|[Z _]]; [|now destruct (Z [])]. destruct (chosen_fun _ _ _ _ _ C C') as [<- _]. exact H.
    - pose proof (chosen_list n [n] e a I B) as C. split; [eauto|]. intros [(a' & C' & H)|[Z _]]; [|now destruct (Z a)]. destruct (chosen_fun _ _ _ _ _ C C') as [<- _]. exact H.
    - assert (Q : forall a, ~ chosen [n] e a). { intros a C. apply chosen_inv in C as (m & [<-|[]] & [[X _]|X]); congruence. }
      split; [auto|]. intros [(a & C & _)|[_ H]]; [now destruct (Q a)|exact H]. }
  assert (W : forall bits x n, number_arg stod bits x = Ret n <-> whole stod bits x n).
  { intros bits x n. unfold number_arg, whole. destruct (stod (raw_value x)); [|split; [discriminate|intros (v & Z & _); discriminate]].
    split; [eauto|]. intros (v & Z & H). injection Z as ->. exact H. }
  assert (P : forall a n, precision_args stod a = Ret n <-> (a = [] /\ n = 1%nat) \/ exists x, a = [x] /\ whole stod 32 x n).
  { intros a n. destruct a as [|x [|y a]]; cbn [precision_args].
    - split; [intro H; injection H as <-; auto|]. intros [[_ ->]|(x & Z & _)]; [reflexivity|discriminate].
    - rewrite W. split; [eauto|]. intros [[Z _]|(x' & Z & H)]; [discriminate|]. injection Z as <-. exact H.
    - split; [discriminate|]. intros [[Z _]|(x' & Z & H)]; discriminate. }
  assert (L : forall a, list_headed e (s_ "custom") = Some a <-> exists w r, word "custom" w /\ e = EList (w :: a) :: r).
  { intro a. change (list_headed e (s_ "custom")) with (list_of e "custom"). rewrite list_of_spec. split; intros (w & r & X & Y); eauto. }
  change (format_configure d stod strftime read_file e) with
    (named e "fixed" (fun a => let* p := precision_args stod a in Ret (format_fixed stod p))
      (named e "scientific" (fun a => let* p := precision_args stod a in Ret (format_scientific d stod p))
        (named e "datetime" (configure_datetime d stod strftime)
          (named e "base" (configure_base d stod)
            (named e "integer" (fun a => match a with [] => Ret (format_integer stod) | _ => Err end)
              (match list_headed e (s_ "custom") with Some args => configure_custom read_file args | None => Err end)))))).
  rewrite !N. clear N.
  assert (Dj : forall n m a b, n <> m -> chosen [n] e a -> chosen [m] e b -> False).
  { intros n m a b Q C1 C2. destruct (chosen_fun _ _ _ _ _ C1 C2) as (_ & x & [<-|[]] & [->|[]]). congruence. }
  assert (No : forall n m a, n <> m -> chosen [n] e a -> forall b, ~ chosen [m] e b) by (intros n m a Q C b C'; exact (Dj n m a b Q C C')).
  assert (Nc : forall w a r n, word "custom" w -> e = EList (w :: a) :: r -> n <> "custom"%string -> forall b, ~ chosen [n] e b).
  { intros w a r n X -> Q b C. apply (Dj "custom"%string n a b); [congruence| |exact C]. apply ch_list with "custom"%string; [now left|exact X]. }
  split.
  - intros [(a & C & H)|[_ [(a & C & H)|[_ [(a & C & H)|[_ [(a & C & H)|[_ [(a & C & H)|[_ H]]]]]]]]]].
    + inv_bind H. injection H as <-. apply P in A as [[-> ->]|(x & -> & X)]; [now apply f_fixed1|now apply f_fixed with x].
    + inv_bind H. injection H as <-. apply P in A as [[-> ->]|(x & -> & X)]; [now apply f_sci1|now apply f_sci with x].
    + unfold configure_datetime in H. destruct a as [|x [|y a]]; [injection H as <-; now apply f_time1|injection H as <-; now apply f_time|discriminate].
    + unfold configure_base in H. destruct a as [|x [|y [|z a]]]; try discriminate.
      * destruct (stod (raw_value x)) as [v|] eqn:S; [|discriminate]. inv_bind H. injection H as <-. apply f_base with x; [exact C|exists v; auto].
      * inv_bind H. apply W in A. destruct (stod (raw_value x)) as [u|] eqn:S; [|discriminate]. inv_bind H. injection H as <-. apply f_base2 with x y; [exact C|exists u; auto|exact A].
    + destruct a; [|discriminate]. injection H as <-. now apply f_integer.
    + destruct (list_headed e (s_ "custom")) as [a|] eqn:S; [|discriminate]. destruct (proj1 (L a) eq_refl) as (w & r & X & Y). unfold configure_custom in H.
      assert (Z : (exists l s, a = EList l :: s) \/ forall l s, a <> EList l :: s) by (destruct a as [|[l|v|v] s]; [right|left|right|right]; try discriminate; eauto).
      destruct Z as [(l & s & ->)|Z].
      * destruct (data_load_strings read_file (EList l :: s) []) as [vs o] eqn:D. inv_bind H. injection H as <-. destruct v. rewrite A in D. exact (f_custom_data d stod strftime read_file e w _ r l s vs X Y eq_refl D).
      * assert (fm = format_custom (map raw_value a)) as ->.
        { destruct a as [|[l|v|v] s]; [|now destruct (Z l s)| |]; match type of H with Ret ?x = Ret _ => assert (fm = x) by congruence; subst fm end; reflexivity. }
        exact (f_custom d stod strftime read_file e w a r X Y Z).
  - intro M. destruct M as [C|x p C X|C|x p C X|C|x C|x b C X|x y b p C X Y|C|w a r X Y Q|w a r l s vs X Y Q D].
    + left. exists []. split; [exact C|reflexivity].
    + left. exists [x]. split; [exact C|]. destruct X as (v & S & U). cbn [precision_args]. unfold number_arg. rewrite S, U. reflexivity.
    + right. split; [refine (No _ _ _ _ C); discriminate|]. left. exists []. split; [exact C|reflexivity].
    + right. split; [refine (No _ _ _ _ C); discriminate|]. left. exists [x]. split; [exact C|]. destruct X as (v & S & U). cbn [precision_args]. unfold number_arg. rewrite S, U. reflexivity.
    + do 2 (right; split; [refine (No _ _ _ _ C); discriminate|]). left. exists []. split; [exact C|reflexivity].
    + do 2 (right; split; [refine (No _ _ _ _ C); discriminate|]). left. exists [x]. split; [exact C|reflexivity].
    + do 3 (right; split; [refine (No _ _ _ _ C); discriminate|]). left. exists [x]. split; [exact C|]. destruct X as (v & S & U). cbn [configure_base]. rewrite S, U. reflexivity.
    + do 3 (right; split; [refine (No _ _ _ _ C); discriminate|]). left. exists [x; y]. split; [exact C|]. cbn [configure_base]. apply W in Y. rewrite Y. cbn [bind].
      destruct X as (v & S & U). rewrite S, U. reflexivity.
    + do 4 (right; split; [refine (No _ _ _ _ C); discriminate|]). left. exists []. split; [exact C|reflexivity].
    + do 5 (right; split; [apply (Nc w a r _ X Y); discriminate|]). assert (S : list_headed e (s_ "custom") = Some a) by (apply L; eauto). rewrite S.
      unfold configure_custom. destruct a as [|[l|v|v] s]; try reflexivity. now destruct (Q l s).
    + do 5 (right; split; [apply (Nc w a r _ X Y); discriminate|]). assert (S : list_headed e (s_ "custom") = Some a) by (apply L; eauto). rewrite S.
      unfold configure_custom. rewrite Q in *. rewrite D. reflexivity.
Qed.
Print Assumptions C50_choice.
(** (base 2), and a list of labels. *)
Example C50_choice_case :
  format_means exact (fun t => option_map fst (demo_stod t)) (fun _ _ => []) demo_files [EList [ELit (s_ "base"); ELit (s_ "2")]]
    (format_base exact (fun t => option_map fst (demo_stod t)) 2 1) /\
  format_means exact (fun t => option_map fst (demo_stod t)) (fun _ _ => []) demo_files [EList [ELit (s_ "custom"); ELit (s_ "a"); EVal (s_ "b c")]]
    (format_custom [s_ "a"; s_ "b c"]).
Proof.
  split.
  - apply f_base with (ELit (s_ "2")).
    + apply ch_list with "base"%string; [now left|now right].
    + eexists. split; [reflexivity|]. unfold to_unsigned. cbn. rewrite Ztrunc_IZR. reflexivity.
  - apply (f_custom _ _ _ _ _ (ELit (s_ "custom")) [ELit (s_ "a"); EVal (s_ "b c")] []); [now right|reflexivity|intros; discriminate].
Qed.
