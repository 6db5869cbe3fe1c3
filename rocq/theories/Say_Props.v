(** C107: error messages. *)
From Coq Require Import Reals ZArith Lia Permutation.
From Verif Require Import Base Dec Num Sexpr_Model Dispatch_Model Dispatch_Spec Data_Model Scale_Model Units_Model Color_Model Geo_Model Svg_Model Format_Model Cmd_Model Style_Model
  Plist_Model Plist_Spec Plist_Proofs Plist_Props Plot_Model Eval_Model Eval_Spec TimeText_Spec Say_Model Say_Model2 Say_Spec Say_Proofs.

(* ---------------- the walk ---------------- *)
Section Walk.
  Context {S : Type}.
  Variable fns : str -> option (list expr -> S -> S * reply unit).
  (** A command that is known and succeeds. *)
  Definition does (x : expr) (s s' : S) : Prop :=
    exists w args name f, x = EList (w :: args) /\ word_of w = Some name /\ fns name = Some f /\ f args s = (s', Good tt).
  Inductive all_do : list expr -> S -> S -> Prop :=
  | ad_nil s : all_do [] s s
  | ad_cons x r s s1 s2 : does x s s1 -> all_do r s1 s2 -> all_do (x :: r) s s2.
  (** What is wrong with an element, what is said about it, and in which commands it is. *)
  Inductive complaint (x : expr) (s s' : S) (m : str) (place : list expr) : Prop :=
  | not_a_list : word_of x <> None -> s' = s -> m = s_ "expected a list, but got: " ++ inspect x -> place = [] -> complaint x s s' m place
  | no_name args : x = EList args -> (forall w r, args = w :: r -> word_of w = None) -> s' = s -> m = s_ "expected a literal, but got: " ++ as_shown args -> place = [] -> complaint x s s' m place
  | unknown w args name : x = EList (w :: args) -> word_of w = Some name -> fns name = None -> s' = s -> m = s_ "invalid command: '" ++ name ++ s_ "'" -> place = [] -> complaint x s s' m place
  | inside w args name f p : x = EList (w :: args) -> word_of w = Some name -> fns name = Some f -> f args s = (s', Says m p) -> place = p ++ [x] -> complaint x s s' m place.
End Walk.

Lemma value_word w args : value_of (w :: args) = word_of w.
Proof. now destruct w. Qed.
Lemma walk_complains {S} (fns : str -> option (list expr -> S -> S * reply unit)) l u t s s' m place :
  walk_said fns false l u t s = (s', Says m place) <-> exists pre x post s1, l = pre ++ x :: post /\ all_do fns pre s s1 /\ complaint fns x s1 s' m place.
Proof.
  revert u t s. induction l as [|x l IH]; intros u t s; cbn [walk_said].
  { split; [intro H; discriminate|]. intros (pre & x & post & s1 & E & _). destruct pre; discriminate. }
  destruct x as [args|v|v]; cbn [walk_said].
  2,3: split.
  2: (intro H; injection H as <- <- <-; exists [], (ELit v), l, s; (split; [reflexivity|]); (split; [constructor|]); now apply not_a_list).
  3: (intro H; injection H as <- <- <-; exists [], (EVal v), l, s; (split; [reflexivity|]); (split; [constructor|]); now apply not_a_list).
  2,3: intros (pre & x & post & s1 & E & A & C); destruct pre as [|y pre]; [|injection E as <- ->; inversion A as [|? ? ? ? ? (w & a & n & f & Q & _)]; discriminate];
    injection E as <- ->; inversion A; subst; inversion C; subst; try discriminate; reflexivity.
  destruct args as [|w args].
  { cbn [value_of]. split.
    - intro H. injection H as <- <- <-. exists [], (EList []), l, s. split; [reflexivity|]. split; [constructor|]. apply (no_name _ _ _ _ _ _ []); (reflexivity || discriminate).
    - intros (pre & x & post & s1 & E & A & C). destruct pre as [|y pre]; [|injection E as <- ->; inversion A as [|? ? ? ? ? (w & a & n & f & Q & _)]; discriminate].
      injection E as <- ->. inversion A; subst. inversion C as [N ? ? ?|a Q N ? ? ?|w a n Q|w a n f p Q]; subst; try discriminate; [now destruct N|]. injection Q as <-. reflexivity. }
  rewrite value_word. destruct (word_of w) as [k|] eqn:K.
  2:{ split.
      - intro H. injection H as <- <- <-. exists [], (EList (w :: args)), l, s. split; [reflexivity|]. split; [constructor|]. apply (no_name _ _ _ _ _ _ (w :: args)); try reflexivity.
        intros w0 r Q. injection Q as <- <-. exact K.
      - intros (pre & x & post & s1 & E & A & C). destruct pre as [|y pre].
        + injection E as <- ->. inversion A; subst. inversion C as [N ? ? ?|a Q N ? ? ?|w0 a n Q W|w0 a n f p Q W]; subst; try (injection Q as <- <-; congruence); [now destruct N|].
          injection Q as <-. reflexivity.
        + injection E as <- ->. inversion A as [|? ? ? ? ? (w0 & a & n & f & Q & W & _)]; subst. injection Q as <- <-. congruence. }
  destruct (fns k) as [f|] eqn:F.
  2:{ split.
      - intro H. injection H as <- <- <-. exists [], (EList (w :: args)), l, s. split; [reflexivity|]. split; [constructor|]. now apply (unknown _ _ _ _ _ _ w args k).
      - intros (pre & x & post & s1 & E & A & C). destruct pre as [|y pre].
        + injection E as <- ->. inversion A; subst. inversion C as [N ? ? ?|a Q N ? ? ?|w0 a n Q W F0 ? ? ?|w0 a n f p Q W F0]; subst.
          * now destruct N. * injection Q as <-. specialize (N w args eq_refl). congruence. * injection Q as <- <-. rewrite K in W. injection W as <-. reflexivity.
          * injection Q as <- <-. rewrite K in W. injection W as <-. congruence.
        + injection E as <- ->. inversion A as [|? ? ? ? ? (w0 & a & n & f & Q & W & F0 & _)]; subst. injection Q as <- <-. rewrite K in W. injection W as <-. congruence. }
  assert (Q0 : forall s0 r, (exists pre x post s1, EList (w :: args) :: l = pre ++ x :: post /\ all_do fns pre s s1 /\ complaint fns x s1 s' m place) -> f args s = (s0, r) ->
    match r with
    | Good _ => exists pre x post s1, l = pre ++ x :: post /\ all_do fns pre s0 s1 /\ complaint fns x s1 s' m place
    | Says m0 p => s' = s0 /\ m = m0 /\ place = p ++ [EList (w :: args)]
    | _ => False end).
  { intros s0 r (pre & x & post & s1 & E & A & C) R. destruct pre as [|y pre].
    - injection E as <- ->. inversion A; subst. inversion C as [N ? ? ?|a Q N ? ? ?|w0 a n Q W F0 ? ? ?|w0 a n f0 p Q W F0 R0 P0]; subst.
      + now destruct N. + injection Q as <-. specialize (N w args eq_refl). congruence. + injection Q as <- <-. rewrite K in W. injection W as <-. congruence.
      + injection Q as <- <-. rewrite K in W. injection W as <-. rewrite F in F0. injection F0 as <-. rewrite R in R0. injection R0 as -> ->. auto.
    - injection E as <- ->. inversion A as [|? ? ? s2 ? (w0 & a & n & f0 & Q & W & F0 & R0) A']; subst. injection Q as <- <-. rewrite K in W. injection W as <-. rewrite F in F0. injection F0 as <-.
      rewrite R in R0. injection R0 as <- ->. exists pre, x, post, s1. auto. }
  cbn [tl]. destruct (f args s) as [s0 r] eqn:R. destruct r as [[]|m0 p| | |].
  - rewrite IH. split; [|intro H; apply (Q0 s0 _ H eq_refl)]. intros (pre & x & post & s1 & -> & A & C). exists (EList (w :: args) :: pre), x, post, s1. split; [reflexivity|]. split; [|exact C].
    apply (ad_cons _ _ _ _ s0); [|exact A]. now exists w, args, k, f.
  - split.
    + intro H. injection H as <- <- <-. exists [], (EList (w :: args)), l, s. split; [reflexivity|]. split; [constructor|]. now apply (inside _ _ _ _ _ _ w args k f p).
    + intro H. destruct (Q0 _ _ H eq_refl) as (-> & -> & ->). reflexivity.
  - split; [discriminate|]. intro H. destruct (Q0 _ _ H eq_refl).
  - split; [discriminate|]. intro H. destruct (Q0 _ _ H eq_refl).
  - split; [discriminate|]. intro H. destruct (Q0 _ _ H eq_refl).
Qed.
(** C107. Of a list of commands the error is about the first element that is wrong: everything
    before it was a known command and has succeeded. The message shows the element itself when it
    is not a command, gives the name of a command that is not known, and is otherwise that of the
    command; the commands around the fault are recorded from the inside to the outside. *)
Theorem C107_first : forall (S : Type) (fns : str -> option (list expr -> S -> S * reply unit)) (l : list expr) (s s' : S) (m : str) (place : list expr),
  expr_walk_map_said fns false l s = (s', Says m place) <->
  exists pre x post s1, l = pre ++ x :: post /\ all_do fns pre s s1 /\ complaint fns x s1 s' m place.
Proof. intros S fns l s s' m place. exact (walk_complains fns l [] [] s s' m place). Qed.
Print Assumptions C107_first.
(** C107. The messages change nothing: without them the walk is that of C05, and the tool that of
    C87 and C106. *)
Theorem C107_same_walk : forall (S : Type) (fns : str -> option (list expr -> S -> S * reply unit)) (collect : bool) (l : list expr) (s : S),
  polite fns -> expr_walk_map (plain_fns fns) collect l s = (fst (expr_walk_map_said fns collect l s), erase (snd (expr_walk_map_said fns collect l s))).
Proof. intros. now apply walk_same. Qed.
Print Assumptions C107_same_walk.
Theorem C107_same_tool : forall (W : world) (U : unsaid) (version : str) (defaults : outcome font) (stdin : str) (o : os) (opts : list opt) (args : list str),
  (let* x := main_said W U version defaults stdin o opts args in Ret (fst x)) = main_ W version defaults stdin o opts args.
Proof. exact main_same. Qed.
Print Assumptions C107_same_tool.

Definition nested_fns (k : str) : option (list expr -> list str -> list str * reply unit) :=
  if str_eqb k (s_ "note") then Some (fun e s => (s ++ [s_ "note"], Good tt))
  else if str_eqb k (s_ "on") then Some (fun e s => (s, match expr_to_switch_said e with Good _ => Good tt | Says m p => Says m p | _ => Throws end)) else None.
Definition outer_fns (k : str) : option (list expr -> list str -> list str * reply unit) :=
  if str_eqb k (s_ "group") then Some (fun e s => let '(s', r) := expr_walk_map_said nested_fns false e s in (s', match r with Good _ => Good tt | Says m p => Says m p | _ => Throws end)) else nested_fns k.
Example C107_first_case :
  let inner := EList [ELit (s_ "on"); ELit (s_ "maybe")] in
  let outer := EList [ELit (s_ "group"); EList [ELit (s_ "note")]; inner; EList [ELit (s_ "note")]] in
  expr_walk_map_said outer_fns false [EList [ELit (s_ "note")]; outer; EList [ELit (s_ "no")]] [] =
    ([s_ "note"; s_ "note"], Says (s_ "argument error; expected 'on' or 'off', got: maybe") [inner; outer]).
Proof. reflexivity. Qed.

(* ---------------- what is listed is what is accepted ---------------- *)
Lemma quoted_join l : quoted_list l (join_ (map quoted l) (s_ ", ")).
Proof.
  induction l as [|v [|w r] IH]; [constructor|apply ql_one|]. change (join_ (map quoted (v :: w :: r)) (s_ ", ")) with (quoted v ++ s_ ", " ++ join_ (map quoted (w :: r)) (s_ ", ")).
  unfold quoted at 1. rewrite <- !app_assoc. cbn [app]. change ("'"%char :: ","%char :: " "%char :: ?t) with (s_ "', " ++ t). apply ql_more. exact IH.
Qed.
Lemma lines_concat l : line_list l (concat (map bullet l)).
Proof. induction l as [|v r IH]; [constructor|]. cbn [map concat]. unfold bullet at 1. rewrite <- !app_assoc. now constructor. Qed.
Lemma invalid_value_says {A} v l (r : reply A) m t : r = err_invalid_value v l -> r = Says m t -> names_values m v l.
Proof. intros -> H. injection H as <- _. exists (join_ (map quoted l) (s_ ", ")). split; [apply quoted_join|reflexivity]. Qed.
Lemma assoc_in {T} k (l : list (str * T)) : assoc k l <> None <-> In k (map fst l).
Proof.
  induction l as [|[n v] l IH]; [cbn; intuition congruence|]. cbn [assoc map fst In]. destruct (str_eqb_spec k n) as [->|N]; [split; [now left|discriminate]|].
  rewrite IH. intuition congruence.
Qed.
Lemma in_perm {A} (a b : list A) : Permutation a b -> forall x, In x a <-> In x b.
Proof. intros P x. split; apply Permutation_in; [exact P|now symmetry]. Qed.
(** C107. A paper size that is not known: the message gives its name and the names that would
    have been accepted, all of them and no others. *)
Theorem C107_sizes : forall (sizes : list str) (l l' : layer) (name m : str) (t : list expr),
  Permutation sizes (map fst paper_sizes) -> layer_resize_paper_said sizes l name = (l', Says m t) ->
  names_values m name sizes /\ l' = l /\ forall n, In n sizes <-> exists l1, layer_resize_paper l n = (l1, Ret tt).
Proof.
  intros sizes l l' name m t P H. unfold layer_resize_paper_said in H. destruct (assoc name paper_sizes) as [[w h]|]; [discriminate|].
  injection H as <- Hm Ht. split; [|split; [reflexivity|]].
  - exists (join_ (map quoted sizes) (s_ ", ")). split; [apply quoted_join|]. exact (eq_sym Hm).
  - intro n. rewrite (in_perm _ _ P n), <- assoc_in. unfold layer_resize_paper. destruct (assoc n paper_sizes) as [[w h]|]; split.
    + intros _. eexists. reflexivity. + intros _. discriminate. + intro Q. now destruct Q. + intros [l1 Q]. discriminate.
Qed.
Print Assumptions C107_sizes.
Example C107_sizes_case : exists m t, layer_resize_paper_said (map fst paper_sizes) layer0 (s_ "A9") = (layer0, Says m t).
Proof. eexists. eexists. reflexivity. Qed.
