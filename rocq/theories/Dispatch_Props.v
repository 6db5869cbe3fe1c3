(** Property theorems for keyword dispatch and argument conversion: C05, C06. *)
From Verif Require Import Base Sexpr_Model Dispatch_Model Dispatch_Spec Dispatch_Proofs.


(** C05. Success: exactly when every element is a command that was run, in order, by its
    own handler, each successful. [collect = false] is strict mode. *)
Theorem C05_walk_success : forall (S : Type) (fns : str -> option (list expr -> S -> S * bool))
    (collect : bool) (l : list expr) (s s' : S),
  (exists r, expr_walk_map fns collect l s = (s', Ret r)) <-> runs fns collect l s s'.
Proof.
  exact (fun S fns collect l s s' =>
    conj (fun '(ex_intro _ r H) => proj1 (proj1 (walk_ok fns collect l [] [] s s' r) H))
         (fun H => ex_intro _ _ (proj2 (walk_ok fns collect l [] [] s s' _) (conj H eq_refl)))).
Qed.
Print Assumptions C05_walk_success.

(** C05. Failure: exactly when a prefix ran successfully and the next element is at fault;
    the state is the one that element left, so nothing behind it was run. *)
Theorem C05_walk_failure : forall (S : Type) (fns : str -> option (list expr -> S -> S * bool))
    (collect : bool) (l : list expr) (s s' : S),
  expr_walk_map fns collect l s = (s', Err) <->
  exists pre e post s1, l = pre ++ e :: post /\ runs fns collect pre s s1 /\
    culprit fns collect e s1 s'.
Proof. exact (fun S fns collect l s s' => walk_err fns collect l [] [] s s'). Qed.
Print Assumptions C05_walk_failure.

(** C05. Nothing else can happen (no crash, no exception). *)
Theorem C05_walk_total : forall (S : Type) (fns : str -> option (list expr -> S -> S * bool))
    (collect : bool) (l : list expr) (s : S),
  (exists s' r, expr_walk_map fns collect l s = (s', Ret r)) \/
  (exists s', expr_walk_map fns collect l s = (s', Err)).
Proof. exact (fun S fns collect l s => walk_total fns collect l [] [] s). Qed.
Print Assumptions C05_walk_total.

(** C05. A list of commands in parentheses: strictly, every command must be known; otherwise unknown
    ones are left out. Anything but a list is an error. *)
Theorem C05_wrapped : forall (S : Type) (fns : str -> option (list expr -> S -> S * bool))
    (strict : bool) (l : list expr) (s s' : S),
  ((exists r, expr_walk_map_wrapped fns strict l s = (s', Ret r)) <->
   exists items rest, l = EList items :: rest /\ runs fns (negb strict) items s s') /\
  ((forall items rest, l <> EList items :: rest) -> expr_walk_map_wrapped fns strict l s = (s, Err)).
Proof.
  intros S fns strict l s s'. destruct l as [|[items|v|v] rest]; cbn [expr_walk_map_wrapped]; split.
  1,5,7: split; [intros [r H]; discriminate|intros (i & r & H & _); discriminate].
  1,4,5: reflexivity.
  - rewrite C05_walk_success. split; [intro H; eauto|]. intros (i & r & H & K). injection H as <- _. exact K.
  - intro H. exfalso. now apply (H items rest).
Qed.
Print Assumptions C05_wrapped.
Example C05_wrapped_example : let fns := fun _ : str => @None (list expr -> nat -> nat * bool) in
  expr_walk_map_wrapped fns true [EList [EList [EVal (s_ "x")]]] 0 = (0, Err) /\
  exists r, expr_walk_map_wrapped fns false [EList [EList [EVal (s_ "x")]]] 0 = (0, Ret r).
Proof. split; [reflexivity|eexists; reflexivity]. Qed.

Definition demo_fns (k : str) : option (list expr -> list str -> list str * bool) :=
  if str_eqb k (s_ "log") then Some (fun args s => (s ++ [s_ "log"], true))
  else if str_eqb k (s_ "fail") then Some (fun args s => (s ++ [s_ "fail"], false)) else None.

Example C05_example : expr_walk_map demo_fns true
   [EList [ELit (s_ "log")]; EList [ELit (s_ "other")]; EList [ELit (s_ "fail")]; EList [ELit (s_ "log")]] []
   = ([s_ "log"; s_ "fail"], Err).
Proof. reflexivity. Qed.

(** C05, the collected remainder, exact: the unhandled elements up to the last one, and
    then EVERY element behind the last unhandled one, handled or not. *)
Theorem C05_walk_collects_partial : forall (S : Type) (fns : str -> option (list expr -> S -> S * bool))
    (l1 : list expr) (e : expr) (l2 : list expr) (s s' : S) (r : list expr),
  unknown fns e = true -> forallb (fun x => negb (unknown fns x)) l2 = true ->
  expr_walk_map fns true (l1 ++ e :: l2) s = (s', Ret r) ->
  r = filter (unknown fns) l1 ++ e :: l2.
Proof. exact (fun S fns l1 e l2 s s' r => walk_collects_exact fns l1 e l2 s s' r). Qed.
Print Assumptions C05_walk_collects_partial.

(** C05, "collected and nothing else is" fails: a handled command behind the last unhandled
    one is handed to the caller as unhandled as well. *)
Theorem C05_collect_only_unknown_refuted :
  exists l s' r, expr_walk_map demo_fns true l [] = (s', Ret r) /\ r <> filter (unknown demo_fns) l /\
    In (EList [ELit (s_ "log")]) r /\ s' = [s_ "log"].
Proof.
  exists [EList [ELit (s_ "other")]; EList [ELit (s_ "log")]], [s_ "log"],
         [EList [ELit (s_ "other")]; EList [ELit (s_ "log")]].
  repeat split; [discriminate|right; left; reflexivity].
Qed.
Print Assumptions C05_collect_only_unknown_refuted.

(** C05, the variant expr_walk_tmap stops silently behind a command without arguments. *)
Theorem C05_walk_tmap_refuted :
  exists l, expr_walk_tmap demo_fns true l [] = ([s_ "log"], Ret tt) /\
    l = [EList [ELit (s_ "log")]; EList [ELit (s_ "fail")]].
Proof. eexists; split; [|reflexivity]. reflexivity. Qed.
Print Assumptions C05_walk_tmap_refuted.

(** C06. String lists: success iff every argument is a value; the result is exactly the
    values in order, whatever was stored before. *)
Theorem C06_strings : forall (e : list expr) (old vs : list str),
  expr_to_strings e old = (vs, Ret tt) <-> Forall2 (fun v x => x = ELit v \/ x = EVal v) vs e.
Proof. exact strings_ok. Qed.
Print Assumptions C06_strings.

Example C06_strings_example : expr_to_strings [ELit (s_ "a"); EVal []] [s_ "old"] = ([s_ "a"; []], Ret tt).
Proof. reflexivity. Qed.

(** C06. Switches. *)
Theorem C06_switch : forall (e : list expr) (b : bool),
  expr_to_switch e = Ret b <->
  exists x r, e = x :: r /\
    (x = ELit (s_ (if b then "on" else "off")) \/ x = EVal (s_ (if b then "on" else "off"))).
Proof. exact switch_ok. Qed.
Print Assumptions C06_switch.

Theorem C06_switch_total : forall e, (exists b, expr_to_switch e = Ret b) \/ expr_to_switch e = Err.
Proof. exact switch_total. Qed.
Print Assumptions C06_switch_total.

(** C06. Enumerations, for any table with distinct keys. *)
Theorem C06_enum : forall (T : Type) (defs : list (str * T)) (e : list expr) (x : T),
  NoDup (map fst defs) ->
  (expr_to_enum defs e = Ret x <->
   exists v y r, e = y :: r /\ (y = ELit v \/ y = EVal v) /\ In (v, x) defs).
Proof. exact (fun T defs e x => enum_ok defs e x). Qed.
Print Assumptions C06_enum.

Example C06_enum_example :
  NoDup (map fst [(s_ "a", 1); (s_ "b", 2)]) /\ expr_to_enum [(s_ "a", 1); (s_ "b", 2)] [ELit (s_ "b")] = Ret 2.
Proof. split; [repeat constructor; cbn; intuition discriminate|reflexivity]. Qed.

(** C06. Number pairs: success iff exactly two numeric arguments, for any numeric reader. *)
Theorem C06_pair : forall (num : Type) (stod : str -> option (num * nat)) (e : list expr)
    (v1 v2 r1 r2 : option num),
  expr_to_float64_opt_pair stod e v1 v2 = ((r1, r2), Ret tt) <->
  exists a b s1 s2 q1 q2 n1 n2, e = [a; b] /\ (a = ELit s1 \/ a = EVal s1) /\
     (b = ELit s2 \/ b = EVal s2) /\ stod s1 = Some (q1, n1) /\ stod s2 = Some (q2, n2) /\
     r1 = Some q1 /\ r2 = Some q2.
Proof. exact (fun num => @pair_ok num). Qed.
Print Assumptions C06_pair.

(** C06. A number with a unit: success iff the first argument is a value whose text is a
    number followed by a known unit the caller converts (delivering the converted number),
    or the number zero without unit. *)
Theorem C06_number : forall (num Unit : Type) (zero : num) (is_zero : num -> bool)
    (stod : str -> option (num * nat)) (unit_parse : str -> option Unit)
    (conv : Unit -> option (num -> num)) (e : list expr) (x : num),
  expr_to_number zero is_zero stod unit_parse conv e = Ret x <->
  exists a r s q n, e = a :: r /\ (a = ELit s \/ a = EVal s) /\ stod s = Some (q, n) /\
    ((n = length s /\ is_zero q = true /\ x = zero) \/
     (n <> length s /\ exists u f, unit_parse (skipn n s) = Some u /\ conv u = Some f /\ x = f q)).
Proof. exact (fun num Unit => @number_ok num Unit). Qed.
Print Assumptions C06_number.

(** C06. A two-component vector: success iff exactly two such numbers are given, each read
    with the conversion of its own axis. *)
Theorem C06_vec2 : forall (num Unit : Type) (zero : num) (is_zero : num -> bool)
    (stod : str -> option (num * nat)) (unit_parse : str -> option Unit)
    (conv_x conv_y : Unit -> option (num -> num)) (e : list expr) (old r : num * num),
  expr_to_vec2 zero is_zero stod unit_parse conv_x conv_y e old = (r, Ret tt) <->
  exists a b, e = [a; b] /\
    expr_to_number zero is_zero stod unit_parse conv_x [a] = Ret (fst r) /\
    expr_to_number zero is_zero stod unit_parse conv_y [b] = Ret (snd r).
Proof. exact (fun num Unit => @vec2_ok num Unit). Qed.
Print Assumptions C06_vec2.

(** A reader that knows "2cm" and "3cm", where cm doubles. *)
Example C06_vec2_example :
  expr_to_vec2 0 (Nat.eqb 0) (fun s => match s with c :: _ => Some (nat_of_ascii c - 48, 1) | [] => None end)
    (fun s => if str_eqb s (s_ "cm") then Some tt else None)
    (fun _ => Some (fun n => 2 * n)) (fun _ => Some (fun n => 5 * n))
    [EVal (s_ "2cm"); EVal (s_ "3cm")] (9, 9) = ((4, 15), Ret tt).
Proof. reflexivity. Qed.

(** C06. String sets: the members are the listed values plus what was there before. *)
Theorem C06_stringset_partial : forall (e : list expr) (old vs : list str) items rest,
  e = EList items :: rest -> expr_to_stringset e old = (vs, Ret tt) ->
  exists ws, Forall2 (fun v x => x = ELit v \/ x = EVal v) ws items /\
    forall v, In v vs <-> In v ws \/ In v old.
Proof. exact stringset_members. Qed.
Print Assumptions C06_stringset_partial.

(** C06, "no residue of a previous setting" fails for string sets. *)
Theorem C06_stringset_residue_refuted :
  exists e old vs, expr_to_stringset e old = (vs, Ret tt) /\ e = [EList [ELit (s_ "new")]] /\
    In (s_ "old") vs.
Proof. exists [EList [ELit (s_ "new")]], [s_ "old"]. eexists. repeat split. right; left; reflexivity. Qed.
Print Assumptions C06_stringset_residue_refuted.
