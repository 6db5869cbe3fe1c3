From Coq Require Import Reals.
From Verif Require Import Base Num Sexpr_Model Dispatch_Model Dispatch_Spec Data_Model Scale_Model Geo_Model
  Cmd_Model Cmd_Spec.

Lemma bind_ret {A B} (m : outcome A) (k : A -> outcome B) r :
  bind m k = Ret r <-> exists a, m = Ret a /\ k a = Ret r.
Proof.
  destruct m; cbn; split; try discriminate; try (intros (a0 & X & Y); congruence). intro H; eauto.
Qed.

(** Taking a successful computation apart. *)
Ltac inv_bind H :=
  match type of H with
  | bind _ _ = Ret _ =>
      let x := fresh "v" in let A := fresh "A" in
      apply bind_ret in H; destruct H as (x & A & H)
  end.

Lemma option_of_command e k a : option_of e = Some (k, a) <-> command e k a.
Proof.
  split.
  - destruct e as [[|[l|v|v] r]|v|v]; cbn; try discriminate; intro H; injection H as <- <-; constructor.
  - intros [? ?|? ?]; reflexivity.
Qed.

Section Run.
  Context {S : Type}.
  Variable fns : list (str * cmd S).
  Notation wx := (walkx fns).

  Lemma walkx_state c l : forall u t u' t' s,
    (let* (s', _) := wx c l u t s in Ret s') = (let* (s', _) := wx c l u' t' s in Ret s').
  Proof.
    induction l as [|e l IH]; intros; [reflexivity|]. cbn [walkx].
    destruct e as [args| |]; try reflexivity. destruct (value_of args); [|reflexivity].
    destruct (assoc s0 fns) as [f|].
    - destruct (f (tl args) s); cbn [bind]; auto.
    - destruct c; auto.
  Qed.

  Lemma run_nil s : run fns [] s = Ret s.
  Proof. reflexivity. Qed.
  Lemma run_cons e l s : run fns (e :: l) s =
    match option_of e with
    | None => Err
    | Some (k, a) => match assoc k fns with Some f => let* s' := f a s in run fns l s' | None => Err end
    end.
  Proof.
    unfold run. cbn [walkx]. destruct e as [[|[x|k|k] a]| |]; try reflexivity; cbn [value_of option_of tl];
      (destruct (assoc k fns) as [f|]; [|reflexivity]; destruct (f a s); reflexivity).
  Qed.
  Lemma options_nil s : options fns [] s = Ret s.
  Proof. reflexivity. Qed.
  Lemma options_cons e l s : options fns (e :: l) s =
    match option_of e with
    | None => Err
    | Some (k, a) => match assoc k fns with Some f => let* s' := f a s in options fns l s' | None => options fns l s end
    end.
  Proof.
    unfold options, run_collect. cbn [walkx]. destruct e as [[|[x|k|k] a]| |]; try reflexivity; cbn [value_of option_of tl];
      (destruct (assoc k fns) as [f|];
       [destruct (f a s); cbn [bind]; try reflexivity; apply walkx_state
       |apply walkx_state]).
  Qed.
  Lemma options_app l1 l2 : forall s, options fns (l1 ++ l2) s = let* s1 := options fns l1 s in options fns l2 s1.
  Proof.
    induction l1 as [|e l IH]; intro s; [reflexivity|]. cbn [app]. rewrite !options_cons.
    destruct (option_of e) as [[k a]|]; [|reflexivity]. destruct (assoc k fns) as [f|]; [|apply IH].
    destruct (f a s); cbn [bind]; auto.
  Qed.
  Lemma run_app l1 l2 : forall s, run fns (l1 ++ l2) s = let* s1 := run fns l1 s in run fns l2 s1.
  Proof.
    induction l1 as [|e l IH]; intro s; [reflexivity|]. cbn [app]. rewrite !run_cons.
    destruct (option_of e) as [[k a]|]; [|reflexivity]. destruct (assoc k fns) as [f|]; [|reflexivity].
    destruct (f a s); cbn [bind]; auto.
  Qed.
  (** A successful strict run is a run of the options. *)
  Lemma run_options l : forall s s', run fns l s = Ret s' -> options fns l s = Ret s'.
  Proof.
    induction l as [|e l IH]; intros s s' H; [exact H|]. rewrite run_cons in H. rewrite options_cons.
    destruct (option_of e) as [[k a]|]; [|discriminate]. destruct (assoc k fns) as [f|]; [|discriminate].
    inv_bind H. rewrite A. cbn [bind]. auto.
  Qed.
  Lemma run_known l : forall s s', run fns l s = Ret s' ->
    Forall (fun e => exists k a f, option_of e = Some (k, a) /\ assoc k fns = Some f) l.
  Proof.
    induction l as [|e l IH]; intros s s' H; constructor; rewrite run_cons in H.
    - destruct (option_of e) as [[k a]|]; [|discriminate]. destruct (assoc k fns) as [f|] eqn:F; [|discriminate].
      eauto.
    - destruct (option_of e) as [[k a]|]; [|discriminate]. destruct (assoc k fns) as [f|]; [|discriminate].
      inv_bind H. eauto.
  Qed.
  Lemma run_unknown l1 e l2 k a s : option_of e = Some (k, a) -> assoc k fns = None ->
    (forall s1, run fns l1 s = Ret s1 -> run fns (l1 ++ e :: l2) s = Err).
  Proof.
    intros O N s1 H. rewrite run_app, H. cbn [bind]. now rewrite run_cons, O, N.
  Qed.

  Lemma assoc_In {T} k (l : list (str * T)) f : assoc k l = Some f -> In (k, f) l.
  Proof.
    induction l as [|[k' g] l IH]; cbn [assoc]; [discriminate|].
    destruct (str_eqb_spec k k') as [->|]; intro H; [injection H as ->; now left|right; auto].
  Qed.

  (** An invariant of the options. *)
  Lemma options_inv (P : S -> Prop) l :
    (forall k f, In (k, f) fns -> forall a s s', P s -> f a s = Ret s' -> P s') ->
    forall s s', P s -> options fns l s = Ret s' -> P s'.
  Proof.
    intros Step. induction l as [|e l IH]; intros s s' Hs H.
    - injection H as <-. exact Hs.
    - rewrite options_cons in H. destruct (option_of e) as [[k a]|]; [|discriminate].
      destruct (assoc k fns) as [f|] eqn:F; [|eauto]. inv_bind H.
      eapply IH; [|exact H]. eapply Step; eauto using assoc_In.
  Qed.
  (** A preorder that every option respects. *)
  Lemma options_rel (Q : S -> S -> Prop) l :
    (forall s, Q s s) -> (forall a b c, Q a b -> Q b c -> Q a c) ->
    (forall k f, In (k, f) fns -> forall a s s', f a s = Ret s' -> Q s s') ->
    forall s s', options fns l s = Ret s' -> Q s s'.
  Proof.
    intros Rf Tr Step. induction l as [|e l IH]; intros s s' H.
    - injection H as <-. apply Rf.
    - rewrite options_cons in H. destruct (option_of e) as [[k a]|]; [|discriminate].
      destruct (assoc k fns) as [f|] eqn:F; [|eauto]. inv_bind H.
      apply Tr with v; [exact (Step _ _ (assoc_In _ _ _ F) _ _ _ A)|eauto].
  Qed.
End Run.

(** The table [fns] acts on the part [g] of the state like the table [sub]. *)
Definition entry_projects {S T} (g : S -> T) (sub : list (str * cmd T)) (kf : str * cmd S) : Prop :=
  forall a s s', snd kf a s = Ret s' ->
    match assoc (fst kf) sub with Some h => h a (g s) = Ret (g s') | None => g s' = g s end.
Definition projects {S T} (g : S -> T) (fns : list (str * cmd S)) (sub : list (str * cmd T)) : Prop :=
  Forall (entry_projects g sub) fns.
Lemma assoc_none_keys {T} k (l : list (str * T)) : assoc k l = None <-> ~ In k (map fst l).
Proof.
  induction l as [|[k' v] l IH]; cbn [assoc map fst In]; [tauto|].
  destruct (str_eqb_spec k k') as [->|N]; [|rewrite IH; intuition].
  split; [discriminate|]. intro H. exfalso; apply H; now left.
Qed.
Lemma options_proj {S T} (g : S -> T) fns sub : projects g fns sub -> incl (map fst sub) (map fst fns) ->
  forall l s s', options fns l s = Ret s' -> options sub l (g s) = Ret (g s').
Proof.
  intros P I. induction l as [|e l IH]; intros s s' H.
  - injection H as <-. reflexivity.
  - rewrite options_cons. rewrite options_cons in H. destruct (option_of e) as [[k a]|]; [|discriminate].
    destruct (assoc k fns) as [f|] eqn:F.
    + inv_bind H. unfold projects in P. rewrite Forall_forall in P.
      specialize (P _ (assoc_In k fns f F) _ _ _ A). cbn [fst] in P.
      destruct (assoc k sub) as [h|]; [rewrite P; cbn [bind]|rewrite <- P]; auto.
    + replace (assoc k sub) with (@None (cmd T)); [auto|]. symmetry. apply assoc_none_keys.
      apply assoc_none_keys in F. intro X. apply F, I, X.
Qed.
Lemma run_proj {S T} (g : S -> T) fns sub : projects g fns sub ->
  forall l s s', run fns l s = Ret s' -> options sub l (g s) = Ret (g s').
Proof.
  intros P. induction l as [|e l IH]; intros s s' H.
  - injection H as <-. reflexivity.
  - rewrite run_cons in H. rewrite options_cons. destruct (option_of e) as [[k a]|]; [|discriminate].
    destruct (assoc k fns) as [f|] eqn:F; [|discriminate].
    inv_bind H. unfold projects in P. rewrite Forall_forall in P.
    specialize (P _ (assoc_In k fns f F) _ _ _ A). cbn [fst] in P.
    destruct (assoc k sub) as [h|]; [rewrite P; cbn [bind]|rewrite <- P]; auto.
Qed.

(** One option that overwrites: the last one counts. *)
Lemma options_last {T} (k : str) (rd : list expr -> outcome T) l : forall s s',
  options [(k, fun a (_ : T) => rd a)] l s = Ret s' ->
  match last_args k l with Some a => rd a = Ret s' | None => s' = s end.
Proof.
  induction l as [|e l IH]; intros s s' H.
  - injection H as <-. reflexivity.
  - rewrite options_cons in H. cbn [last_args]. destruct (option_of e) as [[k' a]|]; [|discriminate].
    cbn [assoc] in H. destruct (str_eqb_spec k' k) as [->|N].
    + inv_bind H. apply IH in H. destruct (last_args k l); [exact H|]. congruence.
    + apply IH in H. destruct (last_args k l); exact H.
Qed.
Lemma options_last_upd {T} (k : str) (rd : list expr -> outcome T) l s s' :
  options [(k, upd rd (fun v (_ : T) => v))] l s = Ret s' ->
  match last_args k l with Some a => rd a = Ret s' | None => s' = s end.
Proof.
  intro H. apply options_last. revert s s' H. induction l as [|e l IH]; intros s s' H; [exact H|].
  rewrite options_cons in *. destruct (option_of e) as [[k' a]|]; [|discriminate]. cbn [assoc] in *.
  destruct (str_eqb k' k); [|auto]. unfold upd in H. inv_bind H. inv_bind A. injection A as <-.
  rewrite A0. cbn [bind]. auto.
Qed.
(** No option of the table occurs. *)
Lemma options_absent {S} (tbl : list (str * cmd S)) l : Forall (fun e => option_of e <> None) l ->
  (forall k, In k (map fst tbl) -> last_args k l = None) -> forall s, options tbl l s = Ret s.
Proof.
  induction 1 as [|e l C F IH]; intros N s; [reflexivity|]. rewrite options_cons.
  destruct (option_of e) as [[k a]|] eqn:O; [|congruence].
  assert (NL : forall k', In k' (map fst tbl) -> last_args k' l = None /\ k <> k').
  { intros k' I. specialize (N k' I). cbn [last_args] in N. rewrite O in N. destruct (last_args k' l); [discriminate|].
    split; [reflexivity|]. intros ->. now rewrite str_eqb_refl in N. }
  replace (assoc k tbl) with (@None (cmd S)).
  - apply IH. intros k' I. now apply NL.
  - symmetry. apply assoc_none_keys. intro I. now destruct (NL k I).
Qed.

(** The tactic for a table against its part. *)
Ltac look :=
  match goal with
  | |- context [assoc ?k ?l] => let v := eval hnf in (assoc k l) in change (assoc k l) with v; cbv iota beta
  end.
Ltac split_binds :=
  repeat match goal with
         | H : bind _ _ = Ret _ |- _ => let x := fresh "v" in let A := fresh "A" in
             apply bind_ret in H; destruct H as (x & A & H)
         | H : Ret _ = Ret _ |- _ => injection H as H
         | H : (let '(_, _) := ?x in _) = Ret _ |- _ => destruct x
         end.
Ltac one_entry :=
  let a := fresh "a" in let s := fresh "s" in let s' := fresh "s'" in let H := fresh "H" in
  intros a s s' H; cbn [fst snd] in *; look;
  cbv [upd updf call_each app] in *; split_binds; subst;
  repeat match goal with A : ?x = Ret ?p, B : ?x = Ret ?q |- _ =>
           let X := fresh in assert (X : q = p) by congruence; clear B; try (subst q || (injection X; intros; subst)) end;
  try match goal with A : _ = Ret _ |- _ = Ret _ => exact A end;
  repeat match goal with A : _ = Ret _ |- _ => rewrite A; cbn [bind]; clear A end;
  try reflexivity;
  try (repeat match goal with
              | A : ?l = Ret _ |- bind ?g _ = _ => change g with l; rewrite A; cbn [bind]; clear A
              end; reflexivity).
Ltac projection := unfold projects; repeat (apply Forall_cons; [one_entry|]); try apply Forall_nil.

(* ---------------- loops ---------------- *)
Lemma forM_ok {A B} (f : A -> outcome B) l r : forM f l = Ret r <-> Forall2 (fun a b => f a = Ret b) l r.
Proof.
  revert r. induction l as [|a l IH]; intro r; cbn [forM].
  - split; [intro H; injection H as <-; constructor|inversion 1; reflexivity].
  - split.
    + intro H. inv_bind H. inv_bind H. injection H as <-. constructor; [assumption|now apply IH].
    + inversion 1; subst. rewrite H2. cbn [bind]. apply IH in H4. now rewrite H4.
Qed.
Lemma forM_length {A B} (f : A -> outcome B) l r : forM f l = Ret r -> length r = length l.
Proof. intro H. apply forM_ok in H. induction H; cbn; auto. Qed.
Lemma draw_each_ok {A B} (f : A -> outcome (list B)) l r :
  draw_each f l = Ret r <-> exists rs, Forall2 (fun a b => f a = Ret b) l rs /\ r = concat rs.
Proof.
  revert r. induction l as [|a l IH]; intro r; cbn [draw_each].
  - split; [intro H; injection H as <-; exists []; split; [constructor|reflexivity]|].
    intros (rs & F & ->). inversion F; reflexivity.
  - split.
    + intro H. inv_bind H. inv_bind H. injection H as <-. apply IH in A1 as (rs & F & ->).
      exists (v :: rs). split; [now constructor|reflexivity].
    + intros (rs & F & ->). inversion F; subst. rewrite H1. cbn [bind].
      rewrite (proj2 (IH (concat l'))) by eauto. reflexivity.
Qed.
(** A loop over the indices of two columns. *)
Lemma at_ok {A} (l : list A) i a : at_ l i = Ret a <-> nth_error l i = Some a.
Proof. unfold at_. destruct (nth_error l i); split; intro H; congruence. Qed.
