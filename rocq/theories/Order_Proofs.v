(** Options about different things can be exchanged: the general argument. *)
From Coq Require Import Reals Permutation.
From Verif Require Import Base Num Sexpr_Model Dispatch_Model Data_Model Scale_Model Cmd_Model Cmd_Spec Cmd_Proofs Style_Model
  Svg_Model Order_Spec.
Local Open Scope string_scope.
Local Open Scope list_scope.

(** A thing of a state of type [S], with its name. *)
Record view (S : Type) := mk_view { v_name : string; v_type : Type; v_get : S -> v_type }.
Arguments mk_view {S} _ {_} _.
Arguments v_name {S}. Arguments v_type {S}. Arguments v_get {S}.

Fixpoint mem (n : string) (l : list string) : bool :=
  match l with [] => false | m :: r => if String.eqb n m then true else mem n r end.
Lemma mem_In n l : mem n l = true <-> In n l.
Proof.
  induction l as [|m l IH]; cbn [mem In]; [split; [discriminate|tauto]|].
  destruct (String.eqb_spec n m) as [->|N]; [tauto|]. rewrite IH. split; [tauto|]. intros [H|H]; [congruence|assumption].
Qed.

Section Views.
  Context {S : Type}.
  Variable V : list (view S).
  (** The same on the things of [A], and on those not in [A]. *)
  Fixpoint same_if (on : string -> bool) (V : list (view S)) (s t : S) : Prop :=
    match V with
    | [] => True
    | v :: r => (if on (v_name v) then v_get v s = v_get v t else True) /\ same_if on r s t
    end.
  Definition on (A : list string) (n : string) : bool := mem n A.
  Definition off (A : list string) (n : string) : bool := negb (mem n A).
  Lemma same_if_spec p W s t : same_if p W s t <-> forall v, In v W -> p (v_name v) = true -> v_get v s = v_get v t.
  Proof.
    induction W as [|v W IH]; cbn [same_if In]; [tauto|]. rewrite IH. split.
    - intros [H K] w [<-|I] P; [now rewrite P in H|auto].
    - intro H. split; [destruct (p (v_name v)) eqn:P; [apply H; auto|exact I]|]. intros w I P. apply H; auto.
  Qed.

  Record own (A : list string) (f : cmd S) : Prop := mk_own {
    own_off : forall a s v, f a s = Ret v -> same_if (off A) V s v;
    own_on : forall a s t v, same_if (on A) V s t -> f a s = Ret v ->
             exists w, f a t = Ret w /\ same_if (on A) V v w }.

  Lemma own_more A B f : (forall n, In n A -> In n B) -> own A f -> own B f.
  Proof.
    intros I [F L]. split.
    - intros a s v H. apply same_if_spec. intros x Ix P. apply (proj1 (same_if_spec _ _ _ _) (F _ _ _ H)); auto.
      unfold off in *. destruct (mem (v_name x) A) eqn:M; [|reflexivity]. apply mem_In, I, mem_In in M. now rewrite M in P.
    - intros a s t v Sm H. destruct (L a s t v) as [w [Hw K]]; [|exact H|].
      + apply same_if_spec. intros x Ix P. apply (proj1 (same_if_spec _ _ _ _) Sm); auto. unfold on in *. apply mem_In, I, mem_In, P.
      + exists w. split; [exact Hw|]. apply same_if_spec. intros x Ix P.
        destruct (mem (v_name x) A) eqn:M.
        * apply (proj1 (same_if_spec _ _ _ _) K); auto.
        * assert (P' : off A (v_name x) = true) by (unfold off; now rewrite M).
          pose proof (proj1 (same_if_spec _ _ _ _) (F _ _ _ H) x Ix P') as E1.
          pose proof (proj1 (same_if_spec _ _ _ _) (F _ _ _ Hw) x Ix P') as E2.
          pose proof (proj1 (same_if_spec _ _ _ _) Sm x Ix P) as E3. congruence.
  Qed.
  Lemma own_call A fs : Forall (own A) fs -> own A (call_each fs).
  Proof.
    induction 1 as [|f fs [F L] Fs [Fr Lr]]; (split; [|]).
    - intros a s v H. injection H as <-. apply same_if_spec. auto.
    - intros a s t v Sm H. injection H as <-. exists t. auto.
    - intros a s v H. cbn [call_each] in H. inv_bind H.
      pose proof (proj1 (same_if_spec _ _ _ _) (F _ _ _ A0)) as E1. pose proof (proj1 (same_if_spec _ _ _ _) (Fr _ _ _ H)) as E2.
      apply same_if_spec. intros x I P. rewrite (E1 x I P). auto.
    - intros a s t v Sm H. cbn [call_each] in H. inv_bind H. destruct (L _ _ _ _ Sm A0) as [w [Hw K]].
      destruct (Lr _ _ _ _ K H) as [w' [Hw' K']]. exists w'. split; [|exact K']. cbn [call_each]. rewrite Hw. exact Hw'.
  Qed.
  Lemma own_upd {T} A (rd : list expr -> outcome T) put :
    (forall v s, same_if (off A) V s (put v s)) ->
    (forall v s t, same_if (on A) V s t -> same_if (on A) V (put v s) (put v t)) -> own A (upd rd put).
  Proof.
    intros F L. split; unfold upd.
    - intros a s v H. inv_bind H. injection H as <-. apply F.
    - intros a s t v Sm H. inv_bind H. injection H as <-. rewrite A0. eexists. split; [reflexivity|]. auto.
  Qed.
  Lemma own_updf {T} A get (rd : list expr -> T -> outcome T) put :
    (forall a v s, rd a (get s) = Ret v -> same_if (off A) V s (put v s)) ->
    (forall a v s t, same_if (on A) V s t -> rd a (get s) = Ret v ->
       exists w, rd a (get t) = Ret w /\ same_if (on A) V (put v s) (put w t)) -> own A (updf get rd put).
  Proof.
    intros F L. split; unfold updf.
    - intros a s v H. inv_bind H. injection H as <-. eauto.
    - intros a s t v Sm H. inv_bind H. injection H as <-. destruct (L _ _ _ _ Sm A0) as [w [Hw K]].
      rewrite Hw. eexists. split; [reflexivity|]. exact K.
  Qed.

  (** The views say everything. *)
  Definition whole : Prop := forall s t, same_if (fun _ => true) V s t -> s = t.

  Lemma exchange A B f g a b s v : whole -> own A f -> own B g -> (forall n, In n A -> ~ In n B) ->
    (let* s1 := f a s in g b s1) = Ret v -> (let* s1 := g b s in f a s1) = Ret v.
  Proof.
    intros Wh [Ff Lf] [Fg Lg] D H. apply bind_ret in H. destruct H as (s1 & H1 & H).
    pose proof (proj1 (same_if_spec _ _ _ _) (Ff _ _ _ H1)) as E1.
    pose proof (proj1 (same_if_spec _ _ _ _) (Fg _ _ _ H)) as E2.
    assert (offB : forall n, mem n A = true -> off B n = true).
    { intros n M. unfold off. destruct (mem n B) eqn:MB; [|reflexivity]. apply mem_In in M. apply mem_In in MB. exfalso. eapply D; eauto. }
    assert (offA : forall n, mem n B = true -> off A n = true).
    { intros n M. unfold off. destruct (mem n A) eqn:MB; [|reflexivity]. apply mem_In in M. apply mem_In in MB. exfalso. eapply D; eauto. }
    destruct (Lg b s1 s v) as [t1 [G1 K1]]; [|exact H|].
    { apply same_if_spec. intros x I P. symmetry. apply E1; auto. }
    pose proof (proj1 (same_if_spec _ _ _ _) (Fg _ _ _ G1)) as E3. pose proof (proj1 (same_if_spec _ _ _ _) K1) as E4.
    destruct (Lf a s t1 s1) as [w [F1 K2]]; [|exact H1|].
    { apply same_if_spec. intros x I P. apply E3; auto. }
    pose proof (proj1 (same_if_spec _ _ _ _) (Ff _ _ _ F1)) as E5. pose proof (proj1 (same_if_spec _ _ _ _) K2) as E6.
    rewrite G1. cbn [bind]. rewrite F1. f_equal. symmetry. apply Wh. apply same_if_spec. intros x I _.
    destruct (mem (v_name x) A) eqn:MA.
    - rewrite <- (E6 x I MA). symmetry. apply E2; auto.
    - assert (OA : off A (v_name x) = true) by (unfold off; now rewrite MA).
      rewrite <- (E5 x I OA). destruct (mem (v_name x) B) eqn:MB; [apply E4; auto|].
      assert (OB : off B (v_name x) = true) by (unfold off; now rewrite MB).
      rewrite <- (E3 x I OB), <- (E2 x I OB), <- (E1 x I OA). reflexivity.
  Qed.
End Views.

(** Every entry of the table touches what its topics say. *)
Definition entry_ok {S} (V : list (view S)) (T : topics) (e : str * cmd S) : Prop :=
  match topics_of T (fst e) with Some A => own V A (snd e) | None => False end.
Definition owned {S} (V : list (view S)) (T : topics) (tbl : list (str * cmd S)) : Prop :=
  forall k f A, assoc k tbl = Some f -> topics_of T k = Some A -> own V A f.
Lemma owned_all {S} (V : list (view S)) T tbl : Forall (entry_ok V T) tbl -> owned V T tbl.
Proof.
  intros F k f A H HT. apply assoc_In in H. rewrite Forall_forall in F. specialize (F _ H). unfold entry_ok in F. cbn [fst snd] in F.
  now rewrite HT in F.
Qed.
(** Of two entries with the same key only the first counts. *)
Lemma owned_hidden {S} (V : list (view S)) T l1 l2 l3 : Forall (entry_ok V T) l1 -> Forall (entry_ok V T) l3 ->
  (forall k, In k (map fst l2) -> In k (map fst l1)) -> owned V T (l1 ++ l2 ++ l3).
Proof.
  intros F1 F3 I k f A H. assert (D : forall (l r : list (str * cmd S)), assoc k (l ++ r) = match assoc k l with Some x => Some x | None => assoc k r end).
  { induction l as [|[k' g] l IH]; intro r; cbn [assoc app]; [reflexivity|]. destruct (str_eqb k k'); auto. }
  rewrite !D in H. destruct (assoc k l1) as [g|] eqn:E1.
  - apply (owned_all V T l1 F1). congruence.
  - destruct (assoc k l2) as [g|] eqn:E2.
    + exfalso. apply assoc_none_keys in E1. apply E1, I. apply assoc_In in E2. apply in_map_iff. exists (k, g). auto.
    + now apply (owned_all V T l3 F3).
Qed.

Lemma apart_sym T x y : apart T x y -> apart T y x.
Proof.
  intros (kx & ax & ky & ay & tx & ty & O1 & O2 & T1 & T2 & D). exists ky, ay, kx, ax, ty, tx. repeat split; auto.
  intros t I J. exact (D t J I).
Qed.
Section Run.
  Context {S : Type} (V : list (view S)) (T : topics) (tbl : list (str * cmd S)).
  Hypothesis Wh : whole V.
  Hypothesis Ow : owned V T tbl.

  Lemma run_swap x y r s v : apart T x y -> run tbl (x :: y :: r) s = Ret v -> run tbl (y :: x :: r) s = Ret v.
  Proof.
    intros (kx & ax & ky & ay & tx & ty & O1 & O2 & T1 & T2 & D). rewrite !run_cons, O1, O2.
    destruct (assoc kx tbl) as [f|] eqn:F; [|discriminate]. intro H. apply bind_ret in H. destruct H as (s1 & H1 & H). rewrite run_cons, O2 in H.
    destruct (assoc ky tbl) as [g|] eqn:G; [|discriminate]. apply bind_ret in H. destruct H as (s2 & H2 & H).
    assert (X : (let* s1 := g ay s in f ax s1) = Ret s2).
    { apply (exchange V tx ty f g ax ay s s2 Wh (Ow _ _ _ F T1) (Ow _ _ _ G T2) D). rewrite H1. exact H2. }
    apply bind_ret in X. destruct X as (s3 & H3 & X). rewrite H3. cbn [bind]. rewrite run_cons, O1, F, X. exact H.
  Qed.
  Lemma run_reordered l l' : reordered T l l' -> forall s v, run tbl l s = Ret v <-> run tbl l' s = Ret v.
  Proof.
    induction 1 as [l|l x y r Ap|a b c _ IH1 _ IH2]; intros s v; [tauto| |rewrite IH1; apply IH2].
    rewrite !run_app. split; intro H; inv_bind H; rewrite A; cbn [bind].
    - now apply run_swap.
    - apply run_swap; [now apply apart_sym|assumption].
  Qed.
  Lemma options_swap x y r s v : apart T x y -> options tbl (x :: y :: r) s = Ret v -> options tbl (y :: x :: r) s = Ret v.
  Proof.
    intros (kx & ax & ky & ay & tx & ty & O1 & O2 & T1 & T2 & D). rewrite !options_cons, O1, O2.
    destruct (assoc kx tbl) as [f|] eqn:F; destruct (assoc ky tbl) as [g|] eqn:G;
      rewrite ?options_cons, ?O1, ?O2, ?F, ?G; auto.
    - intro H. apply bind_ret in H. destruct H as (s1 & H1 & H). rewrite options_cons, O2, G in H. apply bind_ret in H. destruct H as (s2 & H2 & H).
      assert (X : (let* s1 := g ay s in f ax s1) = Ret s2).
      { apply (exchange V tx ty f g ax ay s s2 Wh (Ow _ _ _ F T1) (Ow _ _ _ G T2) D). rewrite H1. exact H2. }
      apply bind_ret in X. destruct X as (s3 & H3 & X). rewrite H3. cbn [bind]. rewrite options_cons, O1, F, X. exact H.
    - intro H. inv_bind H. rewrite A. cbn [bind]. now rewrite options_cons, O2, G in H.
    - intro H. inv_bind H. rewrite A. cbn [bind]. now rewrite options_cons, O1, F.
  Qed.
  Lemma options_reordered l l' : reordered T l l' -> forall s v, options tbl l s = Ret v <-> options tbl l' s = Ret v.
  Proof.
    induction 1 as [l|l x y r Ap|a b c _ IH1 _ IH2]; intros s v; [tauto| |rewrite IH1; apply IH2].
    rewrite !options_app. split; intro H; inv_bind H; rewrite A; cbn [bind].
    - now apply options_swap.
    - apply options_swap; [now apply apart_sym|assumption].
  Qed.
End Run.

(** Any order of options that are all about different things. *)
Lemma reordered_cons T x l l' : reordered T l l' -> reordered T (x :: l) (x :: l').
Proof.
  induction 1 as [l|l a b r Ap|a b c _ IH1 _ IH2]; [constructor|apply (ro_swap T (x :: l) a b r Ap)|eapply ro_trans; eauto].
Qed.
Lemma all_apart_perm T l l' : Permutation l l' -> all_apart T l -> all_apart T l'.
Proof.
  unfold all_apart.
  induction 1 as [|x l l' P IH|x y l|a b c _ IH1 _ IH2]; intro H; auto.
  - inversion H as [|? ? F O]; subst. constructor; [|auto]. eapply Permutation_Forall; eauto.
  - inversion H as [|? ? F O]; subst. inversion O as [|? ? F' O']; subst. inversion F as [|? ? Ap F'']; subst.
    constructor; [constructor; [now apply apart_sym|assumption]|]. constructor; assumption.
Qed.
Lemma any_order T l l' : all_apart T l -> Permutation l l' -> reordered T l l'.
Proof.
  intros H P. revert H. induction P as [|x l l' P IH|x y l|a b c P1 IH1 P2 IH2]; intro H.
  - constructor.
  - inversion H; subst. now apply reordered_cons, IH.
  - inversion H as [|? ? F O]; subst. inversion F; subst. apply (ro_swap T [] y x l). assumption.
  - eapply ro_trans; [auto|]. apply IH2. eapply all_apart_perm; eauto.
Qed.

(** ---- readers that look at only a part of what they change ---- *)
Definition kind_of (s : scale) := (s_kind s, s_log_base s, s_inverted s, s_categories s, s_cmap s).
Definition hints_of (s : scale) := (h_min s, h_max s).
Definition rest_of (s : scale) := (s_min s, s_max s, hints_of s).
Definition both_of (s : scale) := (kind_of s, s_padding s).
Definition dash_of (s : stroke_style) := (s_dashed s, s_offset s, s_pattern s).
Section Readers.
  Variable W : world.
  Variable E : env.
  Lemma kind_rest e : forall s, rest_of (fst (configure_kind (w_stod W) (w_read_file W) e s)) = rest_of s.
  Proof.
    induction e as [|x e IH]; intro s; cbn [configure_kind]; [reflexivity|].
    repeat match goal with
           | |- context [if ?c then _ else _] => destruct c
           | |- context [match ?c with Some _ => _ | None => _ end] => destruct c
           | |- context [match ?o with Ret _ => _ | Err => _ | Throw => _ | UB => _ | Diverge => _ end] => destruct o
           | |- context [let '(_, _) := ?c in _] => destruct c
           end; cbn [fst]; rewrite ?IH; reflexivity.
  Qed.
  Lemma kind_same e : forall s t, both_of s = both_of t ->
    both_of (fst (configure_kind (w_stod W) (w_read_file W) e s)) = both_of (fst (configure_kind (w_stod W) (w_read_file W) e t)) /\
    snd (configure_kind (w_stod W) (w_read_file W) e s) = snd (configure_kind (w_stod W) (w_read_file W) e t).
  Proof.
    induction e as [|x e IH]; intros s t K; cbn [configure_kind]; [auto|].
    assert (K' := K). destruct s as [k1 a1 b1 l1 i1 p1 g1 j1 c1 m1], t as [k2 a2 b2 l2 i2 p2 g2 j2 c2 m2].
    unfold both_of, kind_of in K'. cbn in K'. injection K' as -> -> -> -> -> ->. cbn [s_categories set_categorical].
    repeat match goal with
           | |- context [if ?c then _ else _] => destruct c
           | |- context [match ?c with Some _ => _ | None => _ end] => destruct c
           | |- context [match ?o with Ret _ => _ | Err => _ | Throw => _ | UB => _ | Diverge => _ end] => destruct o
           | |- context [let '(_, _) := data_load_strings ?a ?b ?c in _] => destruct (data_load_strings a b c)
           end; try (apply IH; reflexivity); split; reflexivity.
  Qed.
  Lemma rd_kind_off a s v : rd_kind W a s = Ret v -> rest_of s = rest_of v.
  Proof.
    unfold rd_kind. intro H. rewrite <- (kind_rest a s). destruct (configure_kind _ _ a s) as [s' o]. cbn [ended fst] in *.
    inv_bind H. now injection H as <-.
  Qed.
  Lemma rd_kind_on a s t v : both_of s = both_of t -> rd_kind W a s = Ret v -> exists w, rd_kind W a t = Ret w /\ both_of v = both_of w.
  Proof.
    unfold rd_kind. intros K H. destruct (kind_same a s t K) as [K1 K2]. destruct (configure_kind _ _ a s) as [s' o].
    destruct (configure_kind _ _ a t) as [t' o']. cbn [ended fst snd] in *. subst o'. inv_bind H. injection H as <-. rewrite A.
    cbn [bind]. eexists. split; [reflexivity|exact K1].
  Qed.
  (** limit-x sets both limits, whatever they were. *)
  Lemma rd_limits_is a : exists o : outcome (xr * xr), forall s,
    rd_limits W a s = (let* (lo, hi) := o in Ret (with_max hi (with_min lo s))).
  Proof.
    unfold rd_limits.
    assert (X : exists o : outcome (xr * xr), forall m n, ended (expr_to_float64_opt_pair (w_stod W) a m n) = (let* (lo, hi) := o in Ret (Some lo, Some hi))).
    { assert (Z : forall r : list expr, (forall m n, @expr_to_float64_opt_pair xr (w_stod W) r m n = ((m, n), Err)) ->
                 exists o : outcome (xr * xr), forall m n : option xr, ended (@expr_to_float64_opt_pair xr (w_stod W) r m n) = (let* (lo, hi) := o in Ret (Some lo, Some hi))).
      { intros r R. exists Err. intros. rewrite R. reflexivity. }
      destruct a as [|x [|y [|z r]]]; try (apply Z; reflexivity).
      unfold expr_to_float64_opt_pair.
      destruct (expr_to_float64 (w_stod W) [x; y]) as [u| | | |]; try (exists Err; reflexivity).
      destruct (expr_to_float64 (w_stod W) [y]) as [v| | | |]; try (exists Err; reflexivity).
      exists (Ret (u, v)). reflexivity. }
    destruct X as [o X]. exists o. intro s. rewrite X. destruct o as [[lo hi]| | | |]; reflexivity.
  Qed.
End Readers.
