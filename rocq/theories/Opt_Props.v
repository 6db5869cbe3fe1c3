(** C98: Option<T>. *)
From Coq Require Import Permutation.
From Verif Require Import Base Opt_Model Opt_Spec.

Section Proofs.
  Context {V : Type}.
  Notation ost := (ost V).
  Notation opts s := (st_opts V s).
  (** The object number [n] is in the Option [i]. *)
  Definition live (s : ost) (n i : nat) : Prop := exists p v, opts s i = Some (mk_opt V p (Some (n, v))).
  Definition ids (s : ost) : Prop :=
    (forall n i, live s n i -> n < st_next V s /\ ~ In n (st_gone V s)) /\
    (forall n i j, live s n i -> live s n j -> i = j) /\
    NoDup (st_gone V s) /\ (forall n, In n (st_gone V s) -> n < st_next V s) /\
    (forall n, n < st_next V s -> In n (st_gone V s) \/ exists i, live s n i).
  Definition holds_ (s : ost) (i : nat) (o : option (option V)) : Prop :=
    match o with
    | None => opts s i = None
    | Some None => opts s i = Some (mk_opt V false None)
    | Some (Some v) => exists n, opts s i = Some (mk_opt V true (Some (n, v)))
    end.
  Definition agrees (s : ost) (m : ideal) : Prop := forall i, holds_ s i (m i).

  Lemma eqb_same i : Nat.eqb i i = true. Proof. apply Nat.eqb_refl. Qed.
  Lemma eqb_other i j : i <> j -> Nat.eqb i j = false. Proof. apply Nat.eqb_neq. Qed.

  Lemma construct_ids i v s : ids s -> (forall n, ~ live s n i) -> ids (construct V i v s).
  Proof.
    intros (A & B & C & D & F) N.
    assert (L : forall n j, live (construct V i v s) n j -> (j = i /\ n = st_next V s) \/ (j <> i /\ live s n j)).
    { intros n j (p & w & H). cbn in H. destruct (Nat.eqb_spec i j) as [->|Q].
      - injection H as _ <- _. now left.
      - right. split; [congruence|]. exists p, w. exact H. }
    assert (L1 : live (construct V i v s) (st_next V s) i) by (exists true, v; cbn; now rewrite eqb_same).
    assert (L2 : forall n j, j <> i -> live s n j -> live (construct V i v s) n j).
    { intros n j Q (p & w & H). exists p, w. cbn. rewrite eqb_other by congruence. exact H. }
    repeat split.
    - cbn. apply L in H as [[-> ->]|[Q H]]; [lia|]. apply A in H. lia.
    - cbn. apply L in H as [[-> ->]|[Q H]]; [intro I; apply D in I; lia|]. now apply A in H.
    - intros n i' j H1 H2. apply L in H1 as [[-> ->]|[Q1 H1]]; apply L in H2 as [[-> E]|[Q2 H2]]; try reflexivity.
      + apply A in H2. lia.
      + subst n. apply A in H1. lia.
      + exact (B n i' j H1 H2).
    - exact C.
    - cbn. intros n I. apply D in I. lia.
    - cbn. intros n I. destruct (Nat.eq_dec n (st_next V s)) as [->|Q]; [right; eauto|].
      destruct (F n ltac:(lia)) as [G|(j & G)]; [now left|]. right. exists j. apply L2; [|exact G]. intros ->. exact (N n G).
  Qed.
  Lemma destroy_ok i p n v s : ids s -> opts s i = Some (mk_opt V p (Some (n, v))) ->
    exists s', destroy_cell V i s = Ret s' /\ ids s' /\ opts s' i = Some (mk_opt V p None) /\ (forall j, j <> i -> opts s' j = opts s j).
  Proof.
    intros (A & B & C & D & F) H. unfold destroy_cell. rewrite H. eexists. split; [reflexivity|].
    assert (Li : live s n i) by (exists p, v; exact H).
    split; [|split; [cbn; now rewrite eqb_same|intros j Q; cbn; now rewrite eqb_other by congruence]].
    match goal with |- ids ?s' => assert (L : forall m j, live s' m j <-> (j <> i /\ live s m j)) end.
    { intros m j. unfold live. cbn. destruct (Nat.eqb_spec i j) as [->|Q].
      - split; [intros (p' & w & Z); discriminate|intros [Z _]; congruence].
      - split; [intro Z; split; [congruence|exact Z]|tauto]. }
    assert (Ne : forall m j, j <> i -> live s m j -> m <> n) by (intros m j Q H1 ->; apply Q; exact (B n j i H1 Li)).
    repeat split; cbn.
    - apply L in H0 as [Q H0]. now apply A in H0.
    - apply L in H0 as [Q H0]. intros [->|I]; [exact (Ne _ _ Q H0 eq_refl)|]. now apply A in H0.
    - intros m i' j H1 H2. apply L in H1 as [_ H1]. apply L in H2 as [_ H2]. exact (B m i' j H1 H2).
    - constructor; [now apply (A n i)|exact C].
    - intros m [<-|I]; [now apply (A n i)|now apply D].
    - intros m I. destruct (F m I) as [G|(j & G)]; [auto|]. destruct (Nat.eq_dec j i) as [->|Q]; [left; left|right; exists j; apply L; auto].
      destruct G as (p' & w & G). congruence.
  Qed.
  (** Changing an Option without a value. *)
  Lemma put_ids i o s : ids s -> (forall n, ~ live s n i) -> (forall p, o <> Some p \/ o_cell V p = None) -> ids (put V i o s).
  Proof.
    intros (A & B & C & D & F) N K.
    assert (L : forall m j, live (put V i o s) m j <-> live s m j).
    { intros m j. unfold live. cbn. destruct (Nat.eqb_spec i j) as [->|Q]; [|tauto].
      split; [|intro Z; now destruct (N m)]. intros (p & v & ->). destruct (K (mk_opt V p (Some (m, v)))) as [Z|Z]; [congruence|discriminate]. }
    repeat split; cbn.
    - now apply L, A in H.
    - now apply L, A in H.
    - intros n i' j H1 H2. apply L in H1, H2. exact (B n i' j H1 H2).
    - exact C.
    - exact D.
    - intros n I. destruct (F n I) as [G|(j & G)]; [now left|right; exists j; now apply L].
  Qed.

  Lemma holds_same s s' i o : opts s' i = opts s i -> holds_ s i o -> holds_ s' i o.
  Proof. unfold holds_. intros ->. tauto. Qed.
  Lemma not_live s i o n : holds_ s i o -> o = None \/ o = Some None -> ~ live s n i.
  Proof. intros H [-> | ->] (p & v & Z); cbn in H; rewrite H in Z; discriminate. Qed.
  Lemma agrees_construct s m i v : agrees s m -> agrees (construct V i v s) (upd_i i (Some (Some v)) m).
  Proof.
    intros A j. unfold upd_i. destruct (Nat.eqb_spec i j) as [->|Q].
    - exists (st_next V s). cbn. now rewrite eqb_same.
    - apply (holds_same s); [|apply A]. cbn. now rewrite eqb_other.
  Qed.
  Lemma agrees_put s m i o oo : agrees s m -> holds_ (put V i o s) i oo -> agrees (put V i o s) (upd_i i oo m).
  Proof.
    intros A H j. unfold upd_i. destruct (Nat.eqb_spec i j) as [->|Q]; [exact H|]. apply (holds_same s); [|apply A]. cbn. now rewrite eqb_other.
  Qed.
  Lemma agrees_ext s m m' : (forall i, m i = m' i) -> agrees s m -> agrees s m'.
  Proof. intros E A i. rewrite <- E. apply A. Qed.

  Lemma has_ptr_ok s m i : agrees s m -> m i <> None ->
    has_ptr V i s = Ret (match value_in i m with Some _ => true | None => false end).
  Proof.
    intros A N. unfold has_ptr, value_in. specialize (A i). destruct (m i) as [[v|]|]; [| |congruence]; cbn in A.
    - destruct A as [n ->]. reflexivity.
    - rewrite A. reflexivity.
  Qed.
  Lemma read_ok s m i v : agrees s m -> value_in i m = Some v -> read_cell V i s = Ret v.
  Proof.
    intros A N. unfold read_cell, value_in in *. specialize (A i). destruct (m i) as [[w|]|]; try discriminate. injection N as ->. cbn in A.
    destruct A as [n ->]. reflexivity.
  Qed.
  (** Emptying: the value of [i] is destroyed, if there is one, and value_ is cleared later. *)
  Lemma clear_ok s m i : agrees s m -> ids s -> m i <> None ->
    exists s1, (if match value_in i m with Some _ => true | None => false end then destroy_cell V i s else Ret s) = Ret s1 /\ ids s1 /\
      (forall n, ~ live s1 n i) /\ (exists b, opts s1 i = Some (mk_opt V b None) /\ (value_in i m = None -> b = false)) /\ (forall j, j <> i -> opts s1 j = opts s j).
  Proof.
    intros A I N. unfold value_in. pose proof (A i) as Ai. destruct (m i) as [[v|]|] eqn:M; [| |congruence]; cbn in Ai.
    - destruct Ai as [n Hn]. destruct (destroy_ok i true n v s I Hn) as (s' & D & I' & O & R). exists s'. split; [exact D|]. split; [exact I'|].
      split; [intros n' (p & w & Z); congruence|]. split; [|exact R]. exists true. split; [exact O|discriminate].
    - exists s. split; [reflexivity|]. split; [exact I|]. split; [intros n' (p & w & Z); congruence|]. split; [|reflexivity]. exists false. auto.
  Qed.

  Lemma step_ok s m o m' x : agrees s m -> ids s -> allowed m o -> harmless m o -> meaning m o m' x ->
    exists s', step V o s = Ret (s', x) /\ agrees s' m' /\ ids s'.
  Proof.
    intros A I Al Hm M.
    assert (New_ : forall i, (forall n, ~ live s n i) -> agrees (put V i (Some (mk_opt V false None)) s) (upd_i i (Some None) m) /\ ids (put V i (Some (mk_opt V false None)) s)).
    { intros i N. split; [apply agrees_put; [exact A|cbn; now rewrite eqb_same]|]. apply put_ids; auto. intro p. destruct (o_cell V p) eqn:Q; [left|now right]. intro Z. injection Z as <-. discriminate. }
    assert (Free : forall i, m i = None -> forall n, ~ live s n i).
    { intros i N n. apply (not_live s i (m i)); [apply A|now left]. }
    assert (Move1 : forall s1 i j v n, i <> j -> ids s1 -> (forall n, ~ live s1 n i) -> opts s1 j = Some (mk_opt V true (Some (n, v))) ->
      (forall k, k <> i -> opts s1 k = opts s k) ->
      exists s', (let* s2 := destroy_cell V j (construct V i v s1) in let* s3 := set_ptr V j false s2 in Ret (s3, Done V)) = Ret (s', Done V) /\
        agrees s' (upd_i i (Some (Some v)) (upd_i j (Some None) m)) /\ ids s').
    { intros s1 i j v n Q I1 N1 Oj Ot. pose proof (construct_ids i v s1 I1 N1) as I2.
      assert (Oj2 : opts (construct V i v s1) j = Some (mk_opt V true (Some (n, v)))) by (cbn; now rewrite eqb_other).
      destruct (destroy_ok j true n v _ I2 Oj2) as (s2 & D & I3 & O2 & R2). rewrite D. cbn [bind]. unfold set_ptr. rewrite O2. cbn [bind o_cell].
      eexists. split; [reflexivity|]. split.
      - intro k. unfold upd_i. destruct (Nat.eqb_spec i k) as [->|Qi].
        + exists (st_next V s1). cbn. rewrite eqb_other by congruence. rewrite (R2 k) by congruence. cbn. now rewrite eqb_same.
        + destruct (Nat.eqb_spec j k) as [->|Qj]; [cbn; now rewrite eqb_same|].
          apply (holds_same s); [|apply A]. cbn. rewrite eqb_other by congruence. rewrite (R2 k) by congruence. cbn. rewrite eqb_other by congruence. apply Ot. congruence.
      - apply put_ids; [exact I3| |].
        + intros n' (p & w & Z). congruence.
        + intro p. destruct (o_cell V p) eqn:Z; [left|now right]. intro Y. injection Y as <-. discriminate. }
    assert (Clear : forall s1 i b, ids s1 -> (forall n, ~ live s1 n i) -> opts s1 i = Some (mk_opt V b None) -> (forall k, k <> i -> opts s1 k = opts s k) ->
      exists s', (let* s2 := set_ptr V i false s1 in Ret (s2, Done V)) = Ret (s', Done V) /\ agrees s' (upd_i i (Some None) m) /\ ids s').
    { intros s1 i b I1 N1 O1 Ot. unfold set_ptr. rewrite O1. cbn [bind o_cell]. eexists. split; [reflexivity|]. split.
      - intro k. unfold upd_i. destruct (Nat.eqb_spec i k) as [->|Q]; [cbn; now rewrite eqb_same|]. apply (holds_same s); [|apply A]. cbn. rewrite eqb_other by congruence. apply Ot. congruence.
      - apply put_ids; auto. intro p. destruct (o_cell V p) eqn:Z; [left|now right]. intro Y. injection Y as <-. discriminate. }
    assert (Val_ : forall j v, value_in j m = Some v -> exists n, opts s j = Some (mk_opt V true (Some (n, v)))).
    { intros j v H. unfold value_in in H. specialize (A j). destruct (m j) as [[w|]|]; try discriminate. injection H as ->. exact A. }
    inversion M; subst; clear M; cbn [step allowed harmless] in *.
    - (* New *) eexists. split; [reflexivity|]. apply New_, Free, Al.
    - eexists. split; [reflexivity|]. split; [apply agrees_construct, A|apply construct_ids; [exact I|apply Free, Al]].
    - eexists. split; [reflexivity|]. auto.
    - (* Copy *) destruct Al as [A1 A2]. unfold opt_copy. rewrite (has_ptr_ok s m' j) || rewrite (has_ptr_ok s m j) by assumption. cbn [bind].
      destruct (value_in j m) as [v|] eqn:Vj.
      + rewrite (read_ok s m j v A Vj). cbn [bind]. eexists. split; [reflexivity|]. split; [apply agrees_construct, A|apply construct_ids; [exact I|apply Free, A1]].
      + eexists. split; [reflexivity|]. apply New_, Free, A1.
    - (* Move *) destruct Al as [A1 A2]. unfold opt_move. rewrite (has_ptr_ok s m j) by assumption. cbn [bind].
      destruct (value_in j m) as [v|] eqn:Vj.
      + rewrite (read_ok s m j v A Vj). cbn [bind]. destruct (Val_ j v Vj) as [n Hn]. apply (Move1 s i j v n); auto. intros ->. congruence.
      + destruct (New_ i (Free i A1)) as [N1 N2]. eexists. split; [reflexivity|]. split; [|exact N2]. eapply agrees_ext; [|exact N1].
        intro k. unfold upd_i. destruct (Nat.eqb_spec i k); [reflexivity|]. destruct (Nat.eqb_spec j k) as [->|]; [|reflexivity].
        unfold value_in in Vj. destruct (m k) as [[|]|]; congruence.
    - (* Assign *) destruct Al as [A1 A2], Hm as [H1 H2]. unfold opt_assign. rewrite (has_ptr_ok s m i) by assumption. cbn [bind].
      destruct (clear_ok s m i A I A1) as (s1 & C & I1 & N1 & (b & O1 & _) & R1). rewrite C. cbn [bind].
      assert (Hp : has_ptr V j s1 = has_ptr V j s) by (unfold has_ptr; rewrite R1 by congruence; reflexivity).
      assert (Hr : read_cell V j s1 = read_cell V j s) by (unfold read_cell; rewrite R1 by congruence; reflexivity).
      rewrite Hp, (has_ptr_ok s m j) by assumption. cbn [bind]. destruct (value_in j m) as [v|] eqn:Vj.
      + rewrite Hr, (read_ok s m j v A Vj). cbn [bind]. eexists. split; [reflexivity|]. split; [|now apply construct_ids].
        intro k. unfold upd_i. destruct (Nat.eqb_spec i k) as [->|Q]; [exists (st_next V s1); cbn; now rewrite eqb_same|].
        apply (holds_same s); [|apply A]. cbn. rewrite eqb_other by congruence. apply R1. congruence.
      + apply (Clear s1 i b); auto.
    - (* MoveAssign *) destruct Al as [A1 A2], Hm as [H1 H2]. unfold opt_move_assign. rewrite (has_ptr_ok s m i) by assumption. cbn [bind].
      destruct (clear_ok s m i A I A1) as (s1 & C & I1 & N1 & (b & O1 & _) & R1). rewrite C. cbn [bind].
      assert (Hp : has_ptr V j s1 = has_ptr V j s) by (unfold has_ptr; rewrite R1 by congruence; reflexivity).
      assert (Hr : read_cell V j s1 = read_cell V j s) by (unfold read_cell; rewrite R1 by congruence; reflexivity).
      rewrite Hp, (has_ptr_ok s m j) by assumption. cbn [bind]. destruct (value_in j m) as [v|] eqn:Vj.
      + rewrite Hr, (read_ok s m j v A Vj). cbn [bind]. destruct (Val_ j v Vj) as [n Hn]. apply (Move1 s1 i j v n); auto. rewrite R1 by congruence. exact Hn.
      + destruct (Clear s1 i b I1 N1 O1 R1) as (s' & S1 & S2 & S3). exists s'. split; [exact S1|]. split; [|exact S3]. eapply agrees_ext; [|exact S2].
        intro k. unfold upd_i. destruct (Nat.eqb_spec i k); [reflexivity|]. destruct (Nat.eqb_spec j k) as [->|]; [|reflexivity].
        unfold value_in in Vj. destruct (m k) as [[|]|]; congruence.
    - (* nothing to copy *) rename H into Io, H0 into Vj. destruct Io as [<-|[<-|[<-|[<-|[]]]]]; cbn [step allowed harmless] in *; destruct Al as [A1 A2];
        unfold opt_copy, opt_move, opt_assign, opt_move_assign.
      + rewrite (has_ptr_ok s m j), Vj by assumption. cbn [bind]. eexists. split; [reflexivity|]. apply New_, Free, A1.
      + rewrite (has_ptr_ok s m j), Vj by assumption. cbn [bind]. eexists. split; [reflexivity|]. apply New_, Free, A1.
      + destruct Hm as [H1 H2]. rewrite (has_ptr_ok s m i) by assumption. cbn [bind]. destruct (clear_ok s m i A I A1) as (s1 & C & I1 & N1 & (b & O1 & _) & R1). rewrite C. cbn [bind].
        assert (Hp : has_ptr V j s1 = has_ptr V j s) by (unfold has_ptr; rewrite R1 by congruence; reflexivity).
        rewrite Hp, (has_ptr_ok s m j), Vj by assumption. cbn [bind]. apply (Clear s1 i b); auto.
      + destruct Hm as [H1 H2]. rewrite (has_ptr_ok s m i) by assumption. cbn [bind]. destruct (clear_ok s m i A I A1) as (s1 & C & I1 & N1 & (b & O1 & _) & R1). rewrite C. cbn [bind].
        assert (Hp : has_ptr V j s1 = has_ptr V j s) by (unfold has_ptr; rewrite R1 by congruence; reflexivity).
        rewrite Hp, (has_ptr_ok s m j), Vj by assumption. cbn [bind]. apply (Clear s1 i b); auto.
    - (* the constructor of the value throws *) rename H into Io, H0 into Vj. destruct Io as [<-|[<-|[<-|[<-|[]]]]]; cbn [step allowed harmless] in *; destruct Al as [A1 A2];
        unfold opt_copy, opt_move, opt_assign, opt_move_assign.
      + rewrite (has_ptr_ok s m' j), Vj by assumption. cbn [bind]. rewrite (read_ok s m' j v A Vj). cbn [bind]. eauto.
      + rewrite (has_ptr_ok s m' j), Vj by assumption. cbn [bind]. rewrite (read_ok s m' j v A Vj). cbn [bind]. eauto.
      + destruct Hm as [H1 H2]. destruct (H2 eq_refl) as [Vi|Vi]; [|congruence].
        rewrite (has_ptr_ok s m' i), Vi by assumption. cbn [bind]. rewrite (has_ptr_ok s m' j), Vj by assumption. cbn [bind]. rewrite (read_ok s m' j v A Vj). cbn [bind]. eauto.
      + destruct Hm as [H1 H2]. destruct (H2 eq_refl) as [Vi|Vi]; [|congruence].
        rewrite (has_ptr_ok s m' i), Vi by assumption. cbn [bind]. rewrite (has_ptr_ok s m' j), Vj by assumption. cbn [bind]. rewrite (read_ok s m' j v A Vj). cbn [bind]. eauto.
    - (* Destroy *) unfold opt_destroy. rewrite (has_ptr_ok s m i) by assumption. cbn [bind]. destruct (clear_ok s m i A I Al) as (s1 & C & I1 & N1 & (b & O1 & _) & R1). rewrite C. cbn [bind].
      eexists. split; [reflexivity|]. split.
      + intro k. unfold upd_i. destruct (Nat.eqb_spec i k) as [->|Q]; [cbn; now rewrite eqb_same|]. apply (holds_same s); [|apply A]. cbn. rewrite eqb_other by congruence. apply R1. congruence.
      + apply put_ids; auto. intro p. left. discriminate.
    - unfold opt_bool. rewrite (has_ptr_ok s m' i) by assumption. cbn [bind]. eauto.
    - unfold opt_get. rewrite (has_ptr_ok s m' i) by assumption. cbn [bind]. destruct (value_in i m') as [v|] eqn:Vi; [|eauto]. rewrite (read_ok s m' i v A Vi). cbn [bind]. eauto.
    - unfold opt_deref. rename H into Vi. rewrite (has_ptr_ok s m' i) by (assumption || (unfold value_in in Vi; destruct (m' i); congruence)). rewrite Vi. cbn [bind]. rewrite (read_ok s m' i v A Vi). cbn [bind]. eauto.
    - unfold opt_or. rewrite (has_ptr_ok s m' i) by assumption. cbn [bind]. destruct (value_in i m') as [v|] eqn:Vi; [|eauto]. rewrite (read_ok s m' i v A Vi). cbn [bind]. eauto.
  Qed.
End Proofs.

(** C98. Every history of calls without an assignment of an Option to itself and without an
    assignment over a value whose copy throws is defined and shows its callers what the optional
    values are. Every value is destroyed at most once and never while it can still be reached;
    when no Option is left each value has been destroyed exactly once. *)
Theorem C98_histories : forall (V : Type) (l : list (op V)) (m : ideal) (xs : list (res V)),
  history harmless nothing l m xs ->
  exists s, run_ops V l (st0 V) = Ret (s, xs) /\
    (forall i, match m i with
               | None => st_opts V s i = None
               | Some None => st_opts V s i = Some (mk_opt V false None)
               | Some (Some v) => exists n, st_opts V s i = Some (mk_opt V true (Some (n, v))) /\ ~ In n (st_gone V s)
               end) /\
    NoDup (st_gone V s) /\
    ((forall i, m i = None) -> Permutation (st_gone V s) (seq 0 (st_next V s))).
Proof.
  intros V l m xs H.
  assert (G : forall m0 s0, agrees s0 m0 -> ids s0 -> history harmless m0 l m xs -> exists s, run_ops V l s0 = Ret (s, xs) /\ agrees s m /\ ids s).
  { clear H. intros m0 s0 A I H. revert s0 A I. induction H as [m0|m0 o l m1 m2 x xs Al Hm Me H IH]; intros s0 A I.
    - exists s0. auto.
    - destruct (step_ok s0 m0 o m1 x A I Al Hm Me) as (s1 & S1 & A1 & I1). destruct (IH s1 A1 I1) as (s & R & A2 & I2).
      exists s. split; [|auto]. cbn [run_ops]. rewrite S1. cbn [bind]. rewrite R. reflexivity. }
  destruct (G nothing (st0 V)) as (s & R & A & I); [intro i; reflexivity| |exact H|].
  { split; [intros n i (p & v & Z); discriminate|]. split; [intros n i j (p & v & Z); discriminate|].
    split; [constructor|]. split; [intros n []|]. cbn. intros n L. lia. }
  exists s. split; [exact R|]. destruct I as (I1 & I2 & I3 & I4 & I5). split; [|split; [exact I3|]].
  - intro i. specialize (A i). destruct (m i) as [[v|]|]; try exact A. destruct A as [n A]. exists n. split; [exact A|]. apply (I1 n i). exists true, v. exact A.
  - intro N. apply NoDup_Permutation; [exact I3|apply seq_NoDup|]. intro n. rewrite in_seq. split; [intro K; apply I4 in K; lia|].
    intro K. destruct (I5 n ltac:(lia)) as [K'|(i & p & v & K')]; [exact K'|]. specialize (A i). rewrite N in A. cbn in A. congruence.
Qed.
Print Assumptions C98_histories.

(** C98. The observers are determined: a history has one outcome. *)
Theorem C98_determined : forall (V : Type) (l : list (op V)) (m m' : ideal) (xs xs' : list (res V)),
  history harmless nothing l m xs -> history harmless nothing l m' xs' -> xs = xs'.
Proof.
  intros V l m m' xs xs' H H'. destruct (C98_histories V l m xs H) as (s & R & _). destruct (C98_histories V l m' xs' H') as (s' & R' & _). congruence.
Qed.
Print Assumptions C98_determined.

(** C98. Assigning an Option that holds a value to itself destroys the value and then reads it. *)
Theorem C98_self_assignment_refuted : forall (V : Type) (v : V) (f : bool),
  run_ops V [Value V 0 v false; Assign V 0 0 f] (st0 V) = UB /\ run_ops V [Value V 0 v false; MoveAssign V 0 0 f] (st0 V) = UB.
Proof. intros V v f. split; reflexivity. Qed.
Print Assumptions C98_self_assignment_refuted.

(** C98. If copying the new value throws during an assignment, the old value has been destroyed
    but the Option still points to it: it says that it has a value, which cannot be read, and its
    destructor destroys it again. *)
Theorem C98_failed_assignment_refuted : forall (V : Type) (v w : V),
  (exists s, run_ops V [Value V 0 v false; Value V 1 w false; Assign V 0 1 true; IsSet V 0] (st0 V) = Ret (s, [Done V; Done V; Thrown V; Bool V true])) /\
  run_ops V [Value V 0 v false; Value V 1 w false; Assign V 0 1 true; Get V 0] (st0 V) = UB /\
  run_ops V [Value V 0 v false; Value V 1 w false; Assign V 0 1 true; Destroy V 0] (st0 V) = UB.
Proof. intros V v w. repeat split; try reflexivity. eexists. reflexivity. Qed.
Print Assumptions C98_failed_assignment_refuted.

(** C98. Reading an empty Option with * or -> is not checked. *)
Theorem C98_deref_empty_refuted : forall V : Type, run_ops V [New V 0; Deref V 0] (st0 V) = UB.
Proof. reflexivity. Qed.
Print Assumptions C98_deref_empty_refuted.

(** A history with copies and moves that ends with no Option. *)
Definition story : list (op nat) :=
  [Value nat 0 7 false; Copy nat 1 0 false; New nat 2; MoveAssign nat 2 0 false; IsSet nat 0; Get nat 2; Assign nat 1 0 false; ValueOr nat 1 9;
   Get nat 0; Destroy nat 2; Destroy nat 1; Destroy nat 0].
Example C98_story : exists m, history harmless nothing story m
    [Done nat; Done nat; Done nat; Done nat; Bool nat false; Val nat 7; Done nat; Val nat 9; Thrown nat; Done nat; Done nat; Done nat] /\
  (forall i, m i = None) /\ exists s, run_ops nat story (st0 nat) = Ret (s, [Done nat; Done nat; Done nat; Done nat; Bool nat false; Val nat 7; Done nat; Val nat 9; Thrown nat; Done nat; Done nat; Done nat]) /\
    Permutation (st_gone nat s) [0; 1; 2].
Proof.
  unfold story.
  assert (H : exists m, history harmless nothing story m
    [Done nat; Done nat; Done nat; Done nat; Bool nat false; Val nat 7; Done nat; Val nat 9; Thrown nat; Done nat; Done nat; Done nat] /\ (forall i, m i = None)).
  { eexists. split.
    - unfold story. eapply h_cons; [| |apply m_value|]; [reflexivity|exact I|].
      eapply h_cons; [| |apply m_copy|]; [split; [reflexivity|discriminate]|exact I|].
      eapply h_cons; [| |apply m_new|]; [reflexivity|exact I|].
      eapply h_cons; [| |apply m_move_assign|]; [split; discriminate|split; discriminate|].
      match goal with |- history _ ?m (IsSet _ ?i :: _) _ _ => eapply h_cons; [| |exact (m_is_set m i)|] end; [discriminate|exact I|].
      match goal with |- history _ ?m (Get _ ?i :: _) _ _ => eapply h_cons; [| |exact (m_get m i)|] end; [discriminate|exact I|].
      eapply h_cons; [| |apply m_assign|]; [split; discriminate|split; discriminate|].
      match goal with |- history _ ?m (ValueOr _ ?i ?x :: _) _ _ => eapply h_cons; [| |exact (m_or m i x)|] end; [discriminate|exact I|].
      match goal with |- history _ ?m (Get _ ?i :: _) _ _ => eapply h_cons; [| |exact (m_get m i)|] end; [discriminate|exact I|].
      do 3 (eapply h_cons; [| |apply m_destroy|]; [discriminate|exact I|]). apply h_nil.
    - intro i. cbn. destruct i as [|[|[|i]]]; reflexivity. }
  destruct H as (m & H & N). exists m. split; [exact H|]. split; [exact N|]. destruct (C98_histories nat _ _ _ H) as (s & R & _ & _ & P). exists s. split; [exact R|].
  specialize (P N). assert (E : st_next nat s = 3) by (vm_compute in R; injection R as <-; reflexivity). rewrite E in P. exact P.
Qed.
