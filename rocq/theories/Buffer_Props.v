(** Property C38. *)
From Verif Require Import Base Buffer_Model Buffer_Spec Buffer_Proofs.

(** C38: any number of buffers behave like plain byte sequences under any history of
    construction, copying, moving, appending, truncating, reserving and clearing: the same
    operations are reported as errors, the contents are the same, reading past the end is
    reported, searching finds the first occurrence. No undefined behaviour on the way.
    Partial: assigning a buffer to itself and reserving 0 bytes are excluded by [proper]; the
    theorems below show that the property fails there. *)
Theorem C38_sequence_partial : forall ops e l,
  plain_run empty_env ops e l -> Forall proper ops ->
  exists s, run start ops = Ret (s, l) /\
  forall i v, e i = Some v ->
    contents s i = Ret v /\ size s i = Ret (length v) /\
    (forall n, char_at s i n = match nth_error v n with Some c => Ret c | None => Throw end) /\
    (forall x, v = map Some x -> forall c, exists r, find s i c = Ret r /\
       match r with
       | Some m => nth_error x m = Some c /\ forall q, q < m -> nth_error x q <> Some c
       | None => ~ In c x
       end).
Proof.
  intros ops e l P F. destruct (run_refines ops start empty_env e l inv_start P F) as (s & R & I). exists s. split; auto.
  intros i v E. split; [eapply obs_contents; eauto|]. split; [eapply obs_size; eauto|].
  split; [intro n; eapply obs_char_at; eauto|]. intros x -> c. eapply obs_find; eauto.
Qed.
Print Assumptions C38_sequence_partial.

(** The operations of the property only: with non-zero reservations, every history on one
    buffer runs, and gives what the same operations give on a sequence. *)
Inductive edit := App (x : str) | Cut (n : nat) | Room (n : nat) | Wipe.
Definition edit_op (o : edit) : op :=
  match o with App x => Append 0 x | Cut n => Truncate 0 n | Room n => Reserve 0 n | Wipe => Clear 0 end.
Fixpoint edited (v : str) (l : list edit) : str :=
  match l with
  | [] => v
  | App x :: r => edited (v ++ x) r
  | Cut n :: r => edited (if length v <? n then v else firstn n v) r
  | Room _ :: r => edited v r
  | Wipe :: r => edited [] r
  end.
Lemma edited_plain : forall l e v, e 0 = Some (map Some v) ->
  exists e' r, plain_run e (map edit_op l) e' r /\ e' 0 = Some (map Some (edited v l)).
Proof.
  induction l as [|o l IH]; intros e v E.
  - do 2 eexists. split; [constructor|exact E].
  - assert (S0 : forall w, bind_var e 0 (Some w) 0 = Some w) by reflexivity.
    destruct o as [x|n|n|]; cbn [map edit_op edited].
    + destruct (IH (bind_var e 0 (Some (map Some v ++ map Some x))) (v ++ x)) as (e' & r & P & Q).
      { rewrite map_app. apply S0. }
      do 2 eexists. split; [econstructor; [apply (p_append e 0 _ x E)|exact P]|exact Q].
    + destruct (Nat.ltb_spec (length v) n) as [L|L].
      * destruct (IH e v E) as (e' & r & P & Q).
        do 2 eexists. split; [econstructor; [apply (p_truncate_error e 0 _ n E); rewrite map_length; exact L|exact P]|exact Q].
      * destruct (IH (bind_var e 0 (Some (firstn n (map Some v)))) (firstn n v)) as (e' & r & P & Q).
        { rewrite firstn_map. apply S0. }
        do 2 eexists. split; [econstructor; [apply (p_truncate e 0 _ n E); rewrite map_length; exact L|exact P]|exact Q].
    + destruct (IH e v E) as (e' & r & P & Q).
      do 2 eexists. split; [econstructor; [apply p_reserve; unfold alive; congruence|exact P]|exact Q].
    + destruct (IH (bind_var e 0 (Some [])) []) as (e' & r & P & Q); [apply S0|].
      do 2 eexists. split; [econstructor; [apply p_clear; unfold alive; congruence|exact P]|exact Q].
Qed.
Theorem C38_edits_partial : forall (l : list edit), (forall n, In (Room n) l -> n <> 0) ->
  exists s r, run start (New 0 :: map edit_op l) = Ret (s, r) /\ contents s 0 = Ret (map Some (edited [] l)).
Proof.
  intros l R. destruct (edited_plain l (bind_var empty_env 0 (Some [])) [] eq_refl) as (e' & r & P & Q).
  assert (P' : plain_run empty_env (New 0 :: map edit_op l) e' (false :: r)) by (econstructor; [now apply p_new|exact P]).
  destruct (C38_sequence_partial _ _ _ P') as (s & S1 & S2).
  - constructor; [exact I|]. apply Forall_forall. intros o IN. apply in_map_iff in IN as (x & <- & IN).
    destruct x; cbn; auto.
  - do 2 eexists. split; [exact S1|]. now apply S2.
Qed.
Print Assumptions C38_edits_partial.

(** One history with copies, moves, an error and growth. *)
Example C38_case :
  match run start [New 0; Append 0 (s_ "hello"); NewCopy 1 0; Append 1 (s_ " world"); Truncate 0 9; Truncate 0 2;
                   NewMove 2 1; AssignCopy 1 0; Reserve 1 7; AssignMove 0 2; Clear 2; Append 2 (s_ "x")] with
  | Ret (s, r) => r = [false; false; false; false; true; false; false; false; false; false; false; false] /\
      contents s 0 = Ret (map Some (s_ "hello world")) /\ contents s 1 = Ret (map Some (s_ "he")) /\
      contents s 2 = Ret (map Some (s_ "x")) /\ find s 0 "o"%char = Ret (Some 4) /\ char_at s 0 11 = Throw
  | _ => False
  end.
Proof. vm_compute. repeat split. Qed.

(** reserve(0) on a buffer that holds an empty block raises, and is not without effect: a
    buffer built from an empty text. *)
Theorem C38_reserve_zero_refuted :
  exists ops e, plain_run empty_env ops e [false; false] /\
  match run start ops with Ret (_, r) => r = [false; true] | _ => False end.
Proof.
  exists [NewFrom 0 []; Reserve 0 0]. eexists. split.
  - econstructor; [now apply p_new_from|]. econstructor; [apply p_reserve; unfold alive; now cbn|constructor].
  - vm_compute. reflexivity.
Qed.
Print Assumptions C38_reserve_zero_refuted.

(** Assigning a buffer to itself: its bytes are freed, and fresh, never initialised memory
    is copied onto itself; the contents become indeterminate. *)
Lemma store_x x : store [Some (repeat None (length x))] (Some 0) 0 (map Some x) = Ret [Some (map Some x)].
Proof. pose proof (store_new' [] (map Some x)) as S0. rewrite map_length in S0. exact S0. Qed.
Theorem C38_self_copy_refuted : forall x, x <> [] ->
  exists s, run start [NewFrom 0 x; AssignCopy 0 0] = Ret (s, [false; false]) /\
  contents s 0 = Ret (repeat None (length x)).
Proof.
  intros x N. cbn [run step]. unfold dead, get. cbn [st_vars start st_heap bind malloc app length].
  rewrite store_x. cbn [bind upd st_vars st_heap set_var Nat.eqb b_data free nth_error app].
  cbn [put_block malloc app length bind b_size b_mark]. unfold set_var. cbn [Nat.eqb bind b_data].
  assert (L : load [None; Some (repeat None (length x))] (Some 1) 0 (length x) = Ret (repeat None (length x))).
  { unfold load. destruct (Nat.eqb_spec (length x) 0) as [Z|Z]; [now rewrite Z|]. cbn [nth_error skipn]. rewrite repeat_length.
    assert (0 + length x <=? length x = true) as -> by (apply Nat.leb_le; lia).
    now rewrite firstn_all2 by (rewrite repeat_length; lia). }
  rewrite L. cbn [bind].
  pose proof (store_new' [None] (repeat None (length x))) as ST. rewrite repeat_length in ST. cbn [app length] in ST.
  rewrite ST. cbn [bind]. eexists. split; [reflexivity|]. unfold contents, get. cbn [st_vars Nat.eqb bind st_heap b_data b_size].
  exact L.
Qed.
Print Assumptions C38_self_copy_refuted.

(** Moving a buffer onto itself empties it. *)
Theorem C38_self_move_refuted : forall x, x <> [] ->
  exists s, run start [NewFrom 0 x; AssignMove 0 0] = Ret (s, [false; false]) /\ contents s 0 = Ret [].
Proof.
  intros x N. cbn [run step]. unfold dead, get. cbn [st_vars start st_heap bind malloc app length].
  rewrite store_x. eexists. split; reflexivity.
Qed.
Print Assumptions C38_self_move_refuted.

(** The mark of a copy is never set: reading it is undefined. *)
Theorem C38_copied_mark_refuted : forall x m,
  exists s, run start [NewFrom 0 x; SetMark 0 m; NewCopy 1 0] = Ret (s, [false; false; false]) /\
  mark s 0 = Ret m /\ mark s 1 = UB.
Proof.
  intros x m.
  destruct (C38_sequence_partial [NewFrom 0 x; SetMark 0 m; NewCopy 1 0]
     (bind_var (bind_var empty_env 0 (Some (map Some x))) 1 (Some (map Some x))) [false; false; false]) as (s & R & _).
  - econstructor; [now apply p_new_from|]. econstructor; [apply p_mark; unfold alive; now cbn|].
    econstructor; [now apply p_new_copy|constructor].
  - repeat constructor.
  - exists s. split; auto. revert R. cbn [run step]. unfold dead, get. cbn [st_vars start st_heap bind malloc app length].
    rewrite store_x. cbn [bind upd st_vars st_heap]. unfold set_var. cbn [Nat.eqb bind].
    cbn [st_vars b_size b_data malloc app length bind st_heap].
    unfold upd, set_var, malloc. cbn [st_vars Nat.eqb bind st_heap b_data b_size b_alloc b_mark app length start].
    match goal with |- context [load ?a ?b ?c ?d] => destruct (load a b c d) as [y| | | |] end; cbn [bind]; try discriminate.
    match goal with |- context [store ?a ?b ?c ?d] => destruct (store a b c d) end; cbn [bind]; try discriminate.
    intro Q. injection Q as <-. split; reflexivity.
Qed.
Print Assumptions C38_copied_mark_refuted.

(** Assigning by move loses the block of the target: after everything was destroyed, memory is
    still allocated. *)
Definition live_blocks (h : heap) : nat := length (filter (fun b => match b with Some _ => true | None => false end) h).
Theorem C38_move_assign_leak_refuted : forall x y,
  exists s, run start [NewFrom 0 x; NewFrom 1 y; AssignMove 0 1; Destroy 0; Destroy 1] =
              Ret (s, [false; false; false; false; false]) /\ live_blocks (st_heap s) = 1.
Proof.
  intros x y. cbn [run step]. unfold dead, get. cbn [st_vars start st_heap bind malloc app length].
  rewrite store_x. cbn [bind upd st_vars st_heap app length]. unfold set_var. cbn [Nat.eqb bind app length].
  pose proof (store_new' [Some (map Some x)] (map Some y)) as ST. rewrite map_length in ST. cbn [app length] in ST. rewrite ST.
  cbn [bind st_vars Nat.eqb st_heap b_data b_size b_alloc free nth_error put_block]. eexists. split; [reflexivity|]. reflexivity.
Qed.
Print Assumptions C38_move_assign_leak_refuted.
