(** C111: open files. *)
From Verif Require Import Base Handle_Model.
From Coq Require Import NArith ZArith Permutation.

(* ---------------- specification ---------------- *)
(** The File object in variable [v] has the descriptor [n]. *)
Definition owns (st : state) (v n : nat) : Prop := exists f, get st v = Some f /\ f_fd f = Some n.
Definition is_open (st : state) (n : nat) : Prop := In n (map fst (fds (the_sys st))).
Definition file_exists (st : state) (name : str) : Prop := exists i, In (name, i) (names (the_sys st)).
(** The state of a process that has no File objects yet. *)
Definition fresh_start (st : state) : Prop := objects st = [] /\ NoDup (map fst (fds (the_sys st))).
(** The operations on an object, but for those that make or end one. *)
Definition use (v : nat) (o : op) : Prop :=
  (exists p, o = Seek v p) \/ (exists n k, o = Read v n k) \/ (exists b k, o = Write v b k) \/ (exists n, o = Truncate v n) \/ o = GetSize v.
(** The same operation on another object. *)
Definition on (w : nat) (o : op) : op :=
  match o with Seek _ p => Seek w p | Read _ n k => Read w n k | Write _ b k => Write w b k | Truncate _ n => Truncate w n | GetSize _ => GetSize w | _ => o end.

(* ---------------- lemmas ---------------- *)
Lemma lookup_in {B} k (l : list (nat * B)) v : NoDup (map fst l) -> (lookup Nat.eqb k l = Some v <-> In (k, v) l).
Proof.
  induction l as [|[k' v'] l IH]; intro N; cbn [lookup]; [split; [discriminate|intros []]|]. inversion N as [|? ? NI N']; subst.
  destruct (Nat.eqb_spec k k') as [->|D].
  - split; [intro E; injection E as ->; now left|]. intros [E|I]; [congruence|]. exfalso. apply NI. apply (in_map fst) in I. exact I.
  - rewrite (IH N'). split; [now right|]. intros [E|I]; [congruence|exact I].
Qed.
Lemma lookup_none {B} k (l : list (nat * B)) : lookup Nat.eqb k l = None <-> ~ In k (map fst l).
Proof.
  induction l as [|[k' v'] l IH]; cbn [lookup map In fst]; [tauto|]. destruct (Nat.eqb_spec k k') as [->|D]; [split; [discriminate|tauto]|]. rewrite IH. split; intros H; [intros [E|I]; [congruence|tauto]|tauto].
Qed.
Lemma lookup_remove {B} k (l : list (nat * B)) : forall j, lookup Nat.eqb j (remove_key Nat.eqb k l) = if Nat.eqb k j then None else lookup Nat.eqb j l.
Proof.
  intro j. induction l as [|[k' v'] l IH]; cbn [remove_key filter lookup fst]; [now destruct (k =? j)%nat|]. fold (remove_key Nat.eqb k l).
  destruct (Nat.eqb_spec k k') as [->|D]; cbn [negb].
  - rewrite IH. destruct (Nat.eqb_spec k' j) as [->|D']; [reflexivity|]. destruct (Nat.eqb_spec j k'); [congruence|reflexivity].
  - cbn [lookup]. rewrite IH. destruct (Nat.eqb_spec j k') as [->|D']; [|reflexivity]. destruct (Nat.eqb_spec k k'); [congruence|reflexivity].
Qed.
Lemma remove_keys {B} k (l : list (nat * B)) : forall j, In j (map fst (remove_key Nat.eqb k l)) <-> In j (map fst l) /\ j <> k.
Proof.
  intro j. rewrite !in_map_iff. unfold remove_key. split.
  - intros (x & <- & I). apply filter_In in I. destruct I as (I & E). split; [eauto|]. intro Q. rewrite Q, Nat.eqb_refl in E. discriminate.
  - intros ((x & <- & I) & D). exists x. split; [reflexivity|]. apply filter_In. split; [exact I|]. destruct (Nat.eqb_spec k (fst x)); [congruence|reflexivity].
Qed.
Lemma remove_nodup {B} k (l : list (nat * B)) : NoDup (map fst l) -> NoDup (map fst (remove_key Nat.eqb k l)).
Proof.
  induction l as [|[k' v'] l IH]; intro N; [constructor|]. inversion N as [|? ? NI N']; subst. cbn [remove_key filter fst]. fold (remove_key Nat.eqb k l).
  destruct (Nat.eqb k k'); cbn [negb]; [now apply IH|]. cbn [map fst]. constructor; [|now apply IH]. intro I. apply remove_keys in I. tauto.
Qed.
Lemma lowest_fresh l : forall k n, (list_max l < n + k)%nat -> ~ In (lowest k n l) l.
Proof.
  assert (M : forall x, In x l -> (x <= list_max l)%nat).
  { intros x I. pose proof (proj1 (list_max_le l (list_max l)) (le_n _)) as F. rewrite Forall_forall in F. now apply F. }
  induction k as [|k IH]; intros n H; cbn [lowest].
  - intro I. apply M in I. lia.
  - destruct (existsb (Nat.eqb n) l) eqn:E; [apply IH; lia|]. intro I. assert (existsb (Nat.eqb n) l = true); [|congruence].
    apply existsb_exists. exists n. split; [exact I|apply Nat.eqb_refl].
Qed.
Lemma new_fd_fresh s : ~ In (new_fd s) (map fst (fds s)).
Proof. unfold new_fd. apply lowest_fresh. lia. Qed.

Lemma get_put st v f j : get (put v f st) j = if Nat.eqb j v then Some f else get st j.
Proof.
  unfold get, put. cbn [objects lookup]. destruct (Nat.eqb_spec j v) as [->|D]; [reflexivity|]. rewrite lookup_remove.
  destruct (Nat.eqb_spec v j); [congruence|reflexivity].
Qed.

(** The invariant. [base]: the descriptors that the process had before. *)
Record inv (base : list nat) (st : state) : Prop := {
  i_nodup : NoDup (map fst (fds (the_sys st)));
  i_open : forall n, is_open st n <-> In n base \/ exists v, owns st v n;
  i_one : forall v w n, owns st v n -> owns st w n -> v = w;
  i_base : forall v n, owns st v n -> ~ In n base }.

Lemma owns_sys st s v n : owns (with_sys st s) v n <-> owns st v n.
Proof. reflexivity. Qed.
(** A new descriptor goes to a new object. *)
Lemma inv_new base st v f s n e : inv base st -> get st v = None -> f_fd f = Some n -> ~ is_open st n -> fds s = (n, e) :: fds (the_sys st) -> inv base (put v f (with_sys st s)).
Proof.
  intros [N O U B] G F NO E.
  assert (Ow : forall w m, owns (put v f (with_sys st s)) w m <-> (w = v /\ m = n) \/ owns st w m).
  { intros w m. unfold owns. rewrite get_put. change (get (with_sys st s) w) with (get st w). destruct (Nat.eqb_spec w v) as [->|D].
    - split.
      + intros (g & X & Y). injection X as <-. left. split; [reflexivity|congruence].
      + intros [(_ & ->)|(g & X & Y)]; [eauto|congruence].
    - split; [now right|]. intros [(X & _)|X]; [congruence|exact X]. }
  assert (Op : forall m, is_open (put v f (with_sys st s)) m <-> m = n \/ is_open st m).
  { intro m. unfold is_open. cbn [the_sys put with_sys]. rewrite E. cbn [map fst In]. split; intros [X|X]; auto. }
  constructor.
  - cbn [the_sys put with_sys]. rewrite E. cbn [map fst]. constructor; assumption.
  - intro m. rewrite Op, O. split.
    + intros [->|[X|(w & X)]]; [right; exists v; apply Ow; left; now split|now left|right; exists w; apply Ow; now right].
    + intros [X|(w & X)]; [right; now left|]. apply Ow in X. destruct X as [(_ & ->)|X]; [now left|right; right; eauto].
  - intros w w' m X Y. apply Ow in X. apply Ow in Y. destruct X as [(-> & ->)|X]; destruct Y as [(-> & E')|Y].
    + reflexivity. + exfalso. apply NO, O. right. eauto. + exfalso. subst. apply NO, O. right. eauto. + now apply (U w w' m).
  - intros w m X I. apply Ow in X. destruct X as [(_ & ->)|X]; [apply NO, O; now left|exact (B w m X I)].
Qed.
(** The system changes, but not which descriptors are open. *)
Lemma inv_sys base st s : inv base st -> map fst (fds s) = map fst (fds (the_sys st)) -> inv base (with_sys st s).
Proof.
  intros [N O U B] E. constructor.
  - cbn [the_sys with_sys]. now rewrite E.
  - intro n. unfold is_open. cbn [the_sys with_sys]. rewrite E. apply O.
  - intros v w n X Y. exact (U v w n X Y).
  - intros v n X. exact (B v n X).
Qed.

Lemma open_fds s name rd wr cr ex tr al s' fd : sys_open s name rd wr cr ex tr al = Some (s', fd) ->
  exists o, fds s' = (fd, (o, false)) :: fds s /\ ~ In fd (map fst (fds s)).
Proof.
  unfold sys_open. destruct (negb al); [discriminate|]. cbv zeta.
  assert (F : forall i c o, new_fd (mk_sys i c o (fds s)) = new_fd s) by reflexivity.
  destruct (lookup str_eqb name (names s)).
  - destruct (cr && ex); [discriminate|]. destruct tr; intro E; injection E as <- <-; eexists; (split; [reflexivity|]); rewrite ?F; apply new_fd_fresh.
  - destruct cr; [|discriminate]. intro E; injection E as <- <-; eexists; (split; [reflexivity|]); rewrite ?F; apply new_fd_fresh.
Qed.

Lemma step_inv base st o st' a : inv base st -> step st o = Some (st', a) -> inv base st'.
Proof.
  intros I H. pose proof I as [N O U B]. destruct o as [v name flags allowed|v w|v w|v|v pos|v n k|v b k|v n|v|v]; cbn [step] in H.
  - destruct (get st v) eqn:G; [discriminate|]. injection H as H. unfold open_file in H. cbv zeta in H.
    destruct (N.land flags (N.lor O_READ O_WRITE) =? 0)%N; [injection H as <- <-; exact I|].
    destruct (sys_open _ _ _ _ _ _ _ _) as [[s fd]|] eqn:S; [|injection H as <- <-; exact I]. injection H as <- <-. apply open_fds in S. destruct S as (o & E & NF).
    eapply inv_new; [exact I|exact G|reflexivity|exact NF|]. destruct (has flags O_AUTODELETE); [exact E|exact E].
  - destruct (get st v) eqn:G; [discriminate|]. destruct (get st w) as [f|] eqn:Gw; [|discriminate]. injection H as <- <-.
    assert (D : v <> w) by congruence.
    assert (Ow : forall x m, owns (put v f (put w (mk_file None (f_flags f)) st)) x m <-> (x = v /\ owns st w m) \/ (x <> w /\ owns st x m)).
    { intros x m. unfold owns. rewrite !get_put. destruct (Nat.eqb_spec x v) as [->|Dv].
      - rewrite G, Gw. split; [intros (g & X & Y); left; split; [reflexivity|]; exists g; split; congruence|].
        intros [(_ & g & X & Y)|(_ & g & X & Y)]; [exists f; split; congruence|congruence].
      - destruct (Nat.eqb_spec x w) as [->|Dw].
        + split; [intros (g & X & Y); injection X as <-; discriminate|]. intros [(X & _)|(X & _)]; congruence.
        + split; [intros X; right; now split|]. intros [(X & _)|(_ & X)]; [congruence|exact X]. }
    assert (OO : forall m, (exists x, owns (put v f (put w (mk_file None (f_flags f)) st)) x m) <-> exists x, owns st x m).
    { intro m. split.
      - intros (x & X). apply Ow in X. destruct X as [(_ & X)|(_ & X)]; eauto.
      - intros (x & X). destruct (Nat.eq_dec x w) as [->|Dx]; [exists v; apply Ow; left; now split|exists x; apply Ow; right; now split]. }
    constructor; [exact N| | |].
    + intro m. rewrite OO. apply O.
    + intros x y m X Y. apply Ow in X. apply Ow in Y. destruct X as [(-> & X)|(Dx & X)]; destruct Y as [(-> & Y)|(Dy & Y)]; [reflexivity| | |now apply (U x y m)].
      * exfalso. apply Dy. now apply (U y w m). * exfalso. apply Dx. now apply (U x w m).
    + intros x m X. apply Ow in X. destruct X as [(_ & X)|(_ & X)]; [exact (B w m X)|exact (B x m X)].
  - destruct (get st v) eqn:G; [discriminate|]. destruct (get st w) as [f|] eqn:Gw; [|discriminate]. destruct (f_fd f) as [n|] eqn:F; [|injection H as <- <-; exact I].
    destruct (lookup Nat.eqb n (fds (the_sys st))) as [[d c]|]; [|injection H as <- <-; exact I]. injection H as <- <-.
    eapply inv_new; [exact I|exact G|reflexivity|apply new_fd_fresh|reflexivity].
  - destruct (get st v) as [f|] eqn:G; [|discriminate]. injection H as <- <-.
    set (st0 := mk_state (the_sys st) (remove_key Nat.eqb v (objects st))).
    assert (Ow : forall s x m, owns (with_sys st0 s) x m <-> x <> v /\ owns st x m).
    { intros s x m. unfold owns. unfold get at 1. cbn [with_sys st0 objects]. rewrite lookup_remove. destruct (Nat.eqb_spec v x) as [->|D].
      - split; [intros (g & X & _); discriminate|tauto]. - split; [intro X; split; [congruence|exact X]|tauto]. }
    destruct (f_fd f) as [n|] eqn:F.
    + assert (On : owns st v n) by (exists f; now split). constructor.
      * cbn [the_sys with_sys sys_close fds]. now apply remove_nodup.
      * intro m. unfold is_open. cbn [the_sys with_sys sys_close fds]. rewrite remove_keys. fold (is_open st m). rewrite O. split.
        { intros ([X|(x & X)] & D); [now left|]. right. exists x. apply Ow. split; [|exact X]. intros ->. apply D. destruct X as (g & X & Y). congruence. }
        { intros [X|(x & X)]; [split; [now left|]; intros ->; exact (B v n On X)|]. apply Ow in X. destruct X as (D & X). split; [right; eauto|]. intros ->. apply D. exact (U x v n X On). }
      * intros x y m X Y. apply Ow in X. apply Ow in Y. apply (U x y m); tauto.
      * intros x m X. apply Ow in X. apply (B x m). tauto.
    + change st0 with (with_sys st0 (the_sys st)). constructor; [exact N| | |].
      * intro m. change (is_open (with_sys st0 (the_sys st)) m) with (is_open st m). rewrite O. split; (intros [X|(x & X)]; [now left|right; exists x; apply Ow || apply Ow in X; try tauto]).
        split; [|exact X]. intros ->. destruct X as (g & X & Y). congruence.
      * intros x y m X Y. apply Ow in X. apply Ow in Y. apply (U x y m); tauto.
      * intros x m X. apply Ow in X. apply (B x m). tauto.
  - destruct (get st v) as [f|]; [|discriminate]. injection H as H. destruct (fd_ofd _ _) as [[o d]|]; [|injection H as <- <-; exact I].
    destruct (_ <? _)%Z; injection H as <- <-; [apply inv_sys; [exact I|reflexivity]|exact I].
  - destruct (get st v) as [f|]; [|discriminate]. injection H as H. destruct (fd_ofd _ _) as [[o d]|]; [|injection H as <- <-; exact I].
    destruct (of_read d); injection H as <- <-; [apply inv_sys; [exact I|reflexivity]|exact I].
  - destruct (get st v) as [f|]; [|discriminate]. injection H as H. destruct (fd_ofd _ _) as [[o d]|]; [|injection H as <- <-; exact I].
    destruct (of_write d); injection H as <- <-; [apply inv_sys; [exact I|reflexivity]|exact I].
  - destruct (get st v) as [f|]; [|discriminate]. injection H as H. destruct (fd_ofd _ _) as [[o d]|]; [|injection H as <- <-; exact I].
    destruct (of_write d); injection H as <- <-; [apply inv_sys; [exact I|reflexivity]|exact I].
  - destruct (get st v) as [f|]; [|discriminate]. injection H as H. destruct (fd_ofd _ _) as [[o d]|]; injection H as <- <-; exact I.
  - destruct (get st v) as [f|]; [|discriminate]. injection H as <- <-. exact I.
Qed.
Lemma start_inv st : fresh_start st -> inv (map fst (fds (the_sys st))) st.
Proof.
  intros (E & N). assert (NO : forall v n, ~ owns st v n) by (intros v n (f & G & _); unfold get in G; rewrite E in G; discriminate).
  constructor; [exact N| | |]; intros; try (exfalso; eapply NO; eassumption).
  unfold is_open. split; [now left|]. intros [X|(v & X)]; [exact X|exfalso; eapply NO; eassumption].
Qed.
Lemma history_inv base st l st' : inv base st -> history st l st' -> inv base st'.
Proof. intros I H. induction H as [|st o a st1 l st2 S H IH]; [exact I|]. apply IH. eapply step_inv; eassumption. Qed.

(** C111. Whatever is done with files: the open descriptors are those of before and those of the live
    objects, and no two objects have the same one. So no descriptor is lost, and none is closed twice
    or while another object has it; when all objects are gone, all is as it was. *)
Theorem C111_owned : forall (st st' : state) (l : list (op * answer)), fresh_start st -> history st l st' ->
  (forall n, is_open st' n <-> is_open st n \/ exists v, owns st' v n) /\
  (forall v w n, owns st' v n -> owns st' w n -> v = w) /\ (forall v n, owns st' v n -> ~ is_open st n) /\
  (objects st' = [] -> forall n, is_open st' n <-> is_open st n).
Proof.
  intros st st' l F H. destruct (history_inv _ _ _ _ (start_inv _ F) H) as [N O U B]. split; [exact O|]. split; [exact U|]. split; [exact B|].
  intros E n. rewrite O. split; [|now left]. intros [X|(v & f & G & _)]; [exact X|]. unfold get in G. rewrite E in G. discriminate.
Qed.
Print Assumptions C111_owned.

(** C111. An object that was moved away is of no use, and does no harm. *)
Theorem C111_moved : forall (st st1 : state) (v w : nat) (a : answer), step st (Move v w) = Some (st1, a) ->
  a = Done /\ (forall n, owns st1 v n <-> owns st w n) /\ (forall n, ~ owns st1 w n) /\
  (forall o, use w o -> step st1 o = Some (st1, Raised)) /\ (forall x, get st1 x = None -> step st1 (Clone x w) = Some (st1, Raised)).
Proof.
  intros st st1 v w a H. cbn [step] in H. destruct (get st v) eqn:G; [discriminate|]. destruct (get st w) as [f|] eqn:Gw; [|discriminate]. injection H as <- <-.
  assert (D : v <> w) by congruence. set (st1 := put v f (put w (mk_file None (f_flags f)) st)).
  assert (W : get st1 w = Some (mk_file None (f_flags f))).
  { unfold st1. rewrite !get_put. destruct (Nat.eqb_spec w v); [congruence|]. now rewrite Nat.eqb_refl. }
  assert (V : get st1 v = Some f) by (unfold st1; rewrite get_put, Nat.eqb_refl; reflexivity).
  split; [reflexivity|]. split; [intro n; unfold owns; rewrite V, Gw; reflexivity|]. split; [intros n (g & X & Y); rewrite W in X; injection X as <-; discriminate|]. split.
  - intros o [(p & ->)|[(n & k & ->)|[(b & k & ->)|[(n & ->)| ->]]]]; cbn [step]; rewrite W; reflexivity.
  - intros x X. cbn [step]. rewrite X, W. reflexivity.
Qed.
Print Assumptions C111_moved.

(* ---------------- contents ---------------- *)
Lemma update_nth {A} (l : list A) : forall i a, (i < length l)%nat -> nth_error (update i a l) i = Some a.
Proof. induction l as [|x l IH]; intros [|i] a H; cbn [length] in H; try lia; cbn [update nth_error]; [reflexivity|]. apply IH. lia. Qed.
Lemma update_other {A} (l : list A) : forall i j a, i <> j -> nth_error (update i a l) j = nth_error l j.
Proof. induction l as [|x l IH]; intros [|i] [|j] a H; cbn [update nth_error]; try reflexivity; try congruence. apply IH. congruence. Qed.
Lemma update_length {A} (l : list A) : forall i a, length (update i a l) = length l.
Proof. induction l as [|x l IH]; intros [|i] a; cbn [update length]; [reflexivity..|]. now rewrite IH. Qed.
Lemma patch_at old p b : b <> [] -> firstn (length b) (skipn p (patch old p b)) = b.
Proof.
  intro NE. unfold patch. destruct b as [|c b]; [congruence|]. set (x := c :: b) in *. rewrite app_assoc.
  assert (L : length (firstn p old ++ repeat zero (p - length old)) = p) by (rewrite app_length, firstn_length, repeat_length; lia).
  rewrite skipn_app, skipn_all2 by lia. rewrite L, Nat.sub_diag. cbn [app skipn]. rewrite firstn_app, firstn_all, Nat.sub_diag. cbn [firstn]. apply app_nil_r.
Qed.
(** A descriptor that stands for something: all indices are in range. *)
Definition sound (s : sys) : Prop :=
  (forall d, In d (ofds s) -> (of_file d < length (contents s))%nat) /\ (forall n i, In (n, i) (names s) -> (i < length (contents s))%nat) /\
  (forall d, In d (ofds s) -> of_append d = false).
Lemma fd_ofd_some s fd o d : fd_ofd s fd = Some (o, d) -> nth_error (ofds s) o = Some d.
Proof. unfold fd_ofd. destruct fd as [n|]; [|discriminate]. destruct (lookup _ _ _) as [[o' c]|]; [|discriminate]. destruct (nth_error (ofds s) o') eqn:E; [|discriminate]. intro X. injection X as -> ->. exact E. Qed.
Lemma fd_ofd_set_pos s fd o d p : fd_ofd s fd = Some (o, d) ->
  fd_ofd (set_pos s o d p) fd = Some (o, mk_ofd (of_file d) p (of_read d) (of_write d) (of_append d)).
Proof.
  intro H. pose proof (fd_ofd_some _ _ _ _ H) as E. assert (L : (o < length (ofds s))%nat) by (apply nth_error_Some; congruence).
  unfold fd_ofd in *. destruct fd as [n|]; [|discriminate]. unfold set_pos. cbn [fds ofds]. destruct (lookup _ _ _) as [[o' c]|]; [|discriminate].
  destruct (nth_error (ofds s) o') eqn:Q; [|discriminate]. injection H as -> ->. now rewrite update_nth.
Qed.
Lemma data_set s d b : (of_file d < length (contents s))%nat -> forall d', of_file d' = of_file d -> data_of (set_data s d b) d' = b.
Proof. intros L d' E. unfold data_of, set_data. cbn [contents]. rewrite E. apply nth_error_nth. now apply update_nth. Qed.

Lemma Some_inj {A} (x y : A) : Some x = Some y -> x = y.
Proof. congruence. Qed.
(** C111. What was written can be read: after writing all bytes at a position, the same bytes are
    there. *)
Theorem C111_write_read : forall (st st' : state) (v p k n k' : nat) (b x : list ascii),
  sound (the_sys st) -> (length b <= n)%nat -> (n <= k')%nat ->
  history st [(Seek v p, Done); (Write v b k, Done); (Seek v p, Done); (Read v n k', Bytes x)] st' -> firstn (length b) x = b.
Proof.
  intros st st' v p k n k' b x (S1 & S2 & S3) Ln Lk H.
  inversion H as [|? ? ? s1 ? ? H1 H']; subst. inversion H' as [|? ? ? s2 ? ? H2 H'']; subst. inversion H'' as [|? ? ? s3 ? ? H3 H3']; subst. inversion H3' as [|? ? ? s4 ? ? H4 H4']; subst. inversion H4'; subst.
  clear H H' H'' H3' H4'. cbn [step] in H1. destruct (get st v) as [f|] eqn:G; [|discriminate]. apply Some_inj in H1.
  destruct (fd_ofd (the_sys st) (f_fd f)) as [[o d]|] eqn:F; [|discriminate]. destruct (Z.of_nat p <? 2 ^ 63)%Z; [|discriminate]. injection H1 as <-.
  pose proof (fd_ofd_some _ _ _ _ F) as E. apply nth_error_In in E. pose proof (S1 d E) as Lf. pose proof (S3 d E) as Ap.
  set (d1 := mk_ofd (of_file d) p (of_read d) (of_write d) (of_append d)).
  cbn [step] in H2. change (get (with_sys st (set_pos (the_sys st) o d p)) v) with (get st v) in H2. rewrite G in H2. cbn [the_sys with_sys] in H2. rewrite (fd_ofd_set_pos _ _ _ _ p F) in H2. fold d1 in H2.
  apply Some_inj in H2. destruct (of_write d1); [|discriminate]. destruct (length (firstn k b) =? length b)%nat eqn:Lb; [|discriminate]. apply Nat.eqb_eq in Lb.
  assert (Fb : firstn k b = b) by (rewrite firstn_length in Lb; apply firstn_all2; lia). rewrite Fb in H2. cbn [of_append d1] in H2. rewrite Ap in H2. injection H2 as <-.
  set (sa := set_pos (the_sys st) o d p) in *.
  set (sb := set_data sa d1 (patch (data_of sa d1) (of_pos d1) b)) in *.
  assert (Fb1 : fd_ofd sb (f_fd f) = Some (o, d1)) by (change (fd_ofd sb (f_fd f)) with (fd_ofd sa (f_fd f)); apply (fd_ofd_set_pos _ _ _ _ p F)).
  pose proof (fd_ofd_set_pos _ _ _ _ (of_pos d1 + length b) Fb1) as Fc. set (sc := set_pos sb o d1 (of_pos d1 + length b)) in *.
  match type of Fc with _ = Some (o, ?z) => set (d2 := z) in * end.
  cbn [step] in H3. match type of H3 with context [get ?z v] => change (get z v) with (get st v) in H3 end. rewrite G in H3. cbn [the_sys with_sys] in H3. match type of H3 with context [fd_ofd ?z (f_fd f)] => change z with sc in H3 end. rewrite Fc in H3. apply Some_inj in H3.
  destruct (Z.of_nat p <? 2 ^ 63)%Z; [|discriminate]. injection H3 as <-. pose proof (fd_ofd_set_pos _ _ _ _ p Fc) as Fd. set (sd := set_pos sc o d2 p) in *.
  match type of Fd with _ = Some (o, ?z) => set (d3 := z) in * end.
  cbn [step] in H4. match type of H4 with context [get ?z v] => change (get z v) with (get st v) in H4 end. rewrite G in H4. cbn [the_sys with_sys] in H4. match type of H4 with context [fd_ofd ?z (f_fd f)] => change z with sd in H4 end. rewrite Fd in H4. apply Some_inj in H4.
  destruct (of_read d3); [|discriminate]. injection H4 as _ H4.
  assert (D : data_of sd d3 = patch (data_of sa d1) p b).
  { change (data_of sd d3) with (data_of sb d3). unfold sb. apply data_set; [exact Lf|reflexivity]. }
  rewrite D in H4. cbn [of_pos d3] in H4. rewrite <- H4. rewrite firstn_firstn. replace (Nat.min (length b) (Nat.min n k')) with (length b) by lia.
  destruct b as [|c b]; [reflexivity|]. apply patch_at. discriminate.
Qed.
Print Assumptions C111_write_read.

(** C111. A write that is reported has written everything at the position; nothing else changed. One
    that raises an exception for lack of space may have written the beginning. *)
Definition content_at (st : state) (v : nat) (c : list ascii) : Prop :=
  exists f o d, get st v = Some f /\ fd_ofd (the_sys st) (f_fd f) = Some (o, d) /\ data_of (the_sys st) d = c.
Theorem C111_write : forall (st st' : state) (v p k : nat) (b old : list ascii) (a : answer),
  sound (the_sys st) -> content_at st v old -> history st [(Seek v p, Done); (Write v b k, a)] st' ->
  (a = Done /\ content_at st' v (patch old p b)) \/ (a = Raised /\ exists m, content_at st' v (patch old p (firstn m b))).
Proof.
  intros st st' v p k b old a (S1 & S2 & S3) (f & o & d & G & F & C) H.
  inversion H as [|? ? ? s1 ? ? H1 H']; subst. inversion H' as [|? ? ? s2 ? ? H2 H'']; subst. inversion H''; subst. clear H H' H''.
  cbn [step] in H1. rewrite G, F in H1. apply Some_inj in H1. destruct (Z.of_nat p <? 2 ^ 63)%Z; [|discriminate]. injection H1 as <-.
  pose proof (fd_ofd_some _ _ _ _ F) as E. apply nth_error_In in E. pose proof (S1 d E) as Lf. pose proof (S3 d E) as Ap.
  set (d1 := mk_ofd (of_file d) p (of_read d) (of_write d) (of_append d)).
  cbn [step] in H2. change (get (with_sys st (set_pos (the_sys st) o d p)) v) with (get st v) in H2. rewrite G in H2. cbn [the_sys with_sys] in H2. rewrite (fd_ofd_set_pos _ _ _ _ p F) in H2. fold d1 in H2.
  set (sa := set_pos (the_sys st) o d p) in *. apply Some_inj in H2.
  destruct (of_write d1).
  - cbn [of_append d1] in H2. rewrite Ap in H2. injection H2 as <- A.
    set (w := firstn k b) in *. set (sb := set_data sa d1 (patch (data_of sa d1) (of_pos d1) w)) in *.
    assert (Fb1 : fd_ofd sb (f_fd f) = Some (o, d1)) by (change (fd_ofd sb (f_fd f)) with (fd_ofd sa (f_fd f)); apply (fd_ofd_set_pos _ _ _ _ p F)).
    pose proof (fd_ofd_set_pos _ _ _ _ (of_pos d1 + length w) Fb1) as Fc. set (sc := set_pos sb o d1 (of_pos d1 + length w)) in *.
    assert (X : content_at (with_sys (with_sys st sa) sc) v (patch (data_of (the_sys st) d) p w)).
    { eexists f, o, _. split; [exact G|]. split; [exact Fc|]. change (data_of (the_sys (with_sys (with_sys st sa) sc))) with (data_of sb). unfold sb. apply data_set; [exact Lf|reflexivity]. }
    destruct (Nat.eqb_spec (length w) (length b)) as [Lw|Lw].
    + left. split; [congruence|]. assert (Fw : w = b) by (unfold w in *; rewrite firstn_length in Lw; apply firstn_all2; lia). rewrite <- Fw. exact X.
    + right. split; [congruence|]. exists k. exact X.
  - injection H2 as <- <-. right. split; [reflexivity|]. exists 0%nat. cbn [firstn patch]. eexists f, o, d1. split; [exact G|]. split; [apply (fd_ofd_set_pos _ _ _ _ p F)|]. reflexivity.
Qed.
Print Assumptions C111_write.

(* ---------------- opening ---------------- *)
Lemma names_lookup (l : list (str * nat)) name : lookup str_eqb name l <> None <-> exists i, In (name, i) l.
Proof.
  induction l as [|[n i] l IH]; cbn [lookup]; [split; [congruence|intros (i & [])]|]. destruct (str_eqb_spec name n) as [->|D].
  - split; [intros _; exists i; now left|discriminate].
  - rewrite IH. split; intros (j & I); exists j; [now right|destruct I as [E|I]; [congruence|exact I]].
Qed.
Lemma names_remove (l : list (str * nat)) name : lookup str_eqb name (remove_key str_eqb name l) = None.
Proof.
  induction l as [|[n i] l IH]; [reflexivity|]. cbn [remove_key filter fst]. fold (remove_key str_eqb name l). destruct (str_eqb name n) eqn:E; cbn [negb]; [exact IH|]. cbn [lookup]. now rewrite E.
Qed.
Definition wants (flags f : N) : Prop := N.land flags f <> 0%N.
Lemma has_spec flags f : has flags f = true <-> wants flags f.
Proof. unfold has, wants. rewrite N.ltb_lt. lia. Qed.

(** C111. When a file can be opened (if the system does not refuse): with the wish to read or to
    write, and if it exists and need not be new, or is to be created. *)
Theorem C111_open : forall (st : state) (v : nat) (name : str) (flags : N), get st v = None ->
  exists st' a, step st (Open v name flags true) = Some (st', a) /\
  (a = Done <-> (wants flags O_READ \/ wants flags O_WRITE) /\
                (file_exists st name -> ~ wants flags O_CREATE \/ wants flags O_CREATEOROPEN) /\
                (~ file_exists st name -> wants flags O_CREATE \/ wants flags O_CREATEOROPEN)) /\
  (a <> Done -> a = Raised /\ st' = st) /\
  (a = Done -> (file_exists st' name <-> ~ wants flags O_AUTODELETE)).
Proof.
  intros st v name flags G. cbn [step]. rewrite G.
  assert (M : (N.land flags (N.lor O_READ O_WRITE) =? 0)%N = true <-> ~ (wants flags O_READ \/ wants flags O_WRITE)).
  { rewrite N.eqb_eq, N.land_lor_distr_r, N.lor_eq_0_iff. unfold wants. lia. }
  pose proof (has_spec flags O_CREATEOROPEN) as H8. pose proof (has_spec flags O_CREATE) as H4. pose proof (has_spec flags O_AUTODELETE) as H64.
  unfold open_file. cbv zeta.
  destruct (N.land flags (N.lor O_READ O_WRITE) =? 0)%N.
  { exists st, Raised. split; [reflexivity|]. split; [|split; [now split|discriminate]]. split; [discriminate|]. intros (X & _). exfalso. now apply (proj1 M eq_refl). }
  assert (RW : wants flags O_READ \/ wants flags O_WRITE).
  { unfold wants in *. destruct (N.eq_dec (N.land flags O_READ) 0) as [A|]; [|now left]. destruct (N.eq_dec (N.land flags O_WRITE) 0) as [B|]; [|now right].
    exfalso. assert (false = true) by (apply M; intros [X|X]; contradiction). discriminate. }
  unfold sys_open. cbn [negb]. cbv zeta. pose proof (names_lookup (names (the_sys st)) name) as NL. fold (file_exists st name) in NL.
  assert (Del : forall s f, lookup str_eqb name (names s) <> None ->
     (file_exists (put v f (with_sys st (if has flags O_AUTODELETE then sys_unlink s name else s))) name <-> ~ wants flags O_AUTODELETE)).
  { intros s f X. unfold file_exists. cbn [the_sys put with_sys]. rewrite <- names_lookup. destruct (has flags O_AUTODELETE).
    - cbn [sys_unlink names]. rewrite names_remove. split; [congruence|]. intro Y. exfalso. apply Y. now apply H64.
    - split; [intros _ Y; apply H64 in Y; discriminate|intros _; exact X]. }
  destruct (lookup str_eqb name (names (the_sys st))) as [i|] eqn:Lk.
  - assert (X : file_exists st name) by (apply NL; discriminate).
    destruct (has flags O_CREATEOROPEN) eqn:E8; destruct (has flags O_CREATE) eqn:E4; cbn [orb andb negb];
      try (exists st, Raised; split; [reflexivity|]; split; [|split; [now split|discriminate]]; split; [discriminate|]; intros (_ & Y & _); exfalso; destruct (Y X) as [Z|Z]; [now apply Z, H4|apply H8 in Z; discriminate]).
    all: eexists _, Done; split; [reflexivity|]; split; [split; [intros _|reflexivity]|split; [congruence|intros _; apply Del; destruct (has flags O_TRUNCATE); cbn [names]; rewrite Lk; discriminate]].
    all: split; [exact RW|]; split; [intros _|contradiction].
    + right; now apply H8. + right; now apply H8. + left; intro Z; apply H4 in Z; discriminate.
  - assert (X : ~ file_exists st name) by (intro Y; apply NL in Y; congruence).
    destruct (has flags O_CREATEOROPEN) eqn:E8; destruct (has flags O_CREATE) eqn:E4; cbn [orb andb negb].
    4:{ exists st, Raised. split; [reflexivity|]. split; [|split; [now split|discriminate]]. split; [discriminate|]. intros (_ & _ & Y). exfalso. destruct (Y X) as [Z|Z]; [apply H4 in Z|apply H8 in Z]; discriminate. }
    all: eexists _, Done; split; [reflexivity|]; split; [split; [intros _|reflexivity]|split; [congruence|intros _; apply Del; cbn [names lookup]; destruct (str_eqb_spec name name); congruence]].
    all: split; [exact RW|]; split; [contradiction|intros _].
    + left; now apply H4. + right; now apply H8. + left; now apply H4.
Qed.
Print Assumptions C111_open.

(** C111. What an opened file contains, and what may be done with it. *)
Theorem C111_opened : forall (st st' : state) (v : nat) (name : str) (flags : N) (allowed : bool),
  sound (the_sys st) -> NoDup (map fst (names (the_sys st))) -> step st (Open v name flags allowed) = Some (st', Done) ->
  (forall i, In (name, i) (names (the_sys st)) -> ~ wants flags O_TRUNCATE -> content_at st' v (nth i (contents (the_sys st)) [])) /\
  (~ file_exists st name \/ wants flags O_TRUNCATE -> content_at st' v []) /\
  (forall n k, exists st2 b, step st' (Read v n k) = Some (st2, b) /\ (b = Raised <-> ~ wants flags O_READ)) /\
  (forall x k, (length x <= k)%nat -> exists st2 b, step st' (Write v x k) = Some (st2, b) /\ (b = Raised <-> ~ wants flags O_WRITE)) /\
  exists w, step st' (IsWritable v) = Some (st', Writable w) /\ (w = true <-> wants flags O_WRITE).
Proof.
  intros st st' v name flags allowed (S1 & S2 & S3) ND H. cbn [step] in H. destruct (get st v) eqn:G; [discriminate|]. apply Some_inj in H. unfold open_file in H. cbv zeta in H.
  destruct (N.land flags (N.lor O_READ O_WRITE) =? 0)%N eqn:M; [discriminate|].
  set (rd := (N.land flags (N.lor O_READ O_WRITE) =? O_READ)%N || (N.land flags (N.lor O_READ O_WRITE) =? N.lor O_READ O_WRITE)%N) in *.
  set (wr := (N.land flags (N.lor O_READ O_WRITE) =? O_WRITE)%N || (N.land flags (N.lor O_READ O_WRITE) =? N.lor O_READ O_WRITE)%N) in *.
  assert (RW : (rd = true <-> wants flags O_READ) /\ (wr = true <-> wants flags O_WRITE) /\ ((N.land flags O_WRITE =? O_WRITE)%N = wr)).
  { unfold rd, wr, wants, O_READ, O_WRITE in *. change (N.lor 1 2) with 3%N in *.
    assert (Z3 : N.land flags 3 = (flags mod 4)%N) by (change 3%N with (N.ones 2); rewrite N.land_ones; reflexivity).
    assert (Z1 : N.land flags 1 = (flags mod 4 mod 2)%N). { rewrite <- Z3. change 2%N with (2 ^ 1)%N. rewrite <- (N.land_ones (N.land flags 3) 1), <- N.land_assoc. reflexivity. }
    assert (Z2 : N.land flags 2 = N.land (flags mod 4) 2). { rewrite <- Z3, <- N.land_assoc. reflexivity. }
    rewrite Z3 in *. rewrite Z1, Z2. assert (B : (flags mod 4 < 4)%N) by (apply N.mod_lt; discriminate). destruct (flags mod 4)%N as [|[[p|p|]|[p|p|]|]]; try (exfalso; lia); cbn in M |- *; try discriminate M; (split; [|split]); try reflexivity; split; intro; congruence. }
  destruct RW as (Rr & Rw & Ww).
  destruct (sys_open _ _ _ _ _ _ _ _) as [[s fd]|] eqn:O; [|discriminate]. injection H as <-.
  unfold sys_open in O. destruct (negb allowed); [discriminate|]. cbv zeta in O.
  assert (K : exists c i, s = mk_sys (names s) c (ofds (the_sys st) ++ [mk_ofd i 0 rd wr false]) ((fd, (length (ofds (the_sys st)), false)) :: fds (the_sys st)) /\ (i < length c)%nat /\
     (forall j, In (name, j) (names (the_sys st)) -> i = j /\ (~ wants flags O_TRUNCATE -> c = contents (the_sys st))) /\ (~ file_exists st name \/ wants flags O_TRUNCATE -> nth i c [] = [])).
  { assert (LI : forall i, lookup str_eqb name (names (the_sys st)) = Some i -> In (name, i) (names (the_sys st)) /\ forall j, In (name, j) (names (the_sys st)) -> i = j).
    { clear - ND. induction (names (the_sys st)) as [|[n k] l IH]; intros i Q; [discriminate|]. cbn [lookup] in Q. inversion ND as [|? ? NI ND']; subst. destruct (str_eqb_spec name n) as [->|D].
      - injection Q as ->. split; [now left|]. intros j [E|I]; [congruence|]. exfalso. apply NI. apply (in_map fst) in I. exact I.
      - destruct (IH ND' i Q) as (A & B). split; [now right|]. intros j [E|I]; [congruence|now apply B]. }
    destruct (lookup str_eqb name (names (the_sys st))) as [i|] eqn:Lk.
    - destruct (LI i eq_refl) as (In1 & In2). pose proof (S2 name i In1) as Li. destruct (_ && _) in O; [discriminate O|]. pose proof (has_spec flags O_TRUNCATE) as HT. destruct (has flags O_TRUNCATE).
      + injection O as <- <-. exists (update i [] (contents (the_sys st))), i. split; [reflexivity|]. split; [rewrite update_length; exact Li|]. split.
        * intros j J. split; [now apply In2|]. intro Z. exfalso. apply Z. now apply HT.
        * intros _. apply nth_error_nth. now apply update_nth.
      + injection O as <- <-. exists (contents (the_sys st)), i. split; [reflexivity|]. split; [exact Li|]. split; [intros j J; split; [now apply In2|reflexivity]|].
        intros [Z|Z]; [exfalso; apply Z; now exists i|apply HT in Z; discriminate].
    - destruct (has flags O_CREATEOROPEN || has flags O_CREATE) in O; [|discriminate O]. injection O as <- <-. exists (contents (the_sys st) ++ [[]]), (length (contents (the_sys st))). split; [reflexivity|]. split; [rewrite app_length; cbn; lia|]. split.
      + intros j J. exfalso. assert (X : lookup str_eqb name (names (the_sys st)) <> None) by (apply names_lookup; eauto). congruence.
      + intros _. rewrite app_nth2, Nat.sub_diag by lia. reflexivity. }
  destruct K as (c & i & Es & Li & Kc & Ke). clear O.
  set (s' := if has flags O_AUTODELETE then sys_unlink s name else s).
  assert (E1 : ofds s' = ofds (the_sys st) ++ [mk_ofd i 0 rd wr false] /\ fds s' = (fd, (length (ofds (the_sys st)), false)) :: fds (the_sys st) /\ contents s' = c).
  { unfold s'. rewrite Es. destruct (has flags O_AUTODELETE); repeat split. }
  destruct E1 as (E1 & E2 & E3). set (f := mk_file (Some fd) flags). set (st1 := put v f (with_sys st s')).
  assert (Gv : get st1 v = Some f) by (unfold st1; rewrite get_put, Nat.eqb_refl; reflexivity).
  assert (Fo : fd_ofd (the_sys st1) (f_fd f) = Some (length (ofds (the_sys st)), mk_ofd i 0 rd wr false)).
  { unfold fd_ofd. cbn [f_fd f st1 the_sys put with_sys]. rewrite E2. cbn [lookup]. rewrite Nat.eqb_refl, E1, nth_error_app2, Nat.sub_diag by lia. reflexivity. }
  assert (Da : data_of (the_sys st1) (mk_ofd i 0 rd wr false) = nth i c []) by (unfold data_of; cbn [st1 the_sys put with_sys of_file]; now rewrite E3).
  split; [|split; [|split; [|split]]].
  - intros j J T. destruct (Kc j J) as (-> & Q). specialize (Q T). subst c. exists f, (length (ofds (the_sys st))), (mk_ofd j 0 rd wr false). split; [exact Gv|]. split; [exact Fo|]. rewrite Q in Da. exact Da.
  - intro T. exists f, (length (ofds (the_sys st))), (mk_ofd i 0 rd wr false). split; [exact Gv|]. split; [exact Fo|]. rewrite Da. now apply Ke.
  - intros n k. cbn [step]. rewrite Gv, Fo. cbn [of_read]. destruct rd.
    + eexists _, _. split; [reflexivity|]. split; [discriminate|]. intro Z. exfalso. apply Z. now apply Rr.
    + eexists _, _. split; [reflexivity|]. split; [|reflexivity]. intros _ Z. apply Rr in Z. discriminate.
  - intros x k Lx. cbn [step]. rewrite Gv, Fo. cbn [of_write]. destruct wr.
    + eexists _, _. split; [reflexivity|]. rewrite (firstn_all2 x) by exact Lx. rewrite Nat.eqb_refl. split; [discriminate|]. intro Z. exfalso. apply Z. now apply Rw.
    + eexists _, _. split; [reflexivity|]. split; [|reflexivity]. intros _ Z. apply Rw in Z. discriminate.
  - exists wr. split; [|exact Rw]. cbn [step]. rewrite Gv. cbn [f_flags f]. rewrite Ww. reflexivity.
Qed.
Print Assumptions C111_opened.

(* ---------------- clones ---------------- *)
(** Two objects with one open file: it makes no difference which is used, for the answer or for the
    system afterwards. *)
Definition same_effect (st : state) (v w : nat) : Prop :=
  forall o, use v o -> exists s1 s2 a, step st o = Some (s1, a) /\ step st (on w o) = Some (s2, a) /\ the_sys s1 = the_sys s2.
(** The operation ends the object in a variable, or moves it away. *)
Definition ends (v : nat) (o : op) : Prop := o = Destroy v \/ exists x, o = Move x v.

Definition stands (st : state) (v d : nat) : Prop := exists f n c, get st v = Some f /\ f_fd f = Some n /\ lookup Nat.eqb n (fds (the_sys st)) = Some (d, c).
Lemma stands_same st v w d : stands st v d -> stands st w d -> same_effect st v w.
Proof.
  intros (f & n & c & G & F & L) (g & m & c' & G' & F' & L').
  assert (E : fd_ofd (the_sys st) (f_fd f) = fd_ofd (the_sys st) (f_fd g)) by (rewrite F, F'; unfold fd_ofd; now rewrite L, L').
  intros o [(p & ->)|[(x & k & ->)|[(b & k & ->)|[(x & ->)| ->]]]]; cbn [on step]; rewrite G, G', E; clear E; destruct (fd_ofd (the_sys st) (f_fd g)) as [[i e]|];
    try destruct (_ <? _)%Z; try destruct (of_read e); try destruct (of_write e); eexists _, _, _; (split; [reflexivity|]); split; reflexivity.
Qed.
Lemma stands_new st s x h v d n e : stands st v d -> get st x = None -> fds s = (n, e) :: fds (the_sys st) -> ~ is_open st n -> stands (put x h (with_sys st s)) v d.
Proof.
  intros (f & m & c & G & F & L) X E NO. exists f, m, c. rewrite get_put. destruct (Nat.eqb_spec v x) as [->|D]; [congruence|]. split; [exact G|]. split; [exact F|].
  cbn [the_sys put with_sys]. rewrite E. cbn [lookup]. destruct (Nat.eqb_spec m n) as [->|D']; [|exact L]. exfalso. apply NO. unfold is_open.
  destruct (in_dec Nat.eq_dec n (map fst (fds (the_sys st)))) as [I|I]; [exact I|]. apply lookup_none in I. congruence.
Qed.
Lemma stands_sys st s v d : stands st v d -> fds s = fds (the_sys st) -> stands (with_sys st s) v d.
Proof. intros (f & m & c & G & F & L) E. exists f, m, c. split; [exact G|]. split; [exact F|]. cbn [the_sys with_sys]. now rewrite E. Qed.
Lemma stands_step base st o st' a v d : inv base st -> step st o = Some (st', a) -> ~ ends v o -> stands st v d -> stands st' v d.
Proof.
  intros [N O U B] H NE S. destruct o as [x name flags allowed|x w|x w|x|x pos|x n k|x b k|x n|x|x]; cbn [step] in H.
  - destruct (get st x) eqn:G; [discriminate|]. apply Some_inj in H. unfold open_file in H. cbv zeta in H.
    destruct (N.land flags (N.lor O_READ O_WRITE) =? 0)%N; [injection H as <- <-; exact S|].
    destruct (sys_open _ _ _ _ _ _ _ _) as [[s fd]|] eqn:Q; [|injection H as <- <-; exact S]. injection H as <- <-. apply open_fds in Q. destruct Q as (o & E & NF).
    eapply stands_new; [exact S|exact G| |exact NF]. destruct (has flags O_AUTODELETE); exact E.
  - destruct (get st x) eqn:G; [discriminate|]. destruct (get st w) as [f|] eqn:Gw; [|discriminate]. injection H as <- <-.
    destruct S as (g & m & c & Gv & F & L). exists g, m, c. rewrite !get_put. destruct (Nat.eqb_spec v x) as [->|D]; [congruence|]. destruct (Nat.eqb_spec v w) as [->|D'].
    + exfalso. apply NE. right. now exists x.
    + repeat split; assumption.
  - destruct (get st x) eqn:G; [discriminate|]. destruct (get st w) as [f|] eqn:Gw; [|discriminate]. destruct (f_fd f) as [n|] eqn:F; [|injection H as <- <-; exact S].
    destruct (lookup Nat.eqb n (fds (the_sys st))) as [[e c]|]; [|injection H as <- <-; exact S]. injection H as <- <-.
    eapply stands_new; [exact S|exact G|reflexivity|apply new_fd_fresh].
  - destruct (get st x) as [f|] eqn:G; [|discriminate]. injection H as <- <-. destruct S as (g & m & c & Gv & F & L).
    assert (D : v <> x) by (intros ->; apply NE; now left). exists g, m, c.
    assert (Gx : forall s, get (mk_state s (remove_key Nat.eqb x (objects st))) v = Some g).
    { intro s. unfold get. cbn [objects]. rewrite lookup_remove. destruct (Nat.eqb_spec x v); [congruence|exact Gv]. }
    destruct (f_fd f) as [n|] eqn:Fx.
    + split; [apply Gx|]. split; [exact F|]. cbn [the_sys with_sys sys_close fds]. rewrite lookup_remove. destruct (Nat.eqb_spec n m) as [->|D']; [|exact L].
      exfalso. apply D. apply (U v x m); [exists g; now split|exists f; now split].
    + split; [apply Gx|]. split; [exact F|exact L].
  - destruct (get st x) as [f|]; [|discriminate]. apply Some_inj in H. destruct (fd_ofd _ _) as [[i e]|]; [|injection H as <- <-; exact S].
    destruct (_ <? _)%Z; injection H as <- <-; [apply stands_sys; [exact S|reflexivity]|exact S].
  - destruct (get st x) as [f|]; [|discriminate]. apply Some_inj in H. destruct (fd_ofd _ _) as [[i e]|]; [|injection H as <- <-; exact S].
    destruct (of_read e); injection H as <- <-; [apply stands_sys; [exact S|reflexivity]|exact S].
  - destruct (get st x) as [f|]; [|discriminate]. apply Some_inj in H. destruct (fd_ofd _ _) as [[i e]|]; [|injection H as <- <-; exact S].
    destruct (of_write e); injection H as <- <-; [apply stands_sys; [exact S|reflexivity]|exact S].
  - destruct (get st x) as [f|]; [|discriminate]. apply Some_inj in H. destruct (fd_ofd _ _) as [[i e]|]; [|injection H as <- <-; exact S].
    destruct (of_write e); injection H as <- <-; [apply stands_sys; [exact S|reflexivity]|exact S].
  - destruct (get st x) as [f|]; [|discriminate]. apply Some_inj in H. destruct (fd_ofd _ _) as [[i e]|]; injection H as <- <-; exact S.
  - destruct (get st x) as [f|]; [|discriminate]. injection H as <- <-. exact S.
Qed.
(** C111. A clone and its original are two names for the same open file, with one position, for as
    long as both live: whatever else happens, including to other objects. *)
Theorem C111_clone : forall (st0 st st1 st' : state) (v w : nat) (l l' : list (op * answer)),
  fresh_start st0 -> history st0 l st -> step st (Clone v w) = Some (st1, Done) -> history st1 l' st' ->
  (forall o a, In (o, a) l' -> ~ ends v o /\ ~ ends w o) -> same_effect st' v w /\ same_effect st' w v.
Proof.
  intros st0 st st1 st' v w l l' F0 H0 C H NE. pose proof (history_inv _ _ _ _ (start_inv _ F0) H0) as I. pose proof (step_inv _ _ _ _ _ I C) as I1.
  assert (X : exists d, stands st1 v d /\ stands st1 w d).
  { cbn [step] in C. destruct (get st v) eqn:G; [discriminate|]. destruct (get st w) as [f|] eqn:Gw; [|discriminate]. destruct (f_fd f) as [n|] eqn:F; [|discriminate].
    destruct (lookup Nat.eqb n (fds (the_sys st))) as [[e c]|] eqn:L; [|discriminate]. injection C as <-. exists e. split.
    - eexists _, _, _. rewrite get_put, Nat.eqb_refl. split; [reflexivity|]. split; [reflexivity|]. cbn [the_sys put with_sys fds lookup]. rewrite Nat.eqb_refl. reflexivity.
    - eapply stands_new; [exists f, n, c; repeat split; eassumption|exact G|reflexivity|apply new_fd_fresh]. }
  destruct X as (d & Sv & Sw). clear C H0 F0 I. revert Sv Sw NE. induction H as [|s o a s1 l2 s2 S H IH]; intros Sv Sw NE.
  - split; eapply stands_same; eassumption.
  - destruct (NE o a (or_introl eq_refl)) as (Nv & Nw). apply IH; [eapply step_inv; eassumption|eapply stands_step; eassumption..|]. intros o' a' In'. apply (NE o' a'). now right.
Qed.
Print Assumptions C111_clone.

(** Computing a history. *)
Fixpoint run_ops (st : state) (l : list (op * answer)) : option (list answer * state) :=
  match l with
  | [] => Some ([], st)
  | (o, _) :: l => match step st o with
                   | None => None
                   | Some (st1, a) => match run_ops st1 l with None => None | Some (b, st2) => Some (a :: b, st2) end
                   end
  end.
Lemma run_history l : forall st st', run_ops st l = Some (map snd l, st') -> history st l st'.
Proof.
  induction l as [|[o a] l IH]; intros st st' H; cbn [run_ops map snd] in H; [injection H as <-; constructor|].
  destruct (step st o) as [[st1 b]|] eqn:E; [|discriminate]. destruct (run_ops st1 l) as [[c st2]|] eqn:R; [|discriminate]. injection H as -> -> ->.
  econstructor; [exact E|]. now apply IH.
Qed.
Ltac compute_history := match goal with |- exists s, _ => idtac end;
  match goal with |- context [history ?s ?l _] => let r := eval vm_compute in (run_ops s l) in match r with Some (_, ?s') => exists s' end end.

(** C111, refuted: with O_APPEND, what is written is added to the end of the file. It is written over
    the beginning. *)
Theorem C111_append_refuted :
  let log := mk_sys [(s_ "log", 0%nat)] [s_ "one"] [] [] in
  exists st', history (mk_state log []) [(Open 0 (s_ "log") (N.lor O_WRITE O_APPEND) true, Done); (Write 0 (s_ "2") 1, Done)] st' /\
    wants (N.lor O_WRITE O_APPEND) O_APPEND /\ content_at st' 0 (s_ "2ne").
Proof.
  intro log. compute_history. split; [apply run_history; vm_compute; reflexivity|]. split; [discriminate|]. eexists _, _, _. split; [reflexivity|]. split; reflexivity.
Qed.
Print Assumptions C111_append_refuted.
(** C111, refuted: without O_ALLOWFORK, a program that is started does not get the descriptor. *)
Theorem C111_exec_refuted : forall (st st' : state) (v : nat) (name : str) (flags : N) (allowed : bool),
  step st (Open v name flags allowed) = Some (st', Done) -> exists n, owns st' v n /\ In n (inherited (the_sys st')).
Proof.
  intros st st' v name flags allowed H. cbn [step] in H. destruct (get st v) eqn:G; [discriminate|]. apply Some_inj in H. unfold open_file in H. cbv zeta in H.
  destruct (N.land flags (N.lor O_READ O_WRITE) =? 0)%N; [discriminate|]. destruct (sys_open _ _ _ _ _ _ _ _) as [[s fd]|] eqn:O; [|discriminate]. injection H as <-.
  apply open_fds in O. destruct O as (o & E & _). exists fd. split.
  - eexists. rewrite get_put, Nat.eqb_refl. now split.
  - unfold inherited. cbn [the_sys put with_sys]. replace (fds (if has flags O_AUTODELETE then sys_unlink s name else s)) with (fds s) by (destruct (has flags O_AUTODELETE); reflexivity).
    rewrite E. left. reflexivity.
Qed.
Print Assumptions C111_exec_refuted.
(** C111, refuted: a write that fails has not changed the file. *)
Theorem C111_partial_write_refuted :
  exists st', history (mk_state (mk_sys [(s_ "f", 0%nat)] [s_ "one"] [] []) [])
    [(Open 0 (s_ "f") O_WRITE true, Done); (Seek 0 0, Done); (Write 0 (s_ "abc") 2, Raised)] st' /\ content_at st' 0 (s_ "abe").
Proof.
  compute_history. split; [apply run_history; vm_compute; reflexivity|]. eexists _, _, _. split; [reflexivity|]. split; reflexivity.
Qed.
Print Assumptions C111_partial_write_refuted.

(** A case: a file is created, written, moved, cloned and read; then all objects are gone. *)
Example C111_case :
  let s0 := mk_state (mk_sys [] [] [] [(0, (7, false)); (1, (8, false))]%nat) [] in
  exists st', fresh_start s0 /\
    history s0 [(Open 0 (s_ "f") (N.lor (N.lor O_READ O_WRITE) O_CREATE) true, Done); (Write 0 (s_ "abc") 5, Done); (Move 1 0, Done); (Clone 2 1, Done);
                (Seek 2 1, Done); (Read 1 9 9, Bytes (s_ "bc")); (Destroy 0, Done); (Destroy 1, Done); (GetSize 2, Size 3); (Destroy 2, Done)] st' /\
    objects st' = [] /\ map fst (fds (the_sys st')) = [0; 1]%nat.
Proof.
  intro s0. compute_history. split; [split; [reflexivity|]; cbn; constructor; [cbn; intuition congruence|constructor; [cbn; tauto|constructor]]|].
  split; [apply run_history; vm_compute; reflexivity|]. split; reflexivity.
Qed.
