(** C111, continued: reading on, the size, and truncation. *)
From Verif Require Import Base Handle_Model Handle_Props.
From Coq Require Import NArith ZArith Lia.

Definition at_ (st : state) (v o : nat) (d : ofd) (c : list ascii) : Prop :=
  exists f, get st v = Some f /\ fd_ofd (the_sys st) (f_fd f) = Some (o, d) /\ data_of (the_sys st) d = c /\ (of_file d < length (contents (the_sys st)))%nat.
Definition moved_to (d : ofd) (p : nat) : ofd := mk_ofd (of_file d) p (of_read d) (of_write d) (of_append d).
Lemma content_is st v c : sound (the_sys st) -> content_at st v c -> exists o d, at_ st v o d c.
Proof.
  intros (S1 & _) (f & o & d & G & F & C). exists o, d, f. split; [exact G|]. split; [exact F|]. split; [exact C|].
  apply S1. eapply nth_error_In. exact (fd_ofd_some _ _ _ _ F).
Qed.
Lemma at_moved st v o d c p : at_ st v o d c -> at_ (with_sys st (set_pos (the_sys st) o d p)) v o (moved_to d p) c.
Proof.
  intros (f & G & F & C & L). exists f. split; [exact G|]. split; [apply (fd_ofd_set_pos _ _ _ _ p F)|]. split; [exact C|exact L].
Qed.
Lemma seek_at st st' v o d c p : at_ st v o d c -> step st (Seek v p) = Some (st', Done) -> at_ st' v o (moved_to d p) c.
Proof.
  intros A H. pose proof A as (f & G & F & C & L). cbn [step] in H. rewrite G, F in H. apply Some_inj in H.
  destruct (_ <? _)%Z; [|discriminate]. injection H as <-. now apply at_moved.
Qed.
Lemma read_at st st' v o d c n k b : at_ st v o d c -> step st (Read v n k) = Some (st', Bytes b) ->
  b = firstn (Nat.min n k) (skipn (of_pos d) c) /\ at_ st' v o (moved_to d (of_pos d + length b)) c.
Proof.
  intros A H. pose proof A as (f & G & F & C & L). cbn [step] in H. rewrite G, F in H. apply Some_inj in H.
  destruct (of_read d); [|discriminate]. rewrite C in H. injection H as H1 H2. split; [now symmetry|]. rewrite H2 in H1. rewrite <- H1. now apply at_moved.
Qed.
Lemma size_at st st' v o d c n : at_ st v o d c -> step st (GetSize v) = Some (st', Size n) -> n = length c /\ st' = st.
Proof.
  intros A H. pose proof A as (f & G & F & C & L). cbn [step] in H. rewrite G, F in H. apply Some_inj in H. rewrite C in H. injection H as <- <-. auto.
Qed.
Lemma truncate_at st st' v o d c n : at_ st v o d c -> step st (Truncate v n) = Some (st', Done) -> at_ st' v o d (firstn n c ++ repeat zero (n - length c)).
Proof.
  intros A H. pose proof A as (f & G & F & C & L). cbn [step] in H. rewrite G, F in H. apply Some_inj in H.
  destruct (of_write d); [|discriminate]. rewrite C in H. injection H as <-. exists f. split; [exact G|]. split; [exact F|].
  cbn [the_sys with_sys]. split; [now apply data_set|]. unfold set_data. cbn [contents]. now rewrite update_length.
Qed.
Ltac hist H := let H1 := fresh "H" in let H2 := fresh "H" in inversion H as [|? ? ? ? ? ? H1 H2]; subst; clear H.

(** C111. Reads go on where the last one ended: together they are what stands at the position. A read that the
    system does not cut short gives as much as there is and is asked for. *)
Theorem C111_read_on : forall (st st' : state) (v p n k n' k' : nat) (c b b' : list ascii),
  sound (the_sys st) -> content_at st v c ->
  history st [(Seek v p, Done); (Read v n k, Bytes b); (Read v n' k', Bytes b')] st' ->
  (exists rest, skipn p c = b ++ b' ++ rest) /\ (length b <= n)%nat /\ ((n <= k)%nat -> length b = Nat.min n (length c - p)).
Proof.
  intros st st' v p n k n' k' c b b' So Ca H. destruct (content_is st v c So Ca) as (o & d & A).
  inversion H as [|? ? ? s1 ? ? H1 H']; subst. inversion H' as [|? ? ? s2 ? ? H2 H'']; subst. inversion H'' as [|? ? ? s3 ? ? H3 _]; subst. clear H H' H''.
  pose proof (seek_at _ _ _ _ _ _ _ A H1) as A1. destruct (read_at _ _ _ _ _ _ _ _ _ A1 H2) as (E2 & A2). destruct (read_at _ _ _ _ _ _ _ _ _ A2 H3) as (E3 & A3).
  cbn [of_pos moved_to] in E2, E3. split; [|split].
  - exists (skipn (Nat.min n' k') (skipn (p + length b) c)). rewrite E3 at 1. rewrite firstn_skipn.
    assert (Q : skipn (p + length b) c = skipn (length b) (skipn p c)).
    { clear. revert p. induction c as [|a c IH]; intros [|p]; cbn [skipn Nat.add]; try reflexivity; [destruct (length b); reflexivity|apply IH]. }
    rewrite Q. set (z := skipn p c) in *. clearbody z. rewrite E2, firstn_length.
    destruct (Nat.le_gt_cases (Nat.min n k) (length z)).
    + rewrite (Nat.min_l (Nat.min n k)) by lia. now rewrite firstn_skipn.
    + rewrite (Nat.min_r (Nat.min n k)) by lia. rewrite firstn_all2, skipn_all2 by lia. now rewrite app_nil_r.
  - rewrite E2, firstn_length. lia.
  - intro K. rewrite E2, firstn_length, skipn_length. lia.
Qed.
Print Assumptions C111_read_on.
(** C111. The size is the number of bytes that can be read. *)
Theorem C111_size : forall (st st' : state) (v s m n k : nat) (c b b' : list ascii),
  sound (the_sys st) -> content_at st v c -> (s <= m)%nat ->
  history st [(GetSize v, Size s); (Seek v 0, Done); (Read v m m, Bytes b); (Read v n k, Bytes b')] st' -> length b = s /\ b = c /\ b' = [].
Proof.
  intros st st' v s m n k c b b' So Ca Lm H. destruct (content_is st v c So Ca) as (o & d & A).
  inversion H as [|? ? ? s1 ? ? H1 H']; subst. destruct (size_at _ _ _ _ _ _ _ A H1) as (-> & ->).
  destruct (C111_read_on st st' v 0 m m n k c b b' So Ca H') as ((rest & E) & L1 & L2). specialize (L2 (le_n _)).
  rewrite Nat.sub_0_r, Nat.min_r in L2 by lia. cbn [skipn] in E. split; [exact L2|].
  assert (length (b ++ b' ++ rest) = length b) as Q by (rewrite <- E; lia). rewrite !app_length in Q.
  destruct b'; [|cbn in Q; lia]. destruct rest; [|cbn in Q; lia]. rewrite E, !app_nil_r. auto.
Qed.
Print Assumptions C111_size.
(** C111. Truncation to a size: the file has that size, keeps its beginning, and is filled with zeros. *)
Theorem C111_truncate : forall (st st' : state) (v n m : nat) (c : list ascii),
  sound (the_sys st) -> content_at st v c -> history st [(Truncate v n, Done); (GetSize v, Size m)] st' ->
  m = n /\ exists c', content_at st' v c' /\ length c' = n /\
    forall i, (i < n)%nat -> nth_error c' i = if (i <? length c)%nat then nth_error c i else Some zero.
Proof.
  intros st st' v n m c So Ca H. destruct (content_is st v c So Ca) as (o & d & A).
  inversion H as [|? ? ? s1 ? ? H1 H']; subst. inversion H' as [|? ? ? s2 ? ? H2 H'']; subst. inversion H''; subst. clear H H' H''.
  pose proof (truncate_at _ _ _ _ _ _ _ A H1) as A1. destruct (size_at _ _ _ _ _ _ _ A1 H2) as (-> & ->).
  assert (length (firstn n c ++ repeat zero (n - length c)) = n) as L by (rewrite app_length, firstn_length, repeat_length; lia).
  split; [exact L|]. eexists. split; [destruct A1 as (f & G & F & C & _); exists f, o, d; split; [exact G|]; split; [exact F|exact C]|].
  split; [exact L|]. intros i Li. destruct (Nat.ltb_spec i (length c)) as [Lc|Lc].
  - rewrite nth_error_app1 by (rewrite firstn_length; lia). clear - Li. revert n i Li. induction c as [|a c IH]; intros [|n] [|i] Li; cbn; try reflexivity; try lia.
    apply IH. lia.
  - rewrite nth_error_app2 by (rewrite firstn_length; lia). rewrite firstn_length, Nat.min_r by lia. rewrite (nth_error_nth' _ zero) by (rewrite repeat_length; lia).
    f_equal. apply nth_repeat.
Qed.
Print Assumptions C111_truncate.

(** C111. The hypothesis [sound], about the tables of the system, holds through every history. *)
Lemma sound_pos s o d p : sound s -> nth_error (ofds s) o = Some d -> sound (set_pos s o d p).
Proof.
  intros (S1 & S2 & S3) E.
  assert (Q : forall d', In d' (ofds (set_pos s o d p)) -> exists d0, In d0 (ofds s) /\ of_file d' = of_file d0 /\ of_append d' = of_append d0).
  { unfold set_pos. cbn [ofds]. intros d' I. apply In_nth_error in I as (i & I). destruct (Nat.eq_dec o i) as [->|N].
    - rewrite update_nth in I by (apply nth_error_Some; congruence). injection I as <-. exists d. split; [eapply nth_error_In; exact E|split; reflexivity].
    - rewrite update_other in I by exact N. exists d'. split; [eapply nth_error_In; exact I|auto]. }
  split; [|split; [exact S2|]].
  - intros d' I. destruct (Q d' I) as (d0 & I0 & -> & _). now apply S1.
  - intros d' I. destruct (Q d' I) as (d0 & I0 & _ & ->). now apply S3.
Qed.
Lemma sound_data s d b : sound s -> sound (set_data s d b).
Proof. intros (S1 & S2 & S3). unfold sound, set_data. cbn [ofds contents names]. rewrite update_length. auto. Qed.
Lemma sound_open s name rd wr creat excl trunc allowed s' fd : sound s -> sys_open s name rd wr creat excl trunc allowed = Some (s', fd) -> sound s'.
Proof.
  intros (S1 & S2 & S3) H. unfold sys_open in H. destruct allowed; [|discriminate]. cbn [negb] in H.
  assert (K : forall l, In (name, l) (names s) -> (l < length (contents s))%nat) by (intros; eapply S2; eauto).
  destruct (lookup str_eqb name (names s)) as [i|] eqn:L.
  - destruct (creat && excl); [discriminate|]. injection H as <- _.
    assert (Li : (i < length (contents s))%nat).
    { apply K. clear - L. induction (names s) as [|[a j] l IH]; [discriminate|]. cbn [lookup] in L. destruct (str_eqb_spec name a) as [->|N].
      - injection L as ->. now left.
      - right. now apply IH. }
    destruct trunc; unfold sound; cbn [ofds contents names]; rewrite ?update_length; (split; [|split; [exact S2|]]);
      intros d I; apply in_app_iff in I as [I|[<-|[]]]; auto.
  - destruct creat; [|discriminate]. injection H as <- _. unfold sound. cbn [ofds contents names]. rewrite app_length. cbn [length]. split; [|split].
    + intros d I. apply in_app_iff in I as [I|[<-|[]]]; [specialize (S1 d I); lia|cbn; lia].
    + intros n i [E|I]; [injection E as _ <-; lia|specialize (S2 n i I); lia].
    + intros d I. apply in_app_iff in I as [I|[<-|[]]]; auto.
Qed.
Lemma sound_unlink s name : sound s -> sound (sys_unlink s name).
Proof.
  intros (S1 & S2 & S3). unfold sound, sys_unlink. cbn [ofds contents names]. split; [exact S1|]. split; [|exact S3].
  intros n i I. apply (S2 n). unfold remove_key in I. apply filter_In in I as [I _]. exact I.
Qed.
Lemma sound_step st o st' a : sound (the_sys st) -> step st o = Some (st', a) -> sound (the_sys st').
Proof.
  intros S H. destruct o as [v name flags allowed|v w|v w|v|v p|v n k|v b k|v n|v|v]; cbn [step] in H.
  - destruct (get st v); [discriminate|]. apply Some_inj in H. unfold open_file in H. cbv zeta in H. destruct (_ =? 0)%N; [injection H as <- _; exact S|].
    destruct (sys_open _ _ _ _ _ _ _ _) as [[s fd]|] eqn:O; [|injection H as <- _; exact S]. injection H as <- _. pose proof (sound_open _ _ _ _ _ _ _ _ _ _ S O) as S'.
    cbn [the_sys put with_sys]. destruct (has flags O_AUTODELETE); [now apply sound_unlink|exact S'].
  - destruct (get st v); [discriminate|]. destruct (get st w); [|discriminate]. injection H as <- _. exact S.
  - destruct (get st v); [discriminate|]. destruct (get st w) as [f|]; [|discriminate]. destruct (f_fd f) as [n|]; [|injection H as <- _; exact S].
    destruct (lookup _ _ _) as [[d c]|]; injection H as <- _; exact S.
  - destruct (get st v) as [f|]; [|discriminate]. injection H as <- _. destruct (f_fd f); exact S.
  - destruct (get st v) as [f|]; [|discriminate]. apply Some_inj in H. destruct (fd_ofd _ _) as [[o d]|] eqn:F; [|injection H as <- _; exact S].
    destruct (_ <? _)%Z; injection H as <- _; [|exact S]. apply sound_pos; [exact S|]. exact (fd_ofd_some _ _ _ _ F).
  - destruct (get st v) as [f|]; [|discriminate]. apply Some_inj in H. destruct (fd_ofd _ _) as [[o d]|] eqn:F; [|injection H as <- _; exact S].
    destruct (of_read d); injection H as <- _; [|exact S]. apply sound_pos; [exact S|]. exact (fd_ofd_some _ _ _ _ F).
  - destruct (get st v) as [f|]; [|discriminate]. apply Some_inj in H. destruct (fd_ofd _ _) as [[o d]|] eqn:F; [|injection H as <- _; exact S].
    destruct (of_write d); injection H as <- _; [|exact S]. cbn [the_sys with_sys]. apply sound_pos; [now apply sound_data|]. exact (fd_ofd_some _ _ _ _ F).
  - destruct (get st v) as [f|]; [|discriminate]. apply Some_inj in H. destruct (fd_ofd _ _) as [[o d]|] eqn:F; [|injection H as <- _; exact S].
    destruct (of_write d); injection H as <- _; [|exact S]. now apply sound_data.
  - destruct (get st v) as [f|]; [|discriminate]. apply Some_inj in H. destruct (fd_ofd _ _) as [[o d]|]; injection H as <- _; exact S.
  - destruct (get st v) as [f|]; [|discriminate]. injection H as <- _. exact S.
Qed.
Theorem C111_sound : forall (st st' : state) (l : list (op * answer)), sound (the_sys st) -> history st l st' -> sound (the_sys st').
Proof. intros st st' l S H. induction H as [st|st o a st1 l st2 E H IH]; [exact S|]. apply IH. exact (sound_step _ _ _ _ S E). Qed.
Print Assumptions C111_sound.

(** A case: two reads, a truncation that extends, the size. *)
Example C111_read_case :
  let s0 := mk_state (mk_sys [(s_ "f", 0%nat)] [s_ "abcde"] [] []) [] in
  sound (the_sys s0) /\ exists st', history s0 [(Open 0 (s_ "f") (N.lor O_READ O_WRITE) true, Done); (Seek 0 1, Done); (Read 0 2 2, Bytes (s_ "bc")); (Read 0 9 9, Bytes (s_ "de"));
      (Truncate 0 7, Done); (GetSize 0, Size 7)] st' /\ content_at st' 0 (s_ "abcde" ++ [zero; zero]).
Proof.
  intro s0. split; [split; [intros d []|split; [|intros d []]]; intros n i [E|[]]; injection E as _ <-; cbn; lia|].
  compute_history. split; [apply run_history; vm_compute; reflexivity|]. eexists _, _, _. split; [reflexivity|]. split; reflexivity.
Qed.
