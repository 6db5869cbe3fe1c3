(** C101: output streams. *)
From Coq Require Import Permutation.
From Verif Require Import Base Stream_Model Stream_Spec.

(** C101. On a string or a buffer, every history of calls leaves what was there, followed by
    everything accepted, in order; write answers with its size and printf with the length of its
    text; a printf that throws leaves everything as it is. *)
Theorem C101_memory : forall K k l s, k <> ToFile ->
  fst (wrun K k l s) = map (fun c => answer (accepted c)) l /\
  s_bytes (snd (wrun K k l s)) = s_bytes s ++ flat_map (fun c => bytes_of (accepted c)) l.
Proof.
  intros K k l s N. assert (W1 : forall c s, wrun1 K k c s = (answer (accepted c), mk_sink (s_bytes s ++ bytes_of (accepted c)) (s_calls s))).
  { intros c [b n]. destruct c as [d|d|d|[t|]]; destruct k; try congruence; cbn [wrun1 stream_write stream_write_string stream_write_buffer stream_printf accepted answer bytes_of s_bytes s_calls]; rewrite ?app_nil_r; try reflexivity;
      destruct (Z.of_nat (length t) <? 8192)%Z; cbn [answer bytes_of]; rewrite ?app_nil_r; reflexivity. }
  revert s. induction l as [|c l IH]; intro s; cbn [wrun map flat_map]; [cbn; now rewrite app_nil_r|].
  rewrite W1. destruct (IH (mk_sink (s_bytes s ++ bytes_of (accepted c)) (s_calls s))) as [A B].
  destruct (wrun K k l _) as [os s2]. cbn [fst snd s_bytes] in *. subst os. split; [reflexivity|]. now rewrite B, <- app_assoc.
Qed.
Print Assumptions C101_memory.
Example C101_memory_case : exists K, s_bytes (snd (wrun K ToBuffer [Write (s_ "ab"); Printf (Some (s_ "cd")); Printf None; WriteString (s_ "e")] (mk_sink (s_ "x") 0))) = s_ "xabcde".
Proof. exists (Build_kernel (fun _ _ => None) (fun _ _ => None)). reflexivity. Qed.

(** C101. On a file, whatever the kernel does: of each write as many bytes arrive as the answer says,
    of each printf all, in order; of a write that throws nothing arrives. *)
Theorem C101_file : forall K l s, sane K -> exists got,
  all_arrive l (fst (wrun K ToFile l s)) got /\ s_bytes (snd (wrun K ToFile l s)) = s_bytes s ++ concat got.
Proof.
  intros K l s [S1 S2]. revert s. induction l as [|c l IH]; intro s; cbn [wrun].
  - exists []. cbn. rewrite app_nil_r. split; [constructor|reflexivity].
  - assert (W1 : exists o g s1, wrun1 K ToFile c s = (o, s1) /\ s_bytes s1 = s_bytes s ++ g /\ arrives c o g).
    { destruct c as [d|d|d|[t|]]; cbn [wrun1 stream_write stream_write_string stream_write_buffer stream_printf].
      1,2,3: destruct (k_write K (s_calls s) (length d)) as [n|] eqn:E;
        [exists (Ret n), (firstn n d); eexists; split; [reflexivity|]; split; [reflexivity|]; exists d; split; [reflexivity|]; split; [eauto|]; split; [reflexivity|exact I]
        |exists Throw, []; eexists; split; [reflexivity|]; split; [symmetry; apply app_nil_r|]; reflexivity].
      - destruct (k_dprintf_fails K (s_calls s) (length t)) as [n|] eqn:E.
        + exists Throw, (firstn n t). eexists. split; [reflexivity|]. split; [reflexivity|]. cbn. eauto.
        + exists (Ret (length t)), t. eexists. split; [reflexivity|]. split; [reflexivity|]. exists t. split; [reflexivity|]. split; [lia|]. split; [now rewrite firstn_all|reflexivity].
      - exists Throw, [], s. split; [reflexivity|]. split; [symmetry; apply app_nil_r|reflexivity]. }
    destruct W1 as (o & g & s1 & -> & B1 & A1). destruct (IH s1) as (gs & A & B). destruct (wrun K ToFile l s1) as [os s2]. cbn [fst snd] in *.
    exists (g :: gs). split; [now constructor|]. rewrite B, B1. cbn [concat]. now rewrite <- app_assoc.
Qed.
Print Assumptions C101_file.
(** C101. That everything given to write arrives is false for files: a kernel may take less. The
    answer says so, but no exception is thrown and the rest is not tried again. *)
Theorem C101_short_refuted : exists K, sane K /\
  wrun K ToFile [Write (s_ "hello")] (mk_sink [] 0) = ([Ret 3], mk_sink (s_ "hel") 1).
Proof.
  exists (Build_kernel (fun _ n => Some (Nat.min n 3)) (fun _ _ => None)). split; [|reflexivity].
  split; cbn; intros i n m E; [injection E as <-; apply Nat.le_min_l|discriminate].
Qed.
Print Assumptions C101_short_refuted.
(** C101. printf to memory cannot write 8192 characters or more. *)
Theorem C101_long_printf_refuted : forall K k t s, k <> ToFile -> (8192 <= Z.of_nat (length t))%Z -> wrun1 K k (Printf (Some t)) s = (Throw, s).
Proof.
  intros K k t s N L. cbn [wrun1 stream_printf]. replace (Z.of_nat (length t) <? 8192)%Z with false by (symmetry; apply Z.ltb_ge; exact L). now destruct k.
Qed.
Print Assumptions C101_long_printf_refuted.

(* ---------------- descriptors ---------------- *)
Lemma lowest_from_spec fuel : forall n l, (forall i, i < n -> In i l) -> length l <= n + fuel -> NoDup l -> ~ In (lowest_from fuel n l) l /\ forall i, i < lowest_from fuel n l -> In i l.
Proof.
  induction fuel as [|k IH]; intros n l B L N; cbn [lowest_from].
  - split; [|exact B]. intro I. assert (H : length (seq 0 (S n)) <= length l).
    { apply NoDup_incl_length; [apply seq_NoDup|]. intros i J. apply in_seq in J. destruct (Nat.eq_dec i n) as [->|]; [exact I|apply B; lia]. }
    rewrite seq_length in H. lia.
  - destruct (existsb (Nat.eqb n) l) eqn:E.
    + apply IH; [|lia|exact N]. intros i J. destruct (Nat.eq_dec i n) as [->|]; [|apply B; lia]. apply existsb_exists in E as (x & I & Q). apply Nat.eqb_eq in Q. now subst.
    + split; [|exact B]. intro I. assert (existsb (Nat.eqb n) l = true); [|congruence]. apply existsb_exists. exists n. split; [exact I|apply Nat.eqb_refl].
Qed.
Lemma lowest_free l : NoDup l -> ~ In (lowest l) l.
Proof. intro N. apply (lowest_from_spec (length l) 0 l); [intros i L; lia|lia|exact N]. Qed.

Definition own (o : option fstream) : list nat := match o with Some f => if f_owns f then [f_fd f] else [] | None => [] end.
Lemma files_eq p : files p = flat_map own (streams p). Proof. reflexivity. Qed.
Lemma set_nth_perm i l f : nth_error l i = Some (Some f) -> Permutation (flat_map own l) (own (Some f) ++ flat_map own (set_nth i None l)).
Proof.
  revert i. induction l as [|o l IH]; intros [|i] E; try discriminate; cbn [nth_error set_nth flat_map] in *.
  - injection E as ->. reflexivity.
  - rewrite (IH i E). rewrite !app_assoc. apply Permutation_app_tail, Permutation_app_comm.
Qed.
Lemma remove_perm fd l r : Permutation l (fd :: r) -> NoDup l -> Permutation (close_fd fd l) r.
Proof.
  intros P N. apply NoDup_Permutation.
  - unfold close_fd. clear P r. induction N as [|x l I N IH]; cbn [remove]; [constructor|]. destruct (Nat.eq_dec fd x); [exact IH|]. constructor; [|exact IH]. intro J. apply in_remove in J. now apply I.
  - apply (Permutation_NoDup P) in N. now inversion N.
  - intro x. assert (N2 := Permutation_NoDup P N). inversion N2 as [|? ? I1 I2]; subst. split; intro I.
    + apply in_remove in I as [I J]. apply (Permutation_in _ P) in I as [<-|I]; [congruence|exact I].
    + apply in_in_remove; [intros ->; contradiction|]. apply (Permutation_in _ (Permutation_sym P)). now right.
Qed.
(** C101. Whatever streams are opened and destroyed, in whatever order, and whichever files cannot
    be opened: the open descriptors are those the process had and one for each file that is open as
    a stream, no two the same. So a file is closed when its stream is destroyed and not before,
    and stdout and stderr are never closed. *)
Theorem C101_descriptors : forall p0 l, started p0 ->
  NoDup (open_fds (prun l p0)) /\ Permutation (open_fds (prun l p0)) (open_fds p0 ++ files (prun l p0)).
Proof.
  intros p0 l (N & I0 & I1 & I2 & E).
  assert (G : forall p, NoDup (open_fds p) -> Permutation (open_fds p) (open_fds p0 ++ files p) ->
              NoDup (open_fds (prun l p)) /\ Permutation (open_fds (prun l p)) (open_fds p0 ++ files (prun l p))).
  { induction l as [|c l IH]; intros p Np P; cbn [prun]; [auto|].
    enough (H : NoDup (open_fds (snd (prun1 c p))) /\ Permutation (open_fds (snd (prun1 c p))) (open_fds p0 ++ files (snd (prun1 c p)))) by (destruct H; now apply IH).
    destruct c as [ok| | |i]; cbn [prun1].
    - unfold open_file. destruct ok; [|now split]. set (fd := lowest (open_fds p)). assert (F := lowest_free _ Np). fold fd in F.
      destruct (Nat.ltb_spec fd 1) as [L|L].
      + exfalso. apply F. replace fd with 0 by lia. apply (Permutation_in _ (Permutation_sym P)). apply in_or_app. now left.
      + cbn [snd with_stream open_fds]. split; [now constructor|]. unfold files. cbn [streams with_stream]. rewrite flat_map_app. cbn [flat_map f_owns f_fd app].
        rewrite app_assoc. change (flat_map _ (streams p)) with (files p). rewrite P at 1. apply Permutation_cons_append.
    - cbn [snd get_stdout with_stream open_fds]. split; [exact Np|]. rewrite files_eq in *. cbn [streams with_stream get_stdout get_stderr snd]. rewrite flat_map_app. cbn [flat_map own f_owns app]. now rewrite app_nil_r.
    - cbn [snd get_stderr with_stream open_fds]. split; [exact Np|]. rewrite files_eq in *. cbn [streams with_stream get_stdout get_stderr snd]. rewrite flat_map_app. cbn [flat_map own f_owns app]. now rewrite app_nil_r.
    - unfold destroy. destruct (nth_error (streams p) i) as [[f|]|] eqn:D; [|now split|now split]. cbn [snd open_fds].
      assert (S := set_nth_perm _ _ _ D). rewrite files_eq in P. rewrite files_eq. cbn [streams own] in *. destruct (f_owns f).
      + rewrite S in P. cbn [app] in P. rewrite <- Permutation_middle in P. split; [|now apply remove_perm].
        eapply Permutation_NoDup; [symmetry; apply (remove_perm _ _ _ P Np)|]. apply (Permutation_NoDup P) in Np. now inversion Np.
      + split; [exact Np|]. rewrite P. now rewrite S. }
  apply G; [exact N|]. unfold files. rewrite E. cbn. now rewrite app_nil_r.
Qed.
Print Assumptions C101_descriptors.
Example C101_descriptors_case : forall p0, p0 = mk_process [2; 1; 0] [] -> started p0 /\
  open_fds (prun [OpenFile true; Stdout; OpenFile false; OpenFile true; Destroy 1; Destroy 0; OpenFile true] p0) = [3; 4; 2; 1; 0].
Proof. intros p0 ->. split; [|reflexivity]. split; [repeat constructor; cbn; lia|]. cbn. auto 6. Qed.
(** C101. In a process without standard input the first file gets descriptor 0: openFile throws
    although the file is open, and it stays open. *)
Theorem C101_closed_stdin_refuted : forall r, ~ In 0 r -> NoDup r ->
  prun1 (OpenFile true) (mk_process r []) = (Throw, mk_process (0 :: r) []).
Proof.
  intros r N D. cbn [prun1]. unfold open_file. cbn [open_fds streams]. assert (E : lowest r = 0).
  { unfold lowest. destruct r as [|x r]; [reflexivity|]. cbn [length lowest_from]. destruct (existsb (Nat.eqb 0) (x :: r)) eqn:E; [|reflexivity].
    apply existsb_exists in E as (y & I & Q). apply Nat.eqb_eq in Q. subst. contradiction. }
  rewrite E. reflexivity.
Qed.
Print Assumptions C101_closed_stdin_refuted.
(** C101. What each call gives: a file that cannot be opened is an exception and changes nothing; one
    that can is a new stream on a descriptor that was not open, which it will close; the standard
    streams write to descriptors 1 and 2 and do not close them. *)
Theorem C101_opened : forall p, NoDup (open_fds p) -> In 0 (open_fds p) ->
  prun1 (OpenFile false) p = (Throw, p) /\
  (exists fd p', prun1 (OpenFile true) p = (Ret tt, p') /\ ~ In fd (open_fds p) /\
     open_fds p' = fd :: open_fds p /\ streams p' = streams p ++ [Some (mk_fstream fd true)]) /\
  (exists p', prun1 Stdout p = (Ret tt, p') /\ open_fds p' = open_fds p /\ streams p' = streams p ++ [Some (mk_fstream 1 false)]) /\
  (exists p', prun1 Stderr p = (Ret tt, p') /\ open_fds p' = open_fds p /\ streams p' = streams p ++ [Some (mk_fstream 2 false)]).
Proof.
  intros p N I0. split; [reflexivity|]. split; [|split; eexists; split; [reflexivity|split; reflexivity|reflexivity|split; reflexivity]].
  pose proof (lowest_free _ N) as L. exists (lowest (open_fds p)). cbn [prun1]. unfold open_file.
  destruct (Nat.ltb_spec (lowest (open_fds p)) 1) as [Z|Z].
  - exfalso. apply L. now replace (lowest (open_fds p)) with 0 by lia.
  - eexists. split; [reflexivity|]. split; [exact L|]. split; reflexivity.
Qed.
Print Assumptions C101_opened.
Example C101_opened_example : snd (prun1 (OpenFile true) (mk_process [4; 2; 1; 0] [])) = mk_process [3; 4; 2; 1; 0] [Some (mk_fstream 3 true)].
Proof. reflexivity. Qed.
