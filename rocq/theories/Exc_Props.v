(** C100: exceptions. *)
From Verif Require Import Base Exc_Model Exc_Spec.
Global Opaque cap.
Lemma cap_pos : 0 < cap. Proof. Transparent cap. unfold cap. lia. Opaque cap. Qed.
Lemma cap_1023 : cap - 1 = 1023. Proof. Transparent cap. reflexivity. Opaque cap. Qed.

(** The array holds the text [t]. *)
Definition holds (b : chars) (t : str) : Prop :=
  length b = cap /\ length t < cap /\ no_nul t /\ exists r, b = map Some t ++ Some c_nul :: r.
Lemma no_nul_cons c t : no_nul (c :: t) -> Ascii.eqb c c_nul = false /\ no_nul t.
Proof.
  intro N. split; [|intro I; apply N; now right]. destruct (Ascii.eqb_spec c c_nul) as [->|]; [|reflexivity]. exfalso. apply N. now left.
Qed.
Lemma text_in_text t r : no_nul t -> text_in (map Some t ++ Some c_nul :: r) = Ret (t, false).
Proof.
  induction t as [|c t IH]; intro N; cbn [map app text_in]; [now rewrite Ascii.eqb_refl|].
  apply no_nul_cons in N as [E N]. rewrite E, (IH N). reflexivity.
Qed.
Lemma text_in_full t : no_nul t -> text_in (map Some t) = Ret (t, true).
Proof. induction t as [|c t IH]; intro N; cbn [map text_in]; [reflexivity|]. apply no_nul_cons in N as [E N]. now rewrite E, (IH N). Qed.
Lemma holds_text b t : holds b t -> text_in b = Ret (t, false).
Proof. intros (_ & _ & N & r & ->). now apply text_in_text. Qed.
Lemma no_nul_firstn n t : no_nul t -> no_nul (firstn n t).
Proof. intros N I. apply N. rewrite <- (firstn_skipn n t). apply in_or_app. now left. Qed.
Lemma no_nul_app a b : no_nul a -> no_nul b -> no_nul (a ++ b).
Proof. intros A B I. apply in_app_or in I as [I|I]; auto. Qed.

Lemma strncpy_holds t : no_nul t -> length t < cap -> holds (strncpy t) t.
Proof.
  intros N L. unfold strncpy. rewrite firstn_all2 by lia. split; [rewrite app_length, map_length, repeat_length; lia|]. split; [exact L|]. split; [exact N|].
  destruct (cap - length t) as [|k] eqn:K; [lia|]. exists (repeat (Some c_nul) k). reflexivity.
Qed.
Lemma snprintf_holds b t u : length b = cap -> length t < cap -> no_nul t -> firstn (length t) b = map Some t -> no_nul u ->
  holds (snprintf (length t) u b) (firstn (cap - 1) (t ++ u)).
Proof.
  intros L T N F U. unfold snprintf. rewrite F. set (w := firstn (cap - length t - 1) u).
  assert (Lw : length w <= cap - length t - 1) by apply firstn_le_length.
  assert (E : firstn (cap - 1) (t ++ u) = t ++ w).
  { rewrite firstn_app. rewrite firstn_all2 by lia. replace (cap - 1 - length t) with (cap - length t - 1) by lia. reflexivity. }
  rewrite E. split; [rewrite app_length, app_length; cbn [length]; rewrite !map_length, skipn_length; lia|].
  split; [rewrite app_length; lia|]. split; [apply no_nul_app; [exact N|now apply no_nul_firstn]|].
  eexists. rewrite map_app, <- app_assoc. reflexivity.
Qed.
Lemma upto_nul_id t : no_nul t -> upto_nul t = t.
Proof. induction t as [|c t IH]; intro N; [reflexivity|]. cbn [upto_nul]. apply no_nul_cons in N as [-> N]. now rewrite IH. Qed.

Lemma copy_ok x t : holds (x_msg x) t -> exists y, exc_copy x = Ret y /\ holds (x_msg y) t /\
  x_type y = x_type x /\ x_file y = x_file x /\ x_line y = x_line x /\ x_func y = x_func x.
Proof.
  intro H. unfold exc_copy. rewrite (holds_text _ _ H). cbn [bind]. eexists. split; [reflexivity|]. cbn. destruct H as (_ & L & N & _).
  split; [now apply strncpy_holds|auto].
Qed.
Lemma append_ok x t u : holds (x_msg x) t -> no_nul u -> exists y, exc_append u x = Ret y /\ holds (x_msg y) (firstn (cap - 1) (t ++ u)) /\
  x_type y = x_type x /\ x_file y = x_file x /\ x_line y = x_line x /\ x_func y = x_func x.
Proof.
  intros H U. unfold exc_append, strlen. rewrite (holds_text _ _ H). cbn [bind]. eexists. split; [reflexivity|]. cbn.
  destruct H as (B & L & N & r & E). split; [|auto]. apply snprintf_holds; auto. rewrite E. rewrite firstn_app, map_length, Nat.sub_diag. cbn [firstn]. rewrite app_nil_r.
  rewrite <- (map_length Some t). apply firstn_all.
Qed.
Lemma holds_fit b t : holds b t -> holds b (firstn (cap - 1) (t ++ [])).
Proof. intro H. rewrite app_nil_r. rewrite firstn_all2; [exact H|]. destruct H as (_ & L & _). lia. Qed.

Section Run.
  Variable strerror : Z -> str.
  Definition type_after (c : call) (o : option str) : option str := match c with TypeName n => Some n | _ => o end.
  Definition source_after (c : call) (o : option (str * Z * str)) : option (str * Z * str) := match c with Source f n m => Some (f, n, m) | _ => o end.
  Definition source_of (x : exc) : option (str * Z * str) :=
    match x_file x, x_func x with Some f, Some m => Some (f, x_line x, m) | _, _ => None end.
  Definition wf (x : exc) : Prop := (x_file x = None /\ x_func x = None) \/ (x_file x <> None /\ x_func x <> None).
  Lemma after_ok x t f c : holds (x_msg x) t -> wf x -> no_nul (added strerror c) ->
    exists y, after strerror f c x = Ret y /\ holds (x_msg y) (firstn (cap - 1) (t ++ added strerror c)) /\
      x_type y = type_after c (x_type x) /\ source_of y = source_after c (source_of x) /\ wf y.
  Proof.
    intros H F N. destruct c as [file line func|n|n|u|]; cbn [after added type_after source_after] in *.
    - unfold set_source. set (y := mk_exc (x_type x) (Some file) line (Some func) (x_msg x)). destruct (copy_ok y t H) as (z & C & Hz & Z1 & Z2 & Z3 & Z4). rewrite C. cbn [bind].
      eexists. split; [reflexivity|]. apply holds_fit in Hz, H. destruct f; [|split; [exact H|split; [reflexivity|split; [reflexivity|right; split; discriminate]]]].
      split; [exact Hz|]. rewrite Z1. unfold source_of, wf. rewrite Z2, Z3, Z4. split; [reflexivity|split; [reflexivity|right; split; discriminate]].
    - unfold set_type. set (y := mk_exc (Some n) (x_file x) (x_line x) (x_func x) (x_msg x)). destruct (copy_ok y t H) as (z & C & Hz & Z1 & Z2 & Z3 & Z4). rewrite C. cbn [bind].
      eexists. split; [reflexivity|]. apply holds_fit in Hz, H. destruct f; [|split; [exact H|split; [reflexivity|split; [reflexivity|exact F]]]].
      split; [exact Hz|]. rewrite Z1. unfold source_of, wf. rewrite Z2, Z3, Z4. split; [reflexivity|split; [reflexivity|exact F]].
    - unfold set_errno. destruct (0 <? n)%Z.
      + destruct (append_ok x t _ H N) as (y & A & Hy & Y1 & Y2 & Y3 & Y4). rewrite A. cbn [bind].
        destruct (copy_ok y _ Hy) as (z & C & Hz & Z1 & Z2 & Z3 & Z4). rewrite C. cbn [bind]. eexists. split; [reflexivity|].
        destruct f; (split; [assumption|]); unfold source_of, wf; rewrite ?Z1, ?Z2, ?Z3, ?Z4, ?Y1, ?Y2, ?Y3, ?Y4; (split; [reflexivity|split; [reflexivity|exact F]]).
      + cbn [bind]. destruct (copy_ok x t H) as (z & C & Hz & Z1 & Z2 & Z3 & Z4). rewrite C. cbn [bind]. eexists. split; [reflexivity|]. apply holds_fit in Hz, H.
        destruct f; (split; [assumption|]); unfold source_of, wf; rewrite ?Z1, ?Z2, ?Z3, ?Z4; (split; [reflexivity|split; [reflexivity|exact F]]).
    - destruct (append_ok x t _ H N) as (y & A & Hy & Y1 & Y2 & Y3 & Y4). exists y. split; [exact A|]. split; [exact Hy|].
      unfold source_of, wf. rewrite ?Y1, ?Y2, ?Y3, ?Y4. split; [reflexivity|split; [reflexivity|exact F]].
    - destruct (copy_ok x t H) as (z & C & Hz & Z1 & Z2 & Z3 & Z4). exists z. split; [exact C|]. split; [now apply holds_fit|].
      unfold source_of, wf. rewrite ?Z1, ?Z2, ?Z3, ?Z4. split; [reflexivity|split; [reflexivity|exact F]].
  Qed.
  Lemma fit_fit (a b : str) : firstn (cap - 1) (firstn (cap - 1) a ++ b) = firstn (cap - 1) (a ++ b).
  Proof.
    destruct (le_lt_dec (length a) (cap - 1)) as [L|L]; [now rewrite (firstn_all2 a) by exact L|].
    rewrite !firstn_app. rewrite firstn_firstn, Nat.min_id, firstn_length_le by lia. rewrite Nat.sub_diag. replace (cap - 1 - length a) with 0 by lia. reflexivity.
  Qed.
  Lemma calls_ok l : forall x t, holds (x_msg x) (firstn (cap - 1) t) -> wf x -> Forall (plain_call strerror) l ->
    exists y, calls strerror l x = Ret y /\ holds (x_msg y) (firstn (cap - 1) (t ++ flat_map (fun fc => added strerror (snd fc)) l)) /\
      x_type y = fold_left (fun o fc => type_after (snd fc) o) l (x_type x) /\
      source_of y = fold_left (fun o fc => source_after (snd fc) o) l (source_of x) /\ wf y.
  Proof.
    induction l as [|[f c] l IH]; intros x t H F P; cbn [calls flat_map fold_left].
    - exists x. rewrite app_nil_r. auto.
    - inversion P as [|? ? P1 P2]; subst. destruct (after_ok x _ f c H F P1) as (y & A & Hy & T & S & Fy). rewrite fit_fit in Hy.
      destruct (IH y _ Hy Fy P2) as (z & C & Hz & Tz & Sz & Fz). exists z. rewrite A. cbn [bind snd] in *. rewrite C. rewrite <- app_assoc in Hz. rewrite Tz, Sz, T, S. auto.
  Qed.
End Run.

Lemma made_ok s : plain_start s -> holds (x_msg (made s)) (firstn (cap - 1) (first_text s)).
Proof.
  pose proof cap_pos as K. intros [N L]. destruct s as [|t|t]; cbn [made first_text x_msg exc_empty exc_printf exc_string] in *.
  - rewrite firstn_nil. split; [cbn; rewrite repeat_length; lia|]. split; [exact K|]. split; [intros []|]. eexists. reflexivity.
  - change t with ([] ++ t) at 2. apply (snprintf_holds raw [] t); [apply repeat_length|exact K|intros []|reflexivity|exact N].
  - rewrite upto_nul_id by exact N. assert (length t < cap) by (pose proof cap_1023; lia). rewrite firstn_all2 by lia. now apply strncpy_holds.
Qed.

(** C100. An exception with a formatted message, or with a message of less than 1024 characters
    that was given as a std::string, says its message, then everything that was appended to it,
    cut after 1023 characters; its type and its source are the last ones set. All of this also
    holds for its copies. *)
Theorem C100_message : forall (strerror : Z -> str) (s : start) (l : list (bool * call)),
  plain_start s -> Forall (plain_call strerror) l ->
  exists x, calls strerror l (made s) = Ret x /\
    get_message x = Ret (fits (message strerror s l)) /\
    (forall n, last_type l = Some n -> get_type x = Ret n /\ forall n', of_type n' x = Ret (str_eqb n n')) /\
    (forall f n m, last_source l = Some (f, n, m) -> get_file x = Ret f /\ get_line x = n /\ get_method x = Ret m).
Proof.
  intros strerror s l S P.
  assert (F : wf (made s)) by (left; destruct s; split; reflexivity).
  destruct (calls_ok strerror l (made s) (first_text s) (made_ok s S) F P) as (x & C & H & T & So & Fx). exists x. split; [exact C|].
  split; [unfold get_message; rewrite (holds_text _ _ H); unfold fits; now rewrite cap_1023|].
  assert (T0 : x_type (made s) = None) by (destruct s; reflexivity). assert (S0 : source_of (made s) = None) by (destruct s; reflexivity). rewrite T0 in T. rewrite S0 in So.
  split.
  - intros n L. change (last_type l = Some n) with (fold_left (fun o fc => type_after (snd fc) o) l None = Some n) in L. rewrite L in T.
    unfold get_type, of_type. rewrite T. split; reflexivity.
  - intros f n m L. change (last_source l = Some (f, n, m)) with (fold_left (fun o fc => source_after (snd fc) o) l None = Some (f, n, m)) in L. rewrite L in So.
    unfold source_of in So. unfold get_file, get_line, get_method. destruct (x_file x), (x_func x); try discriminate. injection So as -> -> ->. repeat split.
Qed.
Print Assumptions C100_message.
(** RAISE_ERRNO. *)
Example C100_case : forall x,
  calls (fun _ => s_ "No such file") [(true, TypeName (s_ "IOError")); (true, Errno 2); (true, Source (s_ "a.cc") 7 (s_ "f"))] (made (Printf (s_ "open() failed"))) = Ret x ->
  get_message x = Ret (s_ "open() failed: No such file") /\ get_type x = Ret (s_ "IOError") /\ get_line x = 7%Z.
Proof.
  intros x H. destruct (C100_message (fun _ => s_ "No such file") (Printf (s_ "open() failed")) [(true, TypeName (s_ "IOError")); (true, Errno 2); (true, Source (s_ "a.cc") 7 (s_ "f"))]) as (y & C & M & T & So).
  - split; [|exact I]. intro J. cbn in J. intuition discriminate.
  - repeat constructor; intro J; cbn in J; intuition discriminate.
  - rewrite H in C. injection C as ->. split; [exact M|]. split; [now apply T|]. now destruct (So (s_ "a.cc") 7%Z (s_ "f") eq_refl) as (_ & -> & _).
Qed.

(** C100. A message of 1024 or more characters given as a std::string (RAISEF) is stored without
    an end: reading it, or appending to it, runs over the end of the array. *)
Theorem C100_long_refuted : forall (strerror : Z -> str) (t : str), no_nul t -> 1024 <= length t ->
  get_message (exc_string t) = UB /\ (forall n, (0 < n)%Z -> set_errno strerror n (exc_string t) = UB) /\
  (forall l m n, match set_source l m n (exc_string t) with Ret (_, y) => get_message y = UB | _ => False end).
Proof.
  intros strerror t N L. assert (K : cap <= length t) by (pose proof cap_1023; lia).
  assert (M : x_msg (exc_string t) = map Some (firstn cap t)).
  { cbn. rewrite upto_nul_id by exact N. unfold strncpy. replace (cap - length t) with 0 by lia. apply app_nil_r. }
  assert (T : text_in (x_msg (exc_string t)) = Ret (firstn cap t, true)) by (rewrite M; apply text_in_full; now apply no_nul_firstn).
  split; [unfold get_message; now rewrite T|]. split.
  - intros n Z. unfold set_errno. replace (0 <? n)%Z with true by (symmetry; now apply Z.ltb_lt). unfold exc_append, strlen. now rewrite T.
  - intros f m n. unfold set_source, exc_copy. cbn [x_msg]. rewrite T. cbn [bind]. unfold get_message. cbn [x_msg]. unfold strncpy. rewrite firstn_firstn, Nat.min_id, firstn_length_le by lia.
    rewrite Nat.sub_diag. cbn [repeat]. rewrite app_nil_r. rewrite text_in_full by now apply no_nul_firstn. reflexivity.
Qed.
Print Assumptions C100_long_refuted.
(** C100. An exception without a type or a source cannot be asked for it. *)
Theorem C100_untyped_refuted : forall (t n : str),
  get_type (exc_printf t) = UB /\ of_type n (exc_printf t) = UB /\ get_file (exc_printf t) = UB /\ get_method (exc_printf t) = UB.
Proof. repeat split. Qed.
Print Assumptions C100_untyped_refuted.
(** C100. A NUL character ends the message. *)
Theorem C100_nul_refuted : forall a b : str, no_nul a -> length a < 1024 -> get_message (exc_string (a ++ c_nul :: b)) = Ret a.
Proof.
  intros a b N L. unfold get_message. cbn [x_msg exc_string].
  assert (U : upto_nul (a ++ c_nul :: b) = a).
  { clear L. induction a as [|c a IH]; cbn [app upto_nul]; [now rewrite Ascii.eqb_refl|]. apply no_nul_cons in N as [-> N]. now rewrite IH. }
  rewrite U. rewrite (holds_text _ a); [reflexivity|]. apply strncpy_holds; [exact N|]. pose proof cap_1023. lia.
Qed.
Print Assumptions C100_nul_refuted.
