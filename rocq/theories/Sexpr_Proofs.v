From Verif Require Import Base Sexpr_Model Sexpr_Spec.

(* ---------- character classes ---------- *)
Lemma lit_stop_special c : lit_stop c = true <-> special c.
Proof.
  unfold special, ws, c_sp, c_nl, c_tab, c_cr, c_bs, c_sq, c_dq; cbn [In].
  split.
  - destruct c as [[] [] [] [] [] [] [] []]; cbn; intro H; try discriminate; tauto.
  - intros [[H|[H|[H|[H|[]]]]]|[H|[H|[H|[H|[H|[H|[]]]]]]]]; subst; reflexivity.
Qed.

Lemma lit_stop_not_special c : lit_stop c = false <-> ~ special c.
Proof.
  rewrite <- lit_stop_special. destruct (lit_stop c); split; congruence.
Qed.

(** Shape of one step according to the first character. *)
Lemma step_ws c r st : ws c -> parse_step (c :: r) st = Ret (r, st).
Proof. intros [H|[H|[H|[H|[]]]]]; subst; reflexivity. Qed.

Lemma step_quote c r st : quote c ->
  parse_step (c :: r) st =
    let* (v, rest) := parse_string c r in
    let* st' := push_item st (EVal v) in Ret (rest, st').
Proof. intros [->| ->]; reflexivity. Qed.

Lemma step_word c r st : (special c -> c = c_bs) ->
  parse_step (c :: r) st =
    let '(l, rest) := parse_literal (c :: r) in
    let* st' := push_item st (ELit l) in Ret (rest, st').
Proof.
  intro H.
  destruct (lit_stop c) eqn:E.
  - apply lit_stop_special in E. apply H in E. subst. reflexivity.
  - clear H. destruct c as [[] [] [] [] [] [] [] []]; cbn in E; try discriminate; reflexivity.
Qed.

Lemma char_cases c :
  ws c \/ c = ";"%char \/ c = "("%char \/ c = ")"%char \/ quote c \/ c = c_bs \/ ~ special c.
Proof.
  destruct (lit_stop c) eqn:E.
  - apply lit_stop_special in E. unfold special, quote in *. cbn [In] in E.
    destruct E as [E|[E|[E|[E|[E|[E|[E|[]]]]]]]]; subst; tauto.
  - apply lit_stop_not_special in E. tauto.
Qed.

(* ---------- lexical helpers ---------- *)
Lemma parse_literal_word w s : Forall (fun c => ~ special c) w -> word_ends s ->
  parse_literal (w ++ s) = (w, s).
Proof.
  intros Hw Hs; induction Hw as [|c w Hc Hw IH]; cbn [app].
  - destruct s as [|c s]; cbn in *; auto. apply lit_stop_special in Hs. now rewrite Hs.
  - cbn. apply lit_stop_not_special in Hc. now rewrite Hc, IH.
Qed.

Lemma parse_literal_inv s : let '(w, r) := parse_literal s in
  s = w ++ r /\ Forall (fun c => ~ special c) w /\ word_ends r.
Proof.
  induction s as [|c s IH]; cbn.
  - auto.
  - destruct (lit_stop c) eqn:E.
    + cbn. repeat split; auto. now apply lit_stop_special.
    + destruct (parse_literal s) as [w r]. destruct IH as (-> & Hw & Hr).
      cbn. repeat split; auto. constructor; auto. now apply lit_stop_not_special.
Qed.

Lemma skip_comment_nl body s : ~ In c_nl body -> skip_comment (body ++ c_nl :: s) = c_nl :: s.
Proof.
  induction body as [|c b IH]; intro H; [reflexivity|].
  cbn [app skip_comment]. destruct (Ascii.eqb_spec c c_nl).
  - subst; exfalso; apply H; left; reflexivity.
  - apply IH. intro; apply H; right; auto.
Qed.

Lemma skip_comment_eof body : ~ In c_nl body -> skip_comment body = [].
Proof.
  induction body as [|c b IH]; intro H; [reflexivity|].
  cbn [skip_comment]. destruct (Ascii.eqb_spec c c_nl).
  - subst; exfalso; apply H; left; reflexivity.
  - apply IH. intro; apply H; right; auto.
Qed.

Lemma skip_comment_inv s : exists body, s = body ++ skip_comment s /\ ~ In c_nl body /\
  (skip_comment s = [] \/ exists r, skip_comment s = c_nl :: r).
Proof.
  induction s as [|c s IH]; cbn.
  - exists []; cbn; auto.
  - destruct (Ascii.eqb_spec c c_nl) as [->|n].
    + exists []; cbn; repeat split; auto. right; eauto.
    + destruct IH as (b & Hs & Hb & Ht).
      exists (c :: b); cbn. repeat split; auto.
      * now f_equal.
      * intros [H|H]; [congruence|auto].
Qed.

Lemma escape_ok_spec c : escape_ok c = true <-> c = c_bs \/ c = c_sq \/ c = c_dq.
Proof.
  unfold c_bs, c_sq, c_dq. split.
  - destruct c as [[] [] [] [] [] [] [] []]; cbn; intro; try discriminate; auto.
  - intros [->|[->| ->]]; reflexivity.
Qed.

Lemma parse_string_body q b v s : q <> c_bs -> strbody q b v ->
  parse_string q (b ++ q :: s) = Ret (v, s).
Proof.
  intros Hq H; induction H as [|c b v H1 H2 H IH|c b v Hc H IH].
  - cbn. now rewrite Ascii.eqb_refl.
  - cbn [app parse_string].
    rewrite (proj2 (ascii_eqb_neq c q)), (proj2 (ascii_eqb_neq c c_bs)) by auto.
    now rewrite IH.
  - cbn [app parse_string].
    rewrite (proj2 (ascii_eqb_neq c_bs q)) by congruence.
    rewrite Ascii.eqb_refl. apply escape_ok_spec in Hc. now rewrite Hc, IH.
Qed.

Lemma list_strong {A} (P : list A -> Prop) :
  (forall l, (forall l', length l' < length l -> P l') -> P l) -> forall l, P l.
Proof.
  intros H l. assert (forall n l, length l < n -> P l) as X.
  { induction n as [|n IH]; intros l0 Hl; [lia|].
    apply H; intros l' Hl'; apply IH; lia. }
  apply (X (S (length l)) l); lia.
Qed.

Lemma parse_string_inv q s v r : q <> c_bs -> parse_string q s = Ret (v, r) ->
  exists b, s = b ++ q :: r /\ strbody q b v.
Proof.
  intro Hq. revert v r. induction s as [s IH] using list_strong; intros v r H.
  destruct s as [|c s]; [discriminate|]. cbn [parse_string] in H.
  destruct (Ascii.eqb_spec c q) as [->|n1].
  - inversion H; subst. exists []; split; [reflexivity|constructor].
  - destruct (Ascii.eqb_spec c c_bs) as [->|n2].
    + destruct s as [|code s]; [discriminate|].
      destruct (escape_ok code) eqn:E; [|discriminate].
      destruct (parse_string q s) as [[v' r']| | | |] eqn:P; try discriminate.
      inversion H; subst.
      destruct (IH s) with (v := v') (r := r) as (b & Hb & Hsb); [cbn; lia|exact P|].
      exists (c_bs :: code :: b). subst s. split; [reflexivity|].
      constructor; auto. now apply escape_ok_spec.
    + destruct (parse_string q s) as [[v' r']| | | |] eqn:P; try discriminate.
      inversion H; subst.
      destruct (IH s) with (v := v') (r := r) as (b & Hb & Hsb); [cbn; lia|exact P|].
      exists (c :: b). subst s. split; [reflexivity|]. constructor; auto.
Qed.

Lemma quote_not_bs q : quote q -> q <> c_bs.
Proof. intros [->| ->]; discriminate. Qed.

Lemma ws_sp : ws c_sp.
Proof. left; reflexivity. Qed.

Lemma word_ends_sp s : word_ends (c_sp :: s).
Proof. cbn; left; apply ws_sp. Qed.

(* ---------- completeness ---------- *)
Inductive steps : str -> stack -> str -> stack -> Prop :=
| st_refl s st : steps s st s st
| st_step s st s' st' s'' st'' :
    s <> [] -> parse_step s st = Ret (s', st') -> steps s' st' s'' st'' -> steps s st s'' st''.

Lemma steps_trans s st s' st' s'' st'' :
  steps s st s' st' -> steps s' st' s'' st'' -> steps s st s'' st''.
Proof. intros H; induction H; auto. intro. econstructor; eauto. Qed.

Lemma steps_loop s st s' st' : steps s st s' st' ->
  exists k, forall n, parse_loop (k + n) s st = parse_loop n s' st'.
Proof.
  intro H; induction H as [s st|s st s' st' s'' st'' Hne Hs H [k IH]].
  - exists 0; reflexivity.
  - exists (S k); intro n. cbn [Nat.add parse_loop].
    destruct s; [congruence|]. rewrite Hs. cbn [bind]. apply IH.
Qed.

Lemma word_ends_app w s : word_ends w -> word_ends s -> word_ends (w ++ s).
Proof. destruct w; auto. Qed.

Lemma word_ends_app_inv w c s : special c -> word_ends (w ++ c :: s) -> word_ends w.
Proof. destruct w; cbn; auto. Qed.

Lemma items_steps s es : items s es -> forall k f b, word_ends k ->
  steps (s ++ k) (f :: b) k ((f ++ es) :: b).
Proof.
  intro H; induction H as [|c s es Hc H IH|body s es Hb H IH|q b v s es Hq Hb H IH
    |w s es Hw He H IH|inner xs s es H1 IH1 H2 IH2]; intros k f b0 Hk.
  - rewrite app_nil_r. constructor.
  - cbn [app]. eapply st_step; [discriminate|apply step_ws; auto|]. now apply IH.
  - cbn [app]. rewrite <- app_assoc. cbn [app].
    eapply st_step; [discriminate|reflexivity|].
    assert (skip_comment (";"%char :: body ++ c_nl :: s ++ k) = c_nl :: s ++ k) as ->.
    { apply (skip_comment_nl (";"%char :: body)). intros [X|X]; [discriminate|auto]. }
    eapply st_step; [discriminate|apply step_ws; right; left; reflexivity|].
    now apply IH.
  - cbn [app]. rewrite <- app_assoc. cbn [app].
    eapply st_step; [discriminate| |].
    + rewrite step_quote by auto.
      rewrite (parse_string_body _ _ v) by (auto using quote_not_bs).
      cbn [bind push_item]. reflexivity.
    + replace (f ++ EVal v :: es) with ((f ++ [EVal v]) ++ es) by (rewrite <- app_assoc; reflexivity).
      now apply IH.
  - rewrite <- app_assoc. destruct Hw as [Hne Hw].
    destruct w as [|c w]; [congruence|]. cbn [app].
    eapply st_step; [discriminate| |].
    + rewrite step_word by (inversion Hw; intuition).
      change (c :: w ++ s ++ k) with ((c :: w) ++ (s ++ k)).
      rewrite (parse_literal_word (c :: w)) by (auto using word_ends_app).
      cbn [push_item bind]. reflexivity.
    + replace (f ++ ELit (c :: w) :: es) with ((f ++ [ELit (c :: w)]) ++ es)
        by (rewrite <- app_assoc; reflexivity).
      now apply IH.
  - cbn [app]. rewrite <- app_assoc. cbn [app].
    eapply st_step; [discriminate|reflexivity|].
    eapply steps_trans.
    + apply IH1. cbn. unfold special; cbn; tauto.
    + cbn [app]. eapply st_step; [discriminate|cbn; reflexivity|].
      replace (f ++ EList xs :: es) with ((f ++ [EList xs]) ++ es) by (rewrite <- app_assoc; reflexivity).
      now apply IH2.
Qed.

Lemma program_parses s es : program s es -> exists n, expr_parse n s = Ret es.
Proof.
  intros [H|(s0 & body & -> & Hb & H)].
  - pose proof (items_steps _ _ H [] [] [] I) as X. rewrite app_nil_r in X.
    destruct (steps_loop _ _ _ _ X) as [k Hk]. exists (k + 0). unfold expr_parse.
    rewrite Hk. reflexivity.
  - assert (word_ends (";"%char :: body)) as We by (cbn; unfold special; cbn; tauto).
    pose proof (items_steps _ _ H _ [] [] We) as X.
    destruct (steps_loop _ _ _ _ X) as [k Hk]. exists (k + 1). unfold expr_parse.
    rewrite Hk. cbn [parse_loop Nat.add]. cbn [parse_step bind].
    rewrite skip_comment_eof; [reflexivity|]. intros [E|E]; [discriminate|auto].
Qed.

(* ---------- soundness ---------- *)
Fixpoint closes (rest : list (list expr)) (f : list expr) (s : str) (es : list expr) : Prop :=
  match rest with
  | [] => exists es', es = f ++ es' /\ program s es'
  | b :: rest' => exists inner xs s', s = inner ++ ")"%char :: s' /\ items inner xs /\
                  closes rest' (b ++ [EList (f ++ xs)]) s' es
  end.

(** Prepending text [p] spelling [x]; [w] says whether p ends in a bare word. *)
Lemma closes_prepend (w : bool) (p : str) (x : list expr) :
  (forall s es, (w = true -> word_ends s) -> items s es -> items (p ++ s) (x ++ es)) ->
  forall rest f s es, (w = true -> word_ends s) ->
  closes rest (f ++ x) s es -> closes rest f (p ++ s) es.
Proof.
  intros Hp rest f s es Hs H. destruct rest as [|b rest]; cbn in *.
  - destruct H as (es' & -> & H). exists (x ++ es'). split; [now rewrite app_assoc|].
    destruct H as [H|(s0 & body & -> & Hb & H)].
    + left. apply Hp; auto.
    + right. exists (p ++ s0), body. rewrite <- app_assoc. repeat split; auto.
      apply Hp; auto. intro Hw.
      eapply word_ends_app_inv; [|exact (Hs Hw)]. unfold special; cbn; tauto.
  - destruct H as (inner & xs & s' & -> & Hi & H).
    exists (p ++ inner), (x ++ xs), s'. rewrite <- app_assoc. repeat split; auto.
    + apply Hp; auto. intro Hw.
      eapply word_ends_app_inv; [|exact (Hs Hw)]. unfold special; cbn; tauto.
    + now rewrite app_assoc.
Qed.

Lemma items_nl_inv s es : items (c_nl :: s) es -> items s es.
Proof.
  intro H. inversion H; subst; auto.
  - destruct H2; discriminate.
  - destruct w as [|c w]; [destruct H1; congruence|]. inversion H0; subst.
    destruct H1 as [_ Hw]. apply Forall_inv in Hw. exfalso. apply Hw. left. cbn; tauto.
Qed.

Lemma loop_closes n : forall s f rest es,
  parse_loop n s (f :: rest) = Ret es -> closes rest f s es.
Proof.
  induction n as [|n IH]; intros s f rest es H.
  { destruct s; [|discriminate]. cbn in H. destruct rest; [|discriminate].
    inversion H; subst. cbn. exists []. rewrite app_nil_r. split; auto. left; constructor. }
  destruct s as [|c s].
  { cbn in H. destruct rest; [|discriminate].
    inversion H; subst. cbn. exists []. rewrite app_nil_r. split; auto. left; constructor. }
  cbn [parse_loop] in H.
  destruct (char_cases c) as [C|[C|[C|[C|[C|[C|C]]]]]].
  - rewrite step_ws in H by auto. cbn [bind] in H. apply IH in H.
    apply (closes_prepend false [c] []); [|discriminate|now rewrite app_nil_r].
    intros; cbn; constructor; auto.
  - subst c. cbn [parse_step bind] in H.
    destruct (skip_comment_inv (";"%char :: s)) as (body & Hs & Hb & Ht).
    remember (skip_comment (";"%char :: s)) as t0 eqn:Et0; clear Et0.
    destruct body as [|c0 body].
    { destruct Ht as [Ht|[r Ht]]; rewrite Ht in Hs; discriminate. }
    cbn [app] in Hs. inversion Hs as [[Hc0 Hs']]. subst c0.
    apply IH in H.
    destruct Ht as [Ht|[r Ht]]; subst t0.
    + rewrite app_nil_r in Hs'. subst body. destruct rest as [|b rest]; cbn in H |- *.
      * destruct H as (es' & -> & H). exists es'. split; auto.
        assert (es' = []) as ->.
        { destruct H as [H|(s0 & b & E & _)].
          - inversion H; auto. destruct w; [destruct H1; congruence|discriminate].
          - destruct s0; discriminate. }
        right. exists [], s. repeat split; auto; [|constructor].
        intro; apply Hb; right; auto.
      * destruct H as (inner & xs & s' & E & _). destruct inner; discriminate.
    + try subst s.
      assert (~ In c_nl body) as Hb' by (intro; apply Hb; right; auto).
      clear Hb Hs.
      destruct rest as [|b rest]; cbn in H |- *.
      * destruct H as (es' & -> & H). exists es'. split; auto.
        destruct H as [H|(s0 & b & E & Hb2 & H)].
        -- left. apply items_nl_inv in H. now constructor.
        -- destruct s0 as [|c0 s0]; cbn in E; [discriminate|]. inversion E; subst.
           apply items_nl_inv in H.
           right. exists (";"%char :: body ++ c_nl :: s0), b. cbn. rewrite <- app_assoc.
           repeat split; auto. now constructor.
      * destruct H as (inner & xs & s' & E & Hi & H).
        destruct inner as [|c0 inner]; cbn in E; [discriminate|]. inversion E; subst.
        apply items_nl_inv in Hi.
        exists (";"%char :: body ++ c_nl :: inner), xs, s'. cbn. rewrite <- app_assoc.
        repeat split; auto. now constructor.
  - subst c. cbn [parse_step bind] in H. apply IH in H.
    cbn in H. destruct H as (inner & xs & s' & -> & Hi & H).
    replace ("("%char :: inner ++ ")"%char :: s') with (("("%char :: inner ++ [")"%char]) ++ s').
    2:{ cbn; f_equal. now rewrite <- app_assoc. }
    apply (closes_prepend false _ [EList xs]); [|discriminate|exact H].
    intros s0 es0 _ Hi0. cbn. rewrite <- app_assoc. cbn. now constructor.
  - subst c. cbn [parse_step] in H. destruct rest as [|b rest]; [discriminate|].
    cbn [bind] in H. apply IH in H. cbn. exists [], [], s.
    rewrite app_nil_r. repeat split; auto. constructor.
  - rewrite step_quote in H by auto.
    destruct (parse_string c s) as [[v r]| | | |] eqn:P; try discriminate.
    cbn [bind push_item] in H. apply IH in H.
    apply parse_string_inv in P; [|auto using quote_not_bs].
    destruct P as (b & -> & Hb).
    replace (c :: b ++ c :: r) with ((c :: b ++ [c]) ++ r).
    2:{ cbn; f_equal. now rewrite <- app_assoc. }
    apply (closes_prepend false _ [EVal v]); [|discriminate|exact H].
    intros s0 es0 _ Hi0. cbn. rewrite <- app_assoc. cbn. now constructor.
  - exfalso. subst c. revert H. clear. intro H.
    assert (forall n st es, parse_loop n (c_bs :: s) st <> Ret es) as X.
    { clear. induction n as [|n IH]; intros st es; [discriminate|].
      cbn. destruct st as [|f st]; [discriminate|]. cbn. apply IH. }
    cbn in H. exact (X _ _ _ H).
  - rewrite step_word in H by tauto.
    pose proof (parse_literal_inv (c :: s)) as P.
    destruct (parse_literal (c :: s)) as [w r] eqn:E. destruct P as (Hs & Hw & Hr).
    cbn [bind push_item] in H. apply IH in H. rewrite Hs.
    assert (word w) as W.
    { split; auto. intros ->. cbn in E.
      rewrite (proj2 (lit_stop_not_special c) C) in E.
      destruct (parse_literal s); discriminate. }
    apply (closes_prepend true _ [ELit w]); [|auto|exact H].
    intros s0 es0 He Hi0. cbn. now constructor; auto.
Qed.

Lemma parses_program n s es : expr_parse n s = Ret es -> program s es.
Proof.
  intro H. apply loop_closes in H. cbn in H. destruct H as (es' & -> & H). exact H.
Qed.

Lemma parse_iff s es : (exists n, expr_parse n s = Ret es) <-> program s es.
Proof.
  split; [intros [n H]; eapply parses_program; eauto|apply program_parses].
Qed.

(* ---------- termination ---------- *)
Lemma loop_mono n : forall m s st r, n <= m ->
  parse_loop n s st = r -> r <> Diverge -> parse_loop m s st = r.
Proof.
  induction n as [|n IH]; intros m s st r Hle H Hr.
  - destruct s; [destruct m; exact H|]. cbn in H; congruence.
  - destruct m as [|m]; [lia|]. destruct s as [|c s]; [exact H|].
    cbn [parse_loop] in *. destruct (parse_step (c :: s) st) as [[s' st']| | | |]; auto.
    cbn [bind] in *. apply IH; auto; lia.
Qed.

Lemma parse_string_len q s v r : parse_string q s = Ret (v, r) -> length r < length s.
Proof.
  revert v r. induction s as [s IH] using list_strong; intros v r H.
  destruct s as [|c s]; [discriminate|]. cbn [parse_string] in H.
  destruct (Ascii.eqb c q).
  - inversion H; subst; cbn; lia.
  - destruct (Ascii.eqb c c_bs).
    + destruct s as [|code s]; [discriminate|]. destruct (escape_ok code); [|discriminate].
      destruct (parse_string q s) as [[v' r']| | | |] eqn:P; try discriminate.
      inversion H; subst. apply IH in P; cbn in *; lia.
    + destruct (parse_string q s) as [[v' r']| | | |] eqn:P; try discriminate.
      inversion H; subst. apply IH in P; cbn in *; lia.
Qed.

Lemma parse_literal_len s : length (snd (parse_literal s)) <= length s.
Proof.
  induction s as [|c s IH]; cbn; [lia|]. destruct (lit_stop c); cbn; [lia|].
  destruct (parse_literal s); cbn in *; lia.
Qed.

Lemma skip_comment_len s : length (skip_comment s) <= length s.
Proof. induction s as [|c s IH]; cbn; [lia|]. destruct (Ascii.eqb c c_nl); cbn in *; lia. Qed.

Lemma step_len c s st s' st' : c <> c_bs -> parse_step (c :: s) st = Ret (s', st') ->
  length s' < length (c :: s).
Proof.
  intros Hc H. destruct (char_cases c) as [C|[C|[C|[C|[C|[C|C]]]]]].
  - rewrite step_ws in H by auto. inversion H; subst; cbn; lia.
  - subst c. cbn [parse_step] in H. inversion H; subst. cbn.
    pose proof (skip_comment_len s). lia.
  - subst c; cbn in H. inversion H; subst; cbn; lia.
  - subst c; cbn in H. destruct st as [|? [|? ?]]; try discriminate.
    inversion H; subst; cbn; lia.
  - rewrite step_quote in H by auto.
    destruct (parse_string c s) as [[v r]| | | |] eqn:P; try discriminate.
    apply parse_string_len in P. cbn [bind] in H.
    destruct (push_item st (EVal v)); try discriminate. inversion H; subst; cbn; lia.
  - congruence.
  - rewrite step_word in H by tauto. cbn [parse_literal] in H.
    rewrite (proj2 (lit_stop_not_special c) C) in H.
    pose proof (parse_literal_len s) as L.
    destruct (parse_literal s) as [w r]. cbn in L.
    destruct (push_item st _); try discriminate. inversion H; subst; cbn; lia.
Qed.

(** Steps only stop outside strings and comments. *)
Definition outside_after (m : mode) (p : str) : Prop := fold_left scan1 p m = Outside.

Lemma scan_string q b v : quote q -> strbody q b v ->
  fold_left scan1 (b ++ [q]) (InStr q) = Outside.
Proof.
  intros Hq H; induction H as [|c b v H1 H2 H IH|c b v Hc H IH].
  - cbn. now rewrite Ascii.eqb_refl.
  - cbn [app fold_left scan1]. rewrite (proj2 (ascii_eqb_neq c q)), (proj2 (ascii_eqb_neq c c_bs)); auto.
  - cbn [app fold_left]. cbn [scan1].
    rewrite (proj2 (ascii_eqb_neq c_bs q)) by (destruct Hq; subst; discriminate).
    rewrite Ascii.eqb_refl. exact IH.
Qed.

Lemma scan_outside w : Forall (fun c => ~ special c) w -> fold_left scan1 w Outside = Outside.
Proof.
  induction 1 as [|c w Hc Hw IH]; [reflexivity|]. cbn [fold_left scan1].
  rewrite (proj2 (ascii_eqb_neq c ";")), (proj2 (ascii_eqb_neq c c_sq)), (proj2 (ascii_eqb_neq c c_dq));
    [exact IH| | |]; intros ->; apply Hc; unfold special; cbn; tauto.
Qed.

Lemma scan_comment b : ~ In c_nl b -> fold_left scan1 b Comment = Comment.
Proof.
  induction b as [|c b IH]; intro H; [reflexivity|]. cbn [fold_left scan1].
  rewrite (proj2 (ascii_eqb_neq c c_nl)); [apply IH|]; firstorder congruence.
Qed.

(** One step consumes a prefix after which the scanner is Outside (or the whole input, or
    it stops just before the newline that ends a comment). *)
Lemma step_scan c s st s' st' : c <> c_bs -> parse_step (c :: s) st = Ret (s', st') ->
  exists p, c :: s = p ++ s' /\ (fold_left scan1 p Outside = Outside \/ s' = [] \/
     exists r, s' = c_nl :: r /\ fold_left scan1 (p ++ [c_nl]) Outside = Outside).
Proof.
  intros Hc H. destruct (char_cases c) as [C|[C|[C|[C|[C|[C|C]]]]]].
  - rewrite step_ws in H by auto. inversion H; subst. exists [c]. split; [reflexivity|].
    left. destruct C as [<-|[<-|[<-|[<-|[]]]]]; reflexivity.
  - subst c. cbn [parse_step] in H. inversion H; subst.
    destruct (skip_comment_inv (";"%char :: s)) as (body & Hs & Hb & Ht).
    exists body. split; [exact Hs|]. right. destruct Ht as [Ht|[r Ht]]; [auto|right].
    exists r. split; auto. rewrite Ht in Hs.
    destruct body as [|c0 body]; [discriminate|]. cbn in Hs. inversion Hs; subst.
    cbn [app fold_left]. rewrite fold_left_app. cbn [scan1 Ascii.eqb].
    rewrite scan_comment by (intro; apply Hb; right; auto). reflexivity.
  - subst c; cbn in H. inversion H; subst. exists ["("%char]; split; auto.
  - subst c; cbn in H. destruct st as [|? [|? ?]]; try discriminate.
    inversion H; subst. exists [")"%char]; split; auto.
  - rewrite step_quote in H by auto.
    destruct (parse_string c s) as [[v r]| | | |] eqn:P; try discriminate.
    apply parse_string_inv in P; [|auto]. destruct P as (b & -> & Hb).
    cbn [bind] in H. destruct (push_item st (EVal v)); try discriminate. inversion H; subst.
    exists (c :: b ++ [c]). split; [cbn; now rewrite <- app_assoc|]. left.
    cbn [fold_left]. assert (scan1 Outside c = InStr c) as ->
      by (destruct C; subst; reflexivity). eapply scan_string; eauto.
  - congruence.
  - rewrite step_word in H by tauto. pose proof (parse_literal_inv (c :: s)) as P.
    destruct (parse_literal (c :: s)) as [w r]. destruct P as (Hs & Hw & _).
    destruct (push_item st _); try discriminate. inversion H; subst.
    exists w; split; auto. left. now apply scan_outside.
Qed.

Lemma parse_string_outcome q s :
  (exists v r, parse_string q s = Ret (v, r)) \/ parse_string q s = Err.
Proof.
  induction s as [s IH] using list_strong. destruct s as [|d s]; [auto|].
  cbn [parse_string]. destruct (Ascii.eqb d q); [eauto|].
  destruct (Ascii.eqb d c_bs).
  - destruct s as [|e s]; [auto|]. destruct (escape_ok e); [|auto].
    destruct (IH s ltac:(cbn; lia)) as [(v & r & ->)| ->]; cbn; eauto.
  - destruct (IH s ltac:(cbn; lia)) as [(v & r & ->)| ->]; cbn; eauto.
Qed.

Lemma step_outcome c s f st :
  (exists s' f' st', parse_step (c :: s) (f :: st) = Ret (s', f' :: st')) \/
  parse_step (c :: s) (f :: st) = Err.
Proof.
  destruct (char_cases c) as [C|[C|[C|[C|[C|C]]]]].
  - rewrite step_ws by auto; eauto.
  - subst; cbn [parse_step]; eauto.
  - subst; cbn [parse_step]; eauto.
  - subst; cbn [parse_step]. destruct st; eauto.
  - rewrite step_quote by auto.
    destruct (parse_string_outcome c s) as [(v & r & ->)| ->]; cbn; eauto.
  - rewrite step_word by tauto. destruct (parse_literal (c :: s)). cbn; eauto.
Qed.

Lemma loop_terminates s : ~ bare_backslash s -> forall f st n, length s <= n ->
  (exists es, parse_loop n s (f :: st) = Ret es) \/ parse_loop n s (f :: st) = Err.
Proof.
  induction s as [s IH] using list_strong; intros Hb f st n Hn.
  destruct s as [|c s]. { destruct n, st as [|? ?]; cbn; eauto. }
  destruct n as [|n]; [cbn in Hn; lia|]. cbn [parse_loop].
  assert (c <> c_bs) as Hc.
  { intros ->. apply Hb. exists [], s; split; reflexivity. }
  destruct (step_outcome c s f st) as [(s' & f' & st' & P)|P]; rewrite P; [|auto].
  cbn [bind].
  pose proof (step_len _ _ _ _ _ Hc P) as L.
  destruct (step_scan _ _ _ _ _ Hc P) as (p & Hs & Hp).
  apply IH; [cbn in *; lia| |cbn in *; lia].
  intros (p' & r & -> & Hr).
  destruct Hp as [Hp|[Hp|(r0 & Hp & Hq)]].
  - apply Hb. exists (p ++ p'), r. rewrite Hs, <- app_assoc. split; auto.
    now rewrite fold_left_app, Hp.
  - destruct p'; discriminate.
  - destruct p' as [|c0 p']; cbn in Hp; [discriminate|]. inversion Hp; subst.
    apply Hb. exists (p ++ c_nl :: p'), r. rewrite Hs, <- app_assoc. split; auto.
    change (c_nl :: p') with ([c_nl] ++ p'). rewrite app_assoc, fold_left_app, Hq. exact Hr.
Qed.

Lemma parse_total s : ~ bare_backslash s ->
  (exists es, expr_parse (length s) s = Ret es /\ program s es) \/
  (expr_parse (length s) s = Err /\ forall es, ~ program s es).
Proof.
  intro Hb. unfold expr_parse in *.
  destruct (loop_terminates s Hb [] [] (length s) (le_n _)) as [[es T]|T].
  - left; exists es; split; auto. eapply parses_program; exact T.
  - right; split; auto. intros es Hp. apply program_parses in Hp as [n Hn].
    unfold expr_parse in Hn.
    assert (parse_loop (length s + n) s [[]] = Err) by (apply (loop_mono (length s)); [lia|exact T|discriminate]).
    assert (parse_loop (length s + n) s [[]] = Ret es) by (apply (loop_mono n); [lia|exact Hn|discriminate]).
    congruence.
Qed.

Lemma bare_backslash_diverges r n st f : parse_loop n (c_bs :: r) (f :: st) = Diverge.
Proof. revert f; induction n as [|n IH]; intro f; [reflexivity|]. cbn. apply IH. Qed.

(** A backslash reached outside strings hangs the reader, wherever it is. *)
Lemma items_backslash_diverges s es r n : items s es -> expr_parse n (s ++ c_bs :: r) = Diverge.
Proof.
  intro H.
  assert (word_ends (c_bs :: r)) as We by (cbn; unfold special; cbn; tauto).
  pose proof (items_steps _ _ H _ [] [] We) as X.
  destruct (steps_loop _ _ _ _ X) as [k Hk].
  unfold expr_parse.
  destruct (parse_loop n (s ++ c_bs :: r) [[]]) eqn:E; auto; exfalso;
    (assert (parse_loop (k + n) (s ++ c_bs :: r) [[]] <> Diverge) as Y;
     [rewrite (loop_mono n (k + n) _ _ _ (Nat.le_add_l n k) E) by discriminate; discriminate
     |apply Y; rewrite Hk; apply bare_backslash_diverges]).
Qed.

(* ---------- round trip ---------- *)
Lemma items_app s1 s2 e1 e2 : items s1 e1 -> items s2 e2 -> word_ends s2 -> items (s1 ++ s2) (e1 ++ e2).
Proof.
  intros H1 H2 We; induction H1; cbn [app]; auto.
  - now constructor.
  - rewrite <- app_assoc; cbn [app]. now constructor.
  - rewrite <- app_assoc; cbn [app]. now constructor.
  - rewrite <- app_assoc. constructor; auto using word_ends_app.
  - rewrite <- app_assoc; cbn [app]. now constructor.
Qed.

Lemma gap_items g s es : gap g -> items s es -> items (g ++ s) es.
Proof.
  intros Hg Hs; induction Hg; cbn [app]; auto.
  - now constructor.
  - rewrite <- app_assoc; cbn [app]. now constructor.
Qed.

Lemma flat_map_esc_body v : strbody c_dq (flat_map esc_char v) v.
Proof.
  induction v as [|c v IH]; [constructor|]. cbn [flat_map]. unfold esc_char.
  destruct (Ascii.eqb_spec c c_bs) as [->|n1]; [|destruct (Ascii.eqb_spec c c_dq) as [->|n2]]; cbn [orb app].
  - apply sb_esc; auto.
  - apply sb_esc; auto.
  - apply sb_plain; auto.
Qed.

Lemma rendered_items es s : rendered es s -> items s es.
Proof.
  induction 1 as [g Hg|g v es s Hg H IH|g w es s Hg Hw He H IH|g xs t es s Hg H1 IH1 H2 IH2].
  - rewrite <- (app_nil_r g). apply gap_items; auto. constructor.
  - apply gap_items; auto. unfold write_string. cbn [app]. rewrite <- app_assoc. cbn [app].
    apply it_string; auto; [right; reflexivity|apply flat_map_esc_body].
  - apply gap_items; auto. now constructor.
  - apply gap_items; auto. now constructor.
Qed.

Lemma rendered_parse es s : rendered es s -> exists n, expr_parse n s = Ret es.
Proof. intro H. apply program_parses. left. now apply rendered_items. Qed.

Section expr_ind.
  Variable P : expr -> Prop.
  Hypothesis HL : forall l, Forall P l -> P (EList l).
  Hypothesis Hlit : forall s, P (ELit s).
  Hypothesis Hval : forall s, P (EVal s).
  Fixpoint expr_ind' (e : expr) : P e :=
    match e with
    | EList l => HL l ((fix go (l : list expr) : Forall P l :=
        match l with [] => Forall_nil _ | x :: r => Forall_cons _ (expr_ind' x) (go r) end) l)
    | ELit s => Hlit s
    | EVal s => Hval s
    end.
End expr_ind.

(** Continuation style: the written element followed by any items text. *)
Lemma write_items e : ok_expr e -> forall s es, items s es -> items (write e ++ c_sp :: s) (e :: es).
Proof.
  induction e as [l IH|w|v] using expr_ind'; intros H s es Hs.
  - inversion H as [l' Hl| |]; subst.
    assert (items (write_list l) l) as X.
    { clear H. unfold write_list. induction IH as [|x l Hx IH IHl]; [constructor|].
      inversion Hl; subst. cbn [flat_map]. rewrite <- app_assoc. cbn [app].
      apply Hx; auto. }
    cbn [write app]. rewrite <- app_assoc. cbn [app]. apply it_list; auto.
    apply it_ws; auto. apply ws_sp.
  - inversion H; subst. cbn [write]. apply it_word; auto.
    + apply word_ends_sp.
    + apply it_ws; [apply ws_sp|auto].
  - cbn [write]. unfold write_string. cbn [app]. rewrite <- app_assoc. cbn [app].
    apply it_string; [right; reflexivity|apply flat_map_esc_body|].
    apply it_ws; [apply ws_sp|auto].
Qed.

Lemma write_list_items l : Forall ok_expr l -> items (write_list l) l.
Proof.
  unfold write_list. induction 1 as [|x l Hx H IH]; [constructor|].
  cbn [flat_map]. rewrite <- app_assoc. cbn [app]. now apply write_items.
Qed.

Lemma write_parse l : Forall ok_expr l -> exists n, expr_parse n (write_list l) = Ret l.
Proof. intro H. apply program_parses. left. now apply write_list_items. Qed.

(* inspect *)
Lemma inspect_eq l : inspect (EList l) = "("%char :: inspect_list l ++ [")"%char].
Proof. reflexivity. Qed.

Lemma inspect_items e : words_only e ->
  forall s es, word_ends s -> items s es -> items (inspect e ++ s) (unquote e :: es).
Proof.
  induction e as [l IH|w|v] using expr_ind'; intros H s es We Hs.
  - inversion H as [l' Hl| |]; subst. rewrite inspect_eq. cbn [app]. rewrite <- app_assoc. cbn [app unquote].
    apply it_list; auto. clear H Hs We s es.
    induction IH as [|x l Hx IH IHl]; [constructor|]. inversion Hl; subst.
    destruct l as [|y l].
    + cbn [inspect_list map]. rewrite <- (app_nil_r (inspect x)). apply Hx; auto; constructor.
    + cbn [map]. change (inspect_list (x :: y :: l)) with (inspect x ++ c_sp :: inspect_list (y :: l)).
      apply Hx; auto using word_ends_sp. apply it_ws; [apply ws_sp|]. auto.
  - inversion H; subst. cbn. apply it_word; auto.
  - inversion H; subst. cbn. apply it_word; auto.
Qed.

Lemma inspect_list_items l : Forall words_only l -> items (inspect_list l) (map unquote l).
Proof.
  induction 1 as [|x l Hx H IH]; [constructor|]. destruct l as [|y l].
  - cbn [inspect_list map]. rewrite <- (app_nil_r (inspect x)). apply inspect_items; auto; constructor.
  - cbn [map]. change (inspect_list (x :: y :: l)) with (inspect x ++ c_sp :: inspect_list (y :: l)).
    apply inspect_items; auto using word_ends_sp. apply it_ws; [apply ws_sp|]. auto.
Qed.

Lemma inspect_parse l : Forall words_only l ->
  exists n, expr_parse n (inspect_list l) = Ret (map unquote l).
Proof. intro H. apply program_parses. left. now apply inspect_list_items. Qed.
