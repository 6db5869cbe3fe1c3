From Verif Require Import Base Sexpr_Model Dispatch_Model Dispatch_Spec.


Section W.
  Context {S : Type}.
  Variable fns : str -> option (list expr -> S -> S * bool).
  Notation walk := (walk fns).

  Lemma command_inv e : {k & {args | e = EList (ELit k :: args) \/ e = EList (EVal k :: args)}} +
    {forall k args, ~ command e k args}.
  Proof.
    destruct e as [[|[l|k|k] args]|s|s].
    - right; intros ? ? H; inversion H.
    - right; intros ? ? H; inversion H.
    - left; exists k, args; auto.
    - left; exists k, args; auto.
    - right; intros ? ? H; inversion H.
    - right; intros ? ? H; inversion H.
  Qed.

  Lemma walk_cmd collect e k args rest u t s : command e k args ->
    walk collect (e :: rest) u t s =
      match fns k with
      | None => if collect then walk collect rest (u ++ [e]) rest s else (s, Err)
      | Some f => let '(s', ok) := f args s in
                  if ok then walk collect rest u t s' else (s', Err)
      end.
  Proof. intro H; inversion H; subst; reflexivity. Qed.

  Lemma walk_notcmd collect e rest u t s : (forall k args, ~ command e k args) ->
    walk collect (e :: rest) u t s = (s, Err).
  Proof.
    intro H. destruct e as [[|[l|k|k] args]|v|v]; cbn; auto; exfalso; eapply H; constructor.
  Qed.

  (** collected part: exact *)
  Fixpoint collected (l u t : list expr) : list expr :=
    match l with
    | [] => u ++ t
    | e :: rest => if unknown fns e then collected rest (u ++ [e]) rest else collected rest u t
    end.

  Lemma unknown_cmd e k args : command e k args ->
    unknown fns e = match fns k with None => true | Some _ => false end.
  Proof. intro H; inversion H; reflexivity. Qed.

  Lemma walk_ok collect l : forall u t s s' r, walk collect l u t s = (s', Ret r) <->
    (runs fns collect l s s' /\ r = collected l u t).
  Proof.
    induction l as [|e l IH]; intros u t s s' r.
    { cbn. split.
      - intro H; inversion H; subst; split; auto; constructor.
      - intros [H ->]; inversion H; subst; auto. }
    destruct (command_inv e) as [(k & args & He)|Hn].
    - assert (command e k args) as Hc by (destruct He; subst; constructor). clear He.
      rewrite (walk_cmd _ _ _ _ _ _ _ _ Hc). cbn [collected]. rewrite (unknown_cmd _ _ _ Hc).
      destruct (fns k) as [f|] eqn:F.
      + destruct (f args s) as [s1 [|]] eqn:E.
        * rewrite IH. split; intros [H1 H2]; split; auto.
          -- econstructor; eauto.
          -- inversion H1; subst.
             ++ assert (k0 = k /\ args0 = args) as [-> ->] by (inversion Hc; subst; inversion H3; auto).
                rewrite F in H4; inversion H4; subst. rewrite E in H5; inversion H5; subst; auto.
             ++ assert (k0 = k) as -> by (inversion Hc; subst; inversion H3; auto). congruence.
        * split; [discriminate|]. intros [H1 _]. exfalso. inversion H1; subst.
          -- assert (k0 = k /\ args0 = args) as [-> ->] by (inversion Hc; subst; inversion H2; auto).
             congruence.
          -- assert (k0 = k) as -> by (inversion Hc; subst; inversion H2; auto). congruence.
      + destruct collect.
        * rewrite IH. split; intros [H1 H2]; split; auto.
          -- eapply runs_unknown; eauto.
          -- inversion H1; subst; auto.
             assert (k0 = k) as -> by (inversion Hc; subst; inversion H3; auto). congruence.
        * split; [discriminate|]. intros [H1 _]. exfalso. inversion H1; subst; [|discriminate].
          assert (k0 = k) as -> by (inversion Hc; subst; inversion H2; auto). congruence.
    - rewrite walk_notcmd by auto. split; [discriminate|].
      intros [H _]; inversion H; subst; exfalso; eapply Hn; eauto.
  Qed.

  Lemma walk_err collect l : forall u t s s', walk collect l u t s = (s', Err) <->
    exists pre e post s1, l = pre ++ e :: post /\ runs fns collect pre s s1 /\
      culprit fns collect e s1 s'.
  Proof.
    induction l as [|e l IH]; intros u t s s'.
    { cbn. split; [discriminate|]. intros (pre & e & post & s1 & H & _). destruct pre; discriminate. }
    destruct (command_inv e) as [(k & args & He)|Hn].
    - assert (command e k args) as Hc by (destruct He; subst; constructor). clear He.
      rewrite (walk_cmd _ _ _ _ _ _ _ _ Hc).
      assert (forall k0 args0, command e k0 args0 -> k0 = k /\ args0 = args) as U
        by (intros k0 args0 H0; inversion Hc; subst; inversion H0; auto).
      assert (forall f s1, fns k = Some f -> f args s = (s1, true) ->
        (exists pre e0 post s2, l = pre ++ e0 :: post /\ runs fns collect pre s1 s2 /\ culprit fns collect e0 s2 s') <->
        (exists pre e0 post s2, e :: l = pre ++ e0 :: post /\ runs fns collect pre s s2 /\ culprit fns collect e0 s2 s')) as Step.
      { intros f s1 F E. split.
        - intros (pre & e0 & post & s2 & -> & R & C). exists (e :: pre), e0, post, s2.
          repeat split; auto. econstructor; eauto.
        - intros (pre & e0 & post & s2 & Hl & R & C). destruct pre as [|e1 pre]; cbn in Hl; inversion Hl; subst.
          + exfalso. inversion R; subst. inversion C; subst.
            * eapply H; eauto.
            * apply U in H as [-> ->]. congruence.
            * apply U in H as [-> ->]. congruence.
          + exists pre, e0, post, s2. repeat split; auto. inversion R; subst.
            * apply U in H1 as [-> ->]. rewrite F in H2; inversion H2; subst. rewrite E in H3; inversion H3; subst; auto.
            * apply U in H1 as [-> ->]. congruence. }
      destruct (fns k) as [f|] eqn:F.
      + destruct (f args s) as [s1 [|]] eqn:E.
        * rewrite IH. eapply Step; eauto.
        * split.
          -- intro H; inversion H; subst. exists [], e, l, s. repeat split; [constructor|].
             eapply cu_fails; eauto.
          -- intros (pre & e0 & post & s2 & Hl & R & C). destruct pre as [|e1 pre]; cbn in Hl; inversion Hl; subst.
             ++ inversion R; subst. inversion C; subst.
                ** exfalso; eapply H; eauto.
                ** apply U in H as [-> ->]. congruence.
                ** apply U in H as [-> ->]. congruence.
             ++ exfalso. inversion R; subst; apply U in H1 as [-> ->]; congruence.
      + destruct collect.
        * rewrite IH. split.
          -- intros (pre & e0 & post & s2 & -> & R & C). exists (e :: pre), e0, post, s2.
             repeat split; auto. eapply runs_unknown; eauto.
          -- intros (pre & e0 & post & s2 & Hl & R & C). destruct pre as [|e1 pre]; cbn in Hl; inversion Hl; subst.
             ++ exfalso. inversion R; subst. inversion C; subst; [eapply H; eauto|discriminate|].
                apply U in H as [-> ->]. congruence.
             ++ exists pre, e0, post, s2. repeat split; auto. inversion R; subst; auto.
                apply U in H1 as [-> ->]. congruence.
        * split.
          -- intro H; inversion H; subst. exists [], e, l, s'. repeat split; [constructor|].
             eapply cu_unknown; eauto.
          -- intros (pre & e0 & post & s2 & Hl & R & C). destruct pre as [|e1 pre]; cbn in Hl; inversion Hl; subst.
             ++ inversion R; subst. inversion C; subst; auto.
                apply U in H as [-> ->]. congruence.
             ++ exfalso. inversion R; subst; [apply U in H1 as [-> ->]; congruence|discriminate].
    - rewrite walk_notcmd by auto. split.
      + intro H; inversion H; subst. exists [], e, l, s'. repeat split; [constructor|].
        now apply cu_shape.
      + intros (pre & e0 & post & s2 & Hl & R & C). destruct pre as [|e1 pre]; cbn in Hl; inversion Hl; subst.
        * inversion R; subst. inversion C; subst; auto; exfalso; eapply Hn; eauto.
        * exfalso. inversion R; subst; eapply Hn; eauto.
  Qed.

  Lemma walk_total collect l : forall u t s,
    (exists s' r, walk collect l u t s = (s', Ret r)) \/ (exists s', walk collect l u t s = (s', Err)).
  Proof.
    induction l as [|e l IH]; intros u t s; [cbn; eauto|].
    destruct (command_inv e) as [(k & args & He)|Hn].
    - assert (command e k args) as Hc by (destruct He; subst; constructor).
      rewrite (walk_cmd _ _ _ _ _ _ _ _ Hc). destruct (fns k) as [f|].
      + destruct (f args s) as [s1 [|]]; eauto.
      + destruct collect; eauto.
    - rewrite walk_notcmd by auto; eauto.
  Qed.

  (** What is collected: the unknown elements up to the last of them, then everything. *)
  Lemma collected_none l u t : forallb (fun e => negb (unknown fns e)) l = true -> collected l u t = u ++ t.
  Proof.
    revert u t; induction l as [|e l IH]; intros u t H; [reflexivity|].
    cbn in *. apply andb_true_iff in H as [H1 H2]. rewrite (proj1 (negb_true_iff _) H1). auto.
  Qed.

  Lemma collected_last l1 e l2 u t : unknown fns e = true ->
    forallb (fun x => negb (unknown fns x)) l2 = true ->
    collected (l1 ++ e :: l2) u t = u ++ filter (unknown fns) l1 ++ e :: l2.
  Proof.
    revert u t; induction l1 as [|x l1 IH]; intros u t He H2; cbn [app collected filter].
    - rewrite He, collected_none by auto. now rewrite <- app_assoc.
    - destruct (unknown fns x) eqn:E; rewrite IH by auto; auto. now rewrite <- app_assoc.
  Qed.

  Lemma walk_collects l s s' r : expr_walk_map fns true l s = (s', Ret r) ->
    (forall a b, l = a ++ b -> forallb (fun x => negb (unknown fns x)) b = true -> b = [] \/ forallb (fun x => negb (unknown fns x)) l = true) ->
    r = filter (unknown fns) l.
  Proof.
    intros H Hl. apply walk_ok in H as [_ ->].
    destruct l as [|x0 l0] using rev_ind; [reflexivity|]. clear IHl0.
    destruct (unknown fns x0) eqn:E.
    - rewrite (collected_last l0 x0 []) by auto. rewrite filter_app. cbn. rewrite E. reflexivity.
    - destruct (Hl l0 [x0]) as [X|X]; [reflexivity| |discriminate|].
      + cbn. rewrite E. reflexivity.
      + rewrite collected_none by auto. cbn.
        symmetry. clear -X. induction (l0 ++ [x0]) as [|y l IH]; [reflexivity|].
        cbn in *. apply andb_true_iff in X as [X1 X2]. rewrite (proj1 (negb_true_iff _) X1). auto.
  Qed.

  Lemma walk_collects_exact l1 e l2 s s' r : unknown fns e = true ->
    forallb (fun x => negb (unknown fns x)) l2 = true ->
    expr_walk_map fns true (l1 ++ e :: l2) s = (s', Ret r) ->
    r = filter (unknown fns) l1 ++ e :: l2.
  Proof. intros He H2 H. apply walk_ok in H as [_ ->]. now rewrite collected_last. Qed.
End W.

(* ---- conversions ---- *)
Definition values (vs : list str) (e : list expr) : Prop :=
  Forall2 (fun v x => x = ELit v \/ x = EVal v) vs e.

Lemma tov_ok e : forall acc vs,
  tov_loop expr_to_string e acc = (vs, Ret tt) <-> exists ws, vs = acc ++ ws /\ values ws e.
Proof.
  induction e as [|x e IH]; intros acc vs; cbn [tov_loop].
  - split.
    + intro H; inversion H; subst. exists []; rewrite app_nil_r; split; auto; constructor.
    + intros (ws & -> & H). inversion H; subst. now rewrite app_nil_r.
  - destruct x as [l|v|v]; cbn [expr_to_string value_of].
    + split; [discriminate|]. intros (ws & _ & H). inversion H; subst. destruct H3; discriminate.
    + rewrite IH. split; intros (ws & -> & H).
      * exists (v :: ws). rewrite <- app_assoc. split; auto. constructor; auto.
      * inversion H; subst. destruct H3 as [X|X]; inversion X; subst.
        exists l. rewrite <- app_assoc. split; auto.
    + rewrite IH. split; intros (ws & -> & H).
      * exists (v :: ws). rewrite <- app_assoc. split; auto. constructor; auto.
      * inversion H; subst. destruct H3 as [X|X]; inversion X; subst.
        exists l. rewrite <- app_assoc. split; auto.
Qed.

Lemma strings_ok e old vs : expr_to_strings e old = (vs, Ret tt) <-> values vs e.
Proof.
  unfold expr_to_strings, expr_tov. rewrite tov_ok. cbn. split; [intros (ws & -> & H); auto|eauto].
Qed.

Lemma tov_total e : forall acc, snd (tov_loop expr_to_string e acc) = Ret tt \/
  snd (tov_loop expr_to_string e acc) = Err.
Proof.
  induction e as [|x e IH]; intro acc; cbn; auto. destruct x; cbn; auto.
Qed.

Lemma stringset_ok e : forall acc vs, stringset_loop e acc = (vs, Ret tt) <->
  exists ws, vs = rev ws ++ acc /\ values ws e.
Proof.
  induction e as [|x e IH]; intros acc vs; cbn [stringset_loop].
  - split.
    + intro H; inversion H; subst. exists []; split; auto; constructor.
    + intros (ws & -> & H). inversion H; subst. reflexivity.
  - destruct x as [l|v|v]; cbn [value_of].
    + split; [discriminate|]. intros (ws & _ & H). inversion H; subst. destruct H3; discriminate.
    + rewrite IH. split; intros (ws & -> & H).
      * exists (v :: ws). cbn [rev]. rewrite <- app_assoc. split; auto. constructor; auto.
      * inversion H; subst. destruct H3 as [X|X]; inversion X; subst.
        exists l. cbn [rev]. rewrite <- app_assoc. split; auto.
    + rewrite IH. split; intros (ws & -> & H).
      * exists (v :: ws). cbn [rev]. rewrite <- app_assoc. split; auto. constructor; auto.
      * inversion H; subst. destruct H3 as [X|X]; inversion X; subst.
        exists l. cbn [rev]. rewrite <- app_assoc. split; auto.
Qed.

Lemma stringset_members e old vs items rest : e = EList items :: rest ->
  expr_to_stringset e old = (vs, Ret tt) ->
  exists ws, values ws items /\ forall v, In v vs <-> In v ws \/ In v old.
Proof.
  intros -> H. cbn in H. apply stringset_ok in H as (ws & -> & H). exists ws; split; auto.
  intro v. rewrite in_app_iff, <- in_rev. tauto.
Qed.

Lemma switch_ok e b : expr_to_switch e = Ret b <->
  exists x r, e = x :: r /\ (x = ELit (s_ (if b then "on" else "off")) \/ x = EVal (s_ (if b then "on" else "off"))).
Proof.
  unfold expr_to_switch. split.
  - destruct e as [|[l|v|v] r]; cbn [value_of]; try discriminate; intro H.
    + destruct (str_eqb_spec v (s_ "on")) as [->|n]; [|destruct (str_eqb_spec v (s_ "off")) as [->|n2]];
        inversion H; subst; eauto.
    + destruct (str_eqb_spec v (s_ "on")) as [->|n]; [|destruct (str_eqb_spec v (s_ "off")) as [->|n2]];
        inversion H; subst; eauto.
  - intros (x & r & -> & [->| ->]); destruct b; reflexivity.
Qed.

Lemma switch_total e : (exists b, expr_to_switch e = Ret b) \/ expr_to_switch e = Err.
Proof.
  unfold expr_to_switch. destruct (value_of e) as [v|]; auto.
  destruct (str_eqb v _); eauto. destruct (str_eqb v _); eauto.
Qed.

Lemma assoc_in {T} k (l : list (str * T)) v : NoDup (map fst l) -> (assoc k l = Some v <-> In (k, v) l).
Proof.
  induction l as [|[k' v'] l IH]; intro N; cbn.
  - split; [discriminate|tauto].
  - inversion N; subst. destruct (str_eqb_spec k k') as [->|n].
    + split.
      * intro H; inversion H; auto.
      * intros [H|H]; [inversion H; auto|]. exfalso. apply H1. apply in_map_iff. exists (k', v); auto.
    + rewrite IH by auto. split; auto. intros [H|H]; auto. inversion H; congruence.
Qed.

Lemma enum_ok {T} (defs : list (str * T)) e x : NoDup (map fst defs) ->
  (expr_to_enum defs e = Ret x <->
   exists v y r, e = y :: r /\ (y = ELit v \/ y = EVal v) /\ In (v, x) defs).
Proof.
  intro N. unfold expr_to_enum. split.
  - destruct e as [|[l|v|v] r]; cbn [value_of]; try discriminate;
      destruct (assoc v defs) eqn:E; try discriminate; intro H; inversion H; subst;
      apply assoc_in in E; auto; eexists v, _, r; eauto.
  - intros (v & y & r & -> & Hy & H). apply assoc_in in H; auto.
    destruct Hy as [->| ->]; cbn [value_of]; now rewrite H.
Qed.

Lemma enum_total {T} (defs : list (str * T)) e : (exists b, expr_to_enum defs e = Ret b) \/ expr_to_enum defs e = Err.
Proof. unfold expr_to_enum. destruct (value_of e); auto. destruct (assoc _ _); eauto. Qed.

Lemma pair_ok {num} (stod : str -> option (num * nat)) e v1 v2 r1 r2 :
  expr_to_float64_opt_pair stod e v1 v2 = ((r1, r2), Ret tt) <->
  exists a b s1 s2 q1 q2 n1 n2, e = [a; b] /\ (a = ELit s1 \/ a = EVal s1) /\ (b = ELit s2 \/ b = EVal s2) /\
     stod s1 = Some (q1, n1) /\ stod s2 = Some (q2, n2) /\ r1 = Some q1 /\ r2 = Some q2.
Proof.
  unfold expr_to_float64_opt_pair, expr_to_float64. split.
  - destruct e as [|a [|b [|? ?]]]; try discriminate.
    destruct a as [l|sa|sa]; cbn [value_of]; try discriminate;
      destruct (stod sa) as [[q1 n1]|] eqn:E1; try discriminate;
      destruct b as [l|sb|sb]; cbn [value_of]; try discriminate;
      destruct (stod sb) as [[q2 n2]|] eqn:E2; try discriminate;
      intro H; inversion H; subst;
      eexists _, _, sa, sb, q1, q2, n1, n2; repeat split; auto.
  - intros (a & b & s1 & s2 & q1 & q2 & n1 & n2 & -> & Ha & Hb & E1 & E2 & -> & ->).
    destruct Ha as [->| ->], Hb as [->| ->]; cbn [value_of]; now rewrite E1, E2.
Qed.

Lemma pair_fail {num} (stod : str -> option (num * nat)) e v1 v2 r : snd r <> Ret tt -> expr_to_float64_opt_pair stod e v1 v2 = r ->
  snd r = Err /\ (snd (fst r) = v2).
Proof.
  intros Hr H. subst r. unfold expr_to_float64_opt_pair in *.
  destruct e as [|a [|b [|? ?]]]; cbn in *; auto.
  destruct (expr_to_float64 stod [a; b]) eqn:E; cbn in *; auto.
  destruct (expr_to_float64 stod [b]); cbn in *; auto. congruence.
Qed.

(** The reading of one number with a unit. *)
Lemma number_ok {num Unit} (zero : num) isz (stod : str -> option (num * nat)) (up : str -> option Unit)
    conv e x :
  expr_to_number zero isz stod up conv e = Ret x <->
  exists a r s q n, e = a :: r /\ (a = ELit s \/ a = EVal s) /\ stod s = Some (q, n) /\
    ((n = length s /\ isz q = true /\ x = zero) \/
     (n <> length s /\ exists u f, up (skipn n s) = Some u /\ conv u = Some f /\ x = f q)).
Proof.
  unfold expr_to_number. split.
  - destruct e as [|a r]; [discriminate|].
    destruct a as [l|s|s]; cbn [value_of]; try discriminate;
      (destruct (stod s) as [[q n]|] eqn:E; [|discriminate]);
      (destruct (Nat.eqb_spec n (length s)) as [Hn|Hn];
       [ destruct (isz q) eqn:Z; [|discriminate]; intro H; injection H as <-;
         eexists _, r, s, q, n; split; [reflexivity|]; split; [auto|]; split; [exact E|]; left; auto
       | destruct (up (skipn n s)) as [u|] eqn:U; [|discriminate];
         destruct (conv u) as [f|] eqn:C; [|discriminate]; intro H; injection H as <-;
         eexists _, r, s, q, n; split; [reflexivity|]; split; [auto|]; split; [exact E|]; right;
         split; [exact Hn|]; exists u, f; auto ]).
  - intros (a & r & s & q & n & -> & Ha & E & D).
    destruct Ha as [->| ->]; cbn [value_of]; rewrite E;
      (destruct D as [(-> & Z & ->)|(Hn & u & f & U & C & ->)];
       [ now rewrite Nat.eqb_refl, Z
       | destruct (Nat.eqb_spec n (length s)); [contradiction|]; now rewrite U, C ]).
Qed.

Lemma vec2_ok {num Unit} (zero : num) isz (stod : str -> option (num * nat)) (up : str -> option Unit)
    c1 c2 e v r :
  expr_to_vec2 zero isz stod up c1 c2 e v = (r, Ret tt) <->
  exists a b, e = [a; b] /\ expr_to_number zero isz stod up c1 [a] = Ret (fst r) /\
    expr_to_number zero isz stod up c2 [b] = Ret (snd r).
Proof.
  unfold expr_to_vec2. split.
  - destruct e as [|a [|b [|? ?]]]; try discriminate.
    assert (X : expr_to_number zero isz stod up c1 [a; b] = expr_to_number zero isz stod up c1 [a])
      by (unfold expr_to_number; now destruct a). rewrite X.
    destruct (expr_to_number _ _ _ _ c1 [a]) eqn:E1; try discriminate.
    destruct (expr_to_number _ _ _ _ c2 [b]) eqn:E2; try discriminate.
    intro H. injection H as <-. exists a, b. auto.
  - intros (a & b & -> & E1 & E2).
    assert (X : expr_to_number zero isz stod up c1 [a; b] = expr_to_number zero isz stod up c1 [a])
      by (unfold expr_to_number; now destruct a). rewrite X, E1, E2. now destruct r.
Qed.
