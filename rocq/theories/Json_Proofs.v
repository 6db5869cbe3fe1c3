From Verif Require Import Base Json_Model Json_Spec.

(** Reading the tokens [ts] from [s], one by one, leaves [s']. *)
Inductive delivers : list tok -> str -> str -> Prop :=
| d_nil s : delivers [] s s
| d_cons t ts s s1 s2 : json_parse s = (Ret t, s1) -> delivers ts s1 s2 -> delivers (t :: ts) s s2.

Lemma delivers_app ts us s s' : delivers (ts ++ us) s s' <-> exists m, delivers ts s m /\ delivers us m s'.
Proof.
  revert s; induction ts as [|t ts IH]; intro s; cbn [app].
  - split; [intro H; exists s; split; [constructor|auto]|]. intros (m & H1 & H2). inversion H1; subst; auto.
  - split.
    + intro H; inversion H as [|t0 ts0 s0 s1 s2 J D]; subst. apply IH in D as (m & D1 & D2).
      exists m; split; auto. econstructor; eauto.
    + intros (m & D1 & D2). inversion D1 as [|t0 ts0 s0 s1 s2 J D]; subst. econstructor; eauto. apply IH. eauto.
Qed.

Lemma delivers_one t s s' : json_parse s = (Ret t, s') -> delivers [t] s s'.
Proof. intro H. econstructor; eauto. constructor. Qed.

Lemma json_ind' (P : json -> Prop) :
  P JNull -> P JTrue -> P JFalse -> (forall l, P (JNum l)) -> (forall r, P (JStr r)) ->
  (forall l, Forall P l -> P (JArr l)) ->
  (forall m, Forall (fun p => P (snd p)) m -> P (JObj m)) -> forall v, P v.
Proof.
  intros H1 H2 H3 H4 H5 H6 H7. fix IH 1. intros [| | |l|r|l|m];
    [exact H1|exact H2|exact H3|apply H4|apply H5| |].
  - apply H6. induction l as [|v l IHl]; constructor; [apply IH|exact IHl].
  - apply H7. induction m as [|[k v] m IHm]; constructor; [apply IH|exact IHm].
Qed.

(* -- sizes -- *)
Lemma parse_str_len s v r : parse_str s = (Ret v, r) -> length r < length s.
Proof.
  remember (length s) as n eqn:E. assert (length s <= n) as L by lia. clear E. revert s v r L.
  induction n as [|n IH]; intros s v r L H.
  - destruct s; [discriminate|cbn in L; lia].
  - destruct s as [|c s]; [discriminate|]. cbn [parse_str] in H. cbn in L.
    destruct (Ascii.eqb c c_bs).
    + destruct s as [|d s]; [discriminate|]. destruct (parse_str s) as [[] t] eqn:E; try discriminate.
      injection H; intros; subst. cbn in L. assert (length r < n) by (eapply IH; eauto; lia). lia.
    + destruct (Ascii.eqb c c_dq). { injection H; intros; subst; lia. }
      destruct (Ascii.eqb c "000"%char); [discriminate|].
      destruct (parse_str s) as [[] t] eqn:E; try discriminate.
      injection H; intros; subst. assert (length r < n) by (eapply IH; eauto; lia). lia.
Qed.

Lemma parse_num_len s v r : parse_num s = (Ret v, r) -> length r <= length s.
Proof.
  revert v r; induction s as [|c s IH]; intros v r H; [discriminate|]. cbn [parse_num] in H.
  destruct (num_char c).
  - destruct (parse_num s) as [[] t] eqn:E; try discriminate. injection H; intros; subst. cbn.
    assert (length r <= length s) by (eapply IH; reflexivity). lia.
  - destruct (Ascii.eqb c c_sp). { apply IH in H. cbn; lia. }
    destruct (Ascii.eqb c "000"%char); [discriminate|]. injection H; intros; subst. lia.
Qed.

Lemma parse_num_strict c s v r : num_char c = true -> parse_num (c :: s) = (Ret v, r) -> length r <= length s.
Proof.
  intros Hc H. cbn [parse_num] in H. rewrite Hc in H.
  destruct (parse_num s) as [[] t] eqn:E; try discriminate. injection H; intros; subst. eapply parse_num_len; eauto.
Qed.

Lemma parse_lit_len c l lit t s u r : length lit = S l -> parse_lit lit t (c :: s) = (Ret u, r) -> length r <= length s.
Proof.
  intros Hl H. unfold parse_lit in H. rewrite Hl in H.
  destruct (str_eqb (firstn (S l) (c :: s)) lit); [|discriminate]. injection H; intros; subst r.
  cbn [skipn]. rewrite skipn_length. lia.
Qed.

Ltac ascii_cases c := destruct c as [[] [] [] [] [] [] [] []].

(** classification of the first character of json_parse *)
Inductive jclass := KTok (t : tok) | KSep | KNum | KStr | KLit (l : str) (t : tok) | KBad.
Definition jclassify (c : ascii) : jclass :=
  match c with
  | "{" => KTok TObjB | "}" => KTok TObjE | "[" => KTok TArrB | "]" => KTok TArrE
  | ":" | "," | " " | "010" | "013" | "009" => KSep
  | "-" | "0" | "1" | "2" | "3" | "4" | "5" | "6" | "7" | "8" | "9" => KNum
  | """" => KStr
  | "t" => KLit (s_ "true") TTrue | "f" => KLit (s_ "false") TFalse | "n" => KLit (s_ "null") TNull
  | _ => KBad
  end%char.

Definition jmap {A B} (f : A -> B) (m : jres A) : jres B := jbind m (fun a s => (Ret (f a), s)).

Lemma json_parse_eq c r : json_parse (c :: r) =
  match jclassify c with
  | KTok t => (Ret t, r)
  | KSep => json_parse r
  | KNum => jmap TNum (parse_num (c :: r))
  | KStr => jmap TStr (parse_str r)
  | KLit l t => parse_lit l t (c :: r)
  | KBad => (Err, c :: r)
  end.
Proof.
  ascii_cases c; try reflexivity;
    cbn [json_parse jclassify]; unfold jmap, jbind;
    match goal with |- context [match ?e with (_, _) => _ end] => destruct e as [[] ?]; reflexivity end.
Qed.

Lemma jclassify_num c : jclassify c = KNum -> num_char c = true.
Proof. ascii_cases c; cbn; congruence. Qed.
Lemma jclassify_lit c l t : jclassify c = KLit l t -> exists k, length l = S k.
Proof. ascii_cases c; cbn; intro H; try discriminate; injection H; intros; subst; eexists; reflexivity. Qed.

Lemma json_parse_len s t r : json_parse s = (Ret t, r) -> length r < length s.
Proof.
  revert t r; induction s as [|c s IH]; intros t r H; [discriminate|].
  rewrite json_parse_eq in H. destruct (jclassify c) eqn:K.
  - injection H; intros; subst; cbn; lia.
  - apply IH in H. cbn; lia.
  - unfold jmap, jbind in H. destruct (parse_num (c :: s)) as [[] u] eqn:E; try discriminate.
    injection H; intros; subst. apply parse_num_strict in E; auto using jclassify_num. cbn; lia.
  - unfold jmap, jbind in H. destruct (parse_str s) as [[] u] eqn:E; try discriminate.
    injection H; intros; subst. apply parse_str_len in E. cbn; lia.
  - apply jclassify_lit in K as [k K]. eapply parse_lit_len in H; eauto. cbn; lia.
  - discriminate.
Qed.

Lemma delivers_len ts s s' : delivers ts s s' -> length s' + length ts <= length s.
Proof.
  induction 1; cbn; [lia|]. apply json_parse_len in H. lia.
Qed.

(* -- skipping -- *)
Definition skip_after (t : tok) (s1 m : str) : Prop :=
  match t with
  | TArrB => forall n, length s1 <= n -> skip_array n s1 = (Ret tt, m)
  | TObjB => forall n, length s1 <= n -> skip_object n s1 = (Ret tt, m)
  | TObjE | TArrE => False
  | _ => s1 = m
  end.
Definition skips (v : json) : Prop := forall s m, delivers (tokens v) s m ->
  exists t s1, json_parse s = (Ret t, s1) /\ skip_after t s1 m.

Lemma skip_items l : Forall skips l -> forall s m, delivers (flat_map tokens l ++ [TArrE]) s m ->
  forall n, length s <= n -> skip_array n s = (Ret tt, m).
Proof.
  induction 1 as [|v l Hv Hl IH]; intros s m D n Hn; cbn [flat_map app] in D.
  - inversion D as [|t0 ts0 s0 s1 s2 J D' E1 E2 E3]; subst. inversion D'; subst.
    pose proof (json_parse_len _ _ _ J). destruct n as [|n]; [lia|]. cbn [skip_array]. rewrite J. reflexivity.
  - rewrite <- app_assoc in D. apply delivers_app in D as (m1 & D1 & D2).
    destruct (Hv _ _ D1) as (t & s1 & J & Hs).
    pose proof (json_parse_len _ _ _ J) as LJ.
    assert (length m1 < length s) as L1.
    { apply delivers_len in D1. assert (1 <= length (tokens v)) by (destruct v; cbn; lia). lia. }
    destruct n as [|n]; [lia|]. cbn [skip_array]. rewrite J. cbn [jbind].
    assert (skip_array n m1 = (Ret tt, m)) as X by (eapply IH; eauto; lia).
    destruct t; cbn [skip_after] in Hs; try contradiction; cbn [jbind]; try (subst s1; exact X).
    + rewrite Hs by lia. cbn [jbind]. exact X.
    + rewrite Hs by lia. cbn [jbind]. exact X.
Qed.

Lemma skip_members l : Forall (fun p => skips (snd p)) l -> forall s m,
  delivers (flat_map (fun p : str * json => TStr (fst p) :: tokens (snd p)) l ++ [TObjE]) s m ->
  forall n, length s <= n -> skip_object n s = (Ret tt, m).
Proof.
  induction 1 as [|[k v] l Hv Hl IH]; intros s m D n Hn; cbn [flat_map app fst snd] in D.
  - inversion D as [|t0 ts0 s0 s1 s2 J D' E1 E2 E3]; subst. inversion D'; subst.
    pose proof (json_parse_len _ _ _ J). destruct n as [|n]; [lia|]. cbn [skip_object]. rewrite J. reflexivity.
  - inversion D as [|t0 ts0 s0 sk s2 JK D' E1 E2 E3]; subst. clear D. rename D' into D.
    pose proof (json_parse_len _ _ _ JK) as LK.
    rewrite <- app_assoc in D. apply delivers_app in D as (m1 & D1 & D2).
    destruct (Hv _ _ D1) as (t & s1 & J & Hs).
    pose proof (json_parse_len _ _ _ J) as LJ.
    assert (length m1 < length sk) as L1.
    { apply delivers_len in D1. assert (1 <= length (tokens v)) by (destruct v; cbn; lia). cbn [snd] in D1. lia. }
    destruct n as [|n]; [lia|]. cbn [skip_object]. rewrite JK. cbn [jbind]. rewrite J. cbn [jbind].
    assert (skip_object n m1 = (Ret tt, m)) as X by (eapply IH; eauto; lia).
    destruct t; cbn [skip_after] in Hs; try contradiction; cbn [jbind]; try (subst s1; exact X).
    + rewrite Hs by lia. cbn [jbind]. exact X.
    + rewrite Hs by lia. cbn [jbind]. exact X.
Qed.

Lemma skips_all v : skips v.
Proof.
  induction v using json_ind'; intros s m' D;
    try (inversion D as [|t0 ts0 s0 s1 s2 J D' E1 E2 E3]; subst; inversion D'; subst;
         do 2 eexists; split; [exact J|reflexivity]).
  - cbn [tokens] in D. inversion D as [|t0 ts0 s0 s1 s2 J D' E1 E2 E3]; subst.
    exists TArrB, s1. split; auto. cbn. intros. eapply skip_items; eauto.
  - cbn [tokens] in D. inversion D as [|t0 ts0 s0 s1 s2 J D' E1 E2 E3]; subst.
    exists TObjB, s1. split; auto. cbn. intros. eapply skip_members; eauto.
Qed.

Lemma skip_ok v s m n : delivers (tokens v) s m -> length s <= n -> json_skip n s = (Ret tt, m).
Proof.
  intros D Hn. destruct (skips_all v s m D) as (t & s1 & J & Hs). unfold json_skip. rewrite J. cbn [jbind].
  pose proof (json_parse_len _ _ _ J) as LJ.
  destruct t; cbn [skip_after] in Hs; try contradiction; try (subst; reflexivity); apply Hs; lia.
Qed.

(* -- lexing -- *)
Definition sep (c : ascii) : Prop := jclassify c = KSep.
Lemma parse_seps w s : Forall sep w -> json_parse (w ++ s) = json_parse s.
Proof. induction 1 as [|c w Hc Hw IH]; auto. cbn [app]. rewrite json_parse_eq. unfold sep in Hc. now rewrite Hc. Qed.
Lemma ws_sep w : ws w -> Forall sep w.
Proof.
  unfold ws, sep. induction 1 as [|c w Hc Hw IH]; constructor; auto.
  revert Hc. ascii_cases c; cbn; congruence.
Qed.

Lemma delivers_seps w ts s s' : ts <> [] -> Forall sep w -> delivers ts s s' -> delivers ts (w ++ s) s'.
Proof. intros Hn Hw D. destruct D; [congruence|]. econstructor; eauto. now rewrite parse_seps. Qed.

Lemma parse_str_body r s : string_body r -> parse_str (r ++ c_dq :: s) = (Ret r, s).
Proof.
  induction 1 as [|c r H1 H2 H3 H IH|c r H1 H IH|a b c d r Ha Hb Hc Hd H IH].
  - reflexivity.
  - cbn [app parse_str].
    rewrite (proj2 (Ascii.eqb_neq c c_bs)), (proj2 (Ascii.eqb_neq c c_dq)) by auto.
    rewrite (proj2 (Ascii.eqb_neq c "000"%char)) by (intros ->; cbn in H1; lia).
    now rewrite IH.
  - cbn [app]. change (parse_str (c_bs :: c :: r ++ c_dq :: s)) with
      (match parse_str (r ++ c_dq :: s) with (Ret v, rest) => (Ret (c_bs :: c :: v), rest) | o => o end).
    now rewrite IH.
  - cbn [app]. 
    assert (forall x, is_hex x = true -> x <> c_bs /\ x <> c_dq /\ x <> "000"%char) as HX.
    { intros x. ascii_cases x; cbn; intro HX; try discriminate HX; repeat split; discriminate. }
    change (parse_str (c_bs :: "u"%char :: a :: b :: c :: d :: r ++ c_dq :: s)) with
      (match parse_str (a :: b :: c :: d :: r ++ c_dq :: s) with (Ret v, rest) => (Ret (c_bs :: "u"%char :: v), rest) | o => o end).
    apply HX in Ha as (Ha1 & Ha2 & Ha3), Hb as (Hb1 & Hb2 & Hb3), Hc as (Hc1 & Hc2 & Hc3), Hd as (Hd1 & Hd2 & Hd3).
    cbn [parse_str].
    repeat match goal with X : ?x <> ?y |- context [Ascii.eqb ?x ?y] => rewrite (proj2 (Ascii.eqb_neq x y) X) end.
    now rewrite IH.
Qed.

(** what may follow a number *)
Definition num_follow (s : str) : Prop :=
  exists sp c r, s = sp ++ c :: r /\ Forall (eq c_sp) sp /\ num_char c = false /\ c <> c_sp /\ c <> "000"%char.

Lemma parse_num_follow s : num_follow s -> exists sp s', s = sp ++ s' /\ Forall (eq c_sp) sp /\ parse_num s = (Ret [], s').
Proof.
  intros (sp & c & r & -> & Hsp & H1 & H2 & H3). exists sp, (c :: r). repeat split; auto.
  induction Hsp as [|x sp Hx Hsp IH]; cbn [app parse_num].
  - rewrite H1, (proj2 (Ascii.eqb_neq c c_sp)), (proj2 (Ascii.eqb_neq c "000"%char)) by auto. reflexivity.
  - subst x. cbn. exact IH.
Qed.

Lemma parse_num_chars l s s' : Forall (fun c => num_char c = true) l -> parse_num s = (Ret [], s') ->
  parse_num (l ++ s) = (Ret l, s').
Proof. intros H E. induction H as [|c l Hc H IH]; cbn [app parse_num]; auto. now rewrite Hc, IH. Qed.

Lemma digit_num c : is_digit c = true -> num_char c = true.
Proof. ascii_cases c; cbn; congruence. Qed.
Lemma digits_num s : Forall (fun c => is_digit c = true) s -> Forall (fun c => num_char c = true) s.
Proof. apply Forall_impl. exact digit_num. Qed.

Lemma lexeme_chars l : number_lexeme l -> Forall (fun c => num_char c = true) l /\
  exists c r, l = c :: r /\ jclassify c = KNum.
Proof.
  intros [sign i f e Hs Hi Hf He]. split.
  - apply Forall_app; split; [destruct Hs; subst; repeat constructor|].
    apply Forall_app; split.
    { destruct Hi; [repeat constructor|]. constructor; auto using digit_num, digits_num. }
    apply Forall_app; split.
    { destruct Hf as [|d [_ Hd]]; [constructor|]. constructor; auto using digits_num. }
    { destruct He as [|e0 sg d He Hsg [_ Hd]]; [constructor|]. constructor.
      - destruct He; subst; reflexivity.
      - apply Forall_app; split; auto using digits_num. destruct Hsg as [|[|]]; subst; repeat constructor. }
  - destruct Hs as [->| ->].
    + destruct Hi; cbn [app]; do 2 eexists; (split; [reflexivity|]); [reflexivity|].
      revert H. ascii_cases c; cbn; congruence.
    + cbn. do 2 eexists; split; reflexivity.
Qed.

(** Behind a value: exactly what follows it, except that a number eats the spaces after it. *)
Definition behind (v : json) (rest s' : str) : Prop :=
  match v with
  | JNum _ => exists sp, rest = sp ++ s' /\ Forall (eq c_sp) sp
  | _ => s' = rest
  end.
Definition may_follow (v : json) (rest : str) : Prop :=
  match v with JNum _ => num_follow rest | _ => True end.

Lemma behind_sep v rest s' w : behind v (w ++ rest) s' -> Forall sep w ->
  (forall r', rest <> c_sp :: r') -> exists w', s' = w' ++ rest /\ Forall sep w'.
Proof.
  intros B Hw Hr. destruct v; cbn in B; try (subst; exists w; auto; fail).
  destruct B as (sp & E & Hsp). revert w E Hw.
  induction Hsp as [|x sp Hx Hsp IH]; intros w E Hw; cbn [app] in E.
  - exists w; auto.
  - subst x. destruct w as [|y w]; cbn [app] in E.
    + exfalso. apply (Hr (sp ++ s')). exact E.
    + injection E; intros; subst. inversion Hw; subst. eapply IH; eauto.
Qed.

Lemma ws_follow w c r : ws w -> num_char c = false -> c <> c_sp -> c <> "000"%char -> num_follow (w ++ c :: r).
Proof.
  intros Hw H1 H2 H3. unfold num_follow. induction Hw as [|x w Hx Hw IH].
  - exists [], c, r. auto.
  - destruct (ascii_dec x c_sp) as [->|Hne].
    + destruct IH as (sp & c' & r' & E & Hsp & IH). exists (c_sp :: sp), c', r'. rewrite <- app_comm_cons, E.
      split; [reflexivity|]. split; [constructor; auto|]. exact IH.
    + exists [], x, (w ++ c :: r). repeat split; auto; revert Hx Hne; ascii_cases x; cbn; congruence.
Qed.

Scheme value_text_mut := Induction for value_text Sort Prop
  with elems_text_mut := Induction for elems_text Sort Prop
  with members_text_mut := Induction for members_text Sort Prop.

Lemma quoted_parse k s : string_body k -> json_parse ((c_dq :: k ++ [c_dq]) ++ s) = (Ret (TStr k), s).
Proof.
  intro H. rewrite <- app_comm_cons, <- app_assoc. cbn [app]. rewrite json_parse_eq. cbn [jclassify].
  unfold jmap. rewrite parse_str_body by auto. reflexivity.
Qed.

Lemma parse_tok c t r : jclassify c = KTok t -> json_parse (c :: r) = (Ret t, r).
Proof. intro H. now rewrite json_parse_eq, H. Qed.

Lemma tokens_nonempty v : tokens v <> [].
Proof. destruct v; discriminate. Qed.

Lemma value_delivers v s : value_text v s -> forall rest, may_follow v rest ->
  exists s', delivers (tokens v) (s ++ rest) s' /\ behind v rest s'.
Proof.
  revert v s.
  apply (value_text_mut
    (fun v s _ => forall rest, may_follow v rest -> exists s', delivers (tokens v) (s ++ rest) s' /\ behind v rest s')
    (fun l s _ => forall rest, delivers (flat_map tokens l ++ [TArrE]) (s ++ s_ "]" ++ rest) rest)
    (fun m s _ => forall rest, delivers (flat_map (fun p : str * json => TStr (fst p) :: tokens (snd p)) m ++ [TObjE])
       (s ++ s_ "}" ++ rest) rest)).
  - intros rest _. exists rest. split; [apply delivers_one; reflexivity|reflexivity].
  - intros rest _. exists rest. split; [apply delivers_one; reflexivity|reflexivity].
  - intros rest _. exists rest. split; [apply delivers_one; reflexivity|reflexivity].
  - intros l Hl rest HF. cbn [may_follow] in HF. destruct (lexeme_chars l Hl) as (Hc & c & r & E & K).
    destruct (parse_num_follow rest HF) as (sp & s' & E2 & Hsp & P). exists s'. split; [|exists sp; auto].
    apply delivers_one. assert (parse_num (l ++ rest) = (Ret l, s')) as X by (apply parse_num_chars; auto).
    subst l. cbn [app] in X |- *. rewrite json_parse_eq, K. unfold jmap. rewrite X. reflexivity.
  - intros r Hr rest _. exists rest. split; [|reflexivity]. apply delivers_one. now apply quoted_parse.
  - intros w Hw rest _. exists rest. split; [|reflexivity]. cbn [tokens flat_map app].
    eapply d_cons; [apply (parse_tok "["%char TArrB ((w ++ s_ "]") ++ rest)); reflexivity|].
    rewrite <- app_assoc. apply delivers_seps; [discriminate|now apply ws_sep|].
    apply delivers_one. reflexivity.
  - intros l s _ IH rest _. exists rest. split; [|reflexivity]. cbn [tokens].
    eapply d_cons; [apply (parse_tok "["%char TArrB ((s ++ s_ "]") ++ rest)); reflexivity|].
    rewrite <- app_assoc. apply IH.
  - intros w Hw rest _. exists rest. split; [|reflexivity]. cbn [tokens flat_map app].
    eapply d_cons; [apply (parse_tok "{"%char TObjB ((w ++ s_ "}") ++ rest)); reflexivity|].
    rewrite <- app_assoc. apply delivers_seps; [discriminate|now apply ws_sep|].
    apply delivers_one. reflexivity.
  - intros l s _ IH rest _. exists rest. split; [|reflexivity]. cbn [tokens].
    eapply d_cons; [apply (parse_tok "{"%char TObjB ((s ++ s_ "}") ++ rest)); reflexivity|].
    rewrite <- app_assoc. apply IH.
  - intros w1 w2 v s H1 H2 _ IH rest. cbn [flat_map]. rewrite app_nil_r.
    destruct (IH (w2 ++ s_ "]" ++ rest)) as (s' & D & B).
    { destruct v; cbn; auto. apply (ws_follow w2 "]"%char rest); auto; discriminate. }
    destruct (behind_sep v _ s' w2 B (ws_sep _ H2)) as (w' & -> & Hw'); [intros r' X; discriminate X|].
    rewrite <- !app_assoc. apply delivers_seps; [|now apply ws_sep|].
    { pose proof (tokens_nonempty v). destruct (tokens v); [congruence|discriminate]. }
    apply delivers_app. eexists; split; [exact D|]. apply delivers_seps; [discriminate|auto|].
    apply delivers_one. reflexivity.
  - intros w1 w2 v s l t H1 H2 _ IH _ IHl rest. cbn [flat_map].
    destruct (IH (w2 ++ s_ "," ++ t ++ s_ "]" ++ rest)) as (s' & D & B).
    { destruct v; cbn; auto. apply (ws_follow w2 ","%char (t ++ "]"%char :: rest)); auto; discriminate. }
    destruct (behind_sep v _ s' w2 B (ws_sep _ H2)) as (w' & -> & Hw'); [intros r' X; discriminate X|].
    rewrite <- !app_assoc. apply delivers_seps; [|now apply ws_sep|].
    { pose proof (tokens_nonempty v). destruct (tokens v); [congruence|discriminate]. }
    apply delivers_app. eexists; split; [exact D|].
    assert (flat_map tokens l ++ [TArrE] <> []) as NE by (destruct (flat_map tokens l); discriminate).
    apply delivers_seps; [exact NE|exact Hw'|]. apply (delivers_seps (s_ ",")); [exact NE|repeat constructor|].
    apply IHl.
  - intros w1 w2 w3 w4 k v s H1 H2 H3 H4 Hk _ IH rest. cbn [flat_map fst snd]. rewrite app_nil_r.
    destruct (IH (w4 ++ s_ "}" ++ rest)) as (s' & D & B).
    { destruct v; cbn; auto. apply (ws_follow w4 "}"%char rest); auto; discriminate. }
    destruct (behind_sep v _ s' w4 B (ws_sep _ H4)) as (w' & -> & Hw'); [intros r' X; discriminate X|].
    pose proof (quoted_parse k) as QP. set (q := c_dq :: k ++ [c_dq]) in *. clearbody q.
    rewrite <- !app_assoc. apply delivers_seps; [discriminate|now apply ws_sep|].
    cbn [app]. eapply d_cons; [apply QP; auto|].
    assert (tokens v ++ [TObjE] <> []) as NE by (destruct (tokens v); discriminate).
    apply delivers_seps; [auto|now apply ws_sep|]. apply (delivers_seps (s_ ":")); [auto|repeat constructor|].
    apply delivers_seps; [auto|now apply ws_sep|].
    apply delivers_app. eexists; split; [exact D|]. apply delivers_seps; [discriminate|auto|].
    apply delivers_one. reflexivity.
  - intros w1 w2 w3 w4 k v s m t H1 H2 H3 H4 Hk _ IH _ IHm rest. cbn [flat_map fst snd].
    destruct (IH (w4 ++ s_ "," ++ t ++ s_ "}" ++ rest)) as (s' & D & B).
    { destruct v; cbn; auto. apply (ws_follow w4 ","%char (t ++ "}"%char :: rest)); auto; discriminate. }
    destruct (behind_sep v _ s' w4 B (ws_sep _ H4)) as (w' & -> & Hw'); [intros r' X; discriminate X|].
    pose proof (quoted_parse k) as QP. set (q := c_dq :: k ++ [c_dq]) in *. clearbody q.
    rewrite <- !app_assoc. apply delivers_seps; [discriminate|now apply ws_sep|].
    cbn [app]. eapply d_cons; [apply QP; auto|].
    match goal with |- delivers ?l _ _ => assert (l <> []) as NE by (pose proof (tokens_nonempty v); destruct (tokens v); [congruence|discriminate]) end.
    apply delivers_seps; [auto|now apply ws_sep|]. apply (delivers_seps (s_ ":")); [auto|repeat constructor|].
    apply delivers_seps; [auto|now apply ws_sep|].
    apply delivers_app. eexists; split; [exact D|].
    match goal with |- delivers ?l _ _ => assert (l <> []) as NE2 by (destruct (flat_map (fun p : str * json => TStr (fst p) :: tokens (snd p)) m); discriminate) end.
    apply delivers_seps; [exact NE2|exact Hw'|]. apply (delivers_seps (s_ ",")); [exact NE2|repeat constructor|]. apply IHm.
Qed.

(** whole documents *)
Lemma document_delivers v s w1 w2 : ws w1 -> ws w2 -> value_text v s ->
  (forall l, v = JNum l -> exists w3 c w4, w2 = w3 ++ c :: w4 /\ Forall (eq c_sp) w3 /\ c <> c_sp) ->
  exists s', delivers (tokens v) (w1 ++ s ++ w2) s' /\ ws s'.
Proof.
  intros H1 H2 Hv Hn. destruct (value_delivers v s Hv w2) as (s' & D & B).
  { destruct v; cbn; auto. destruct (Hn _ eq_refl) as (w3 & c & w4 & -> & Hw3 & Hc).
    exists w3, c, w4. repeat split; auto; apply Forall_app in H2 as [_ H2]; inversion H2; subst;
      revert H3 Hc; ascii_cases c; cbn; congruence. }
  exists s'. split.
  - apply delivers_seps; auto using tokens_nonempty, ws_sep.
  - destruct v; cbn in B; try (subst; auto; fail). destruct B as (sp & -> & _). apply Forall_app in H2; tauto.
Qed.

(** a number at the end of the input *)
Lemma number_eof l sp : number_lexeme l -> Forall (eq c_sp) sp -> fst (json_parse (l ++ sp)) = Err.
Proof.
  intros Hl Hsp. destruct (lexeme_chars l Hl) as (Hc & c & r & E & K).
  assert (fst (parse_num (l ++ sp)) = Err) as X.
  { clear E K Hl. induction Hc as [|x l' Hx Hc IH]; cbn [app].
    - clear -Hsp. induction Hsp; [reflexivity|]. subst. exact IHHsp.
    - cbn [parse_num]. rewrite Hx. destruct (parse_num (l' ++ sp)) as [o t].
      cbn in IH. subst o. reflexivity. }
  subst l. cbn [app] in *. rewrite json_parse_eq, K. unfold jmap, jbind.
  destruct (parse_num (c :: r ++ sp)) as [o t]. cbn in X. subst o. reflexivity.
Qed.

(** escapes are not resolved *)
Lemma resolved_raw r v : resolved r v -> In c_bs r -> r <> v.
Proof.
  intros H. assert (length v <= length r /\ (In c_bs r -> length v < length r)) as [_ X].
  { induction H; cbn; split; try lia; try tauto.
    - intros [->|Hi]; [congruence|]. destruct IHresolved as [_ IH]. specialize (IH Hi). lia. }
  intros Hi E. subst. specialize (X Hi). lia.
Qed.

(** termination *)
Lemma parse_str_diverge s : fst (parse_str s) = Diverge <-> unclosed s.
Proof.
  remember (length s) as n eqn:E. assert (length s <= n) as L by lia. clear E. revert s L.
  induction n as [|n IH]; intros s L.
  { destruct s; [|cbn in L; lia]. split; constructor. }
  destruct s as [|c s]; [split; constructor|]. cbn [parse_str]. cbn in L.
  destruct (Ascii.eqb_spec c c_bs) as [->|Hb].
  - destruct s as [|d s]; [split; constructor|]. cbn in L. split.
    + intro H. apply uc_esc. apply IH; [lia|]. destruct (parse_str s) as [[] t]; cbn in *; auto; discriminate.
    + intro H. inversion H; subst; try congruence. apply IH in H1; [|lia].
      destruct (parse_str s) as [[] t]; cbn in *; auto; discriminate.
  - destruct (Ascii.eqb_spec c c_dq) as [->|Hq].
    { split; [discriminate|]. intro H; inversion H; subst; congruence. }
    destruct (Ascii.eqb_spec c "000"%char) as [->|Hz].
    { split; [discriminate|]. intro H; inversion H; subst; congruence. }
    split.
    + intro H. apply uc_plain; auto. apply IH; [lia|]. destruct (parse_str s) as [[] t]; cbn in *; auto; discriminate.
    + intro H. inversion H; subst; try congruence. apply IH in H5; [|lia].
      destruct (parse_str s) as [[] t]; cbn in *; auto; discriminate.
Qed.

Lemma parse_num_total s : (exists v r, parse_num s = (Ret v, r)) \/ fst (parse_num s) = Err.
Proof.
  induction s as [|c s IH]; [auto|]. cbn [parse_num]. destruct (num_char c).
  - destruct IH as [(v & r & ->)|H]; [left; eauto|right]. destruct (parse_num s) as [o t]. cbn in H. subst. reflexivity.
  - destruct (Ascii.eqb c c_sp); auto. destruct (Ascii.eqb c "000"%char); eauto.
Qed.

Lemma parse_str_total s : (exists v r, parse_str s = (Ret v, r)) \/ fst (parse_str s) = Err \/ fst (parse_str s) = Diverge.
Proof.
  remember (length s) as n eqn:E. assert (length s <= n) as L by lia. clear E. revert s L.
  induction n as [|n IH]; intros s L.
  { destruct s; [|cbn in L; lia]. auto. }
  destruct s as [|c s]; [auto|]. cbn [parse_str]. cbn in L.
  destruct (Ascii.eqb c c_bs).
  - destruct s as [|d s]; [auto|]. cbn in L. destruct (IH s) as [(v & r & ->)|H]; [lia|left; eauto|right].
    destruct (parse_str s) as [o t]. cbn in H. destruct H; subst; cbn; auto.
  - destruct (Ascii.eqb c c_dq); [left; eauto|]. destruct (Ascii.eqb c "000"%char); [auto|].
    destruct (IH s) as [(v & r & ->)|H]; [lia|left; eauto|right].
    destruct (parse_str s) as [o t]. cbn in H. destruct H; subst; cbn; auto.
Qed.

Definition gap (w : str) : Prop := Forall (fun c => is_ws c = true \/ c = ","%char \/ c = ":"%char) w.
Lemma sep_gap c : sep c <-> (is_ws c = true \/ c = ","%char \/ c = ":"%char).
Proof.
  split.
  - unfold sep. ascii_cases c; cbn; intro H; try discriminate; tauto.
  - intros [H|[->| ->]]; [|reflexivity|reflexivity]. revert H. unfold sep. ascii_cases c; cbn; congruence.
Qed.

Lemma json_parse_diverge s : fst (json_parse s) = Diverge <->
  exists w b, s = w ++ c_dq :: b /\ gap w /\ unclosed b.
Proof.
  split.
  - induction s as [|c s IH]; [discriminate|]. rewrite json_parse_eq. destruct (jclassify c) eqn:K; try discriminate.
    + intro H. destruct (IH H) as (w & b & -> & Hw & Hb). exists (c :: w), b. split; [reflexivity|]. split; auto.
      constructor; auto. now apply sep_gap.
    + destruct (parse_num_total (c :: s)) as [(v & r & E)|E]; unfold jmap, jbind.
      * rewrite E. discriminate.
      * destruct (parse_num (c :: s)) as [o t]; cbn in E; subst. discriminate.
    + intro H. exists [], s. assert (c = c_dq) as -> by (revert K; ascii_cases c; cbn; intro K; try discriminate K; reflexivity).
      repeat split; [constructor|]. apply parse_str_diverge. unfold jmap, jbind in H.
      destruct (parse_str s) as [[] t]; cbn in *; auto; discriminate.
    + unfold parse_lit. destruct (str_eqb _ l); discriminate.
  - intros (w & b & -> & Hw & Hb). rewrite parse_seps.
    + rewrite json_parse_eq. cbn [jclassify]. apply parse_str_diverge in Hb. unfold jmap, jbind.
      destruct (parse_str b) as [o t]. cbn in Hb. subst. reflexivity.
    + revert Hw. apply Forall_impl. intros a Ha. now apply sep_gap.
Qed.

Lemma json_parse_total s : (exists t r, json_parse s = (Ret t, r) /\ length r < length s) \/
  fst (json_parse s) = Err \/ fst (json_parse s) = Diverge.
Proof.
  induction s as [|c s IH]; [auto|]. 
  destruct (json_parse (c :: s)) as [o r] eqn:E. destruct o.
  - left. pose proof (json_parse_len _ _ _ E). eauto.
  - auto.
  - exfalso. rewrite json_parse_eq in E. destruct (jclassify c); try discriminate.
    + rewrite E in IH. destruct IH as [(t & r' & X & _)|[X|X]]; discriminate X.
    + unfold jmap, jbind in E. destruct (parse_num_total (c :: s)) as [(v & r' & X)|X].
      * rewrite X in E; discriminate.
      * destruct (parse_num (c :: s)) as [o t]; cbn in X; subst; discriminate.
    + unfold jmap, jbind in E. destruct (parse_str_total s) as [(v & r' & X)|[X|X]].
      * rewrite X in E; discriminate.
      * destruct (parse_str s) as [o t]; cbn in X; subst; discriminate.
      * destruct (parse_str s) as [o t]; cbn in X; subst; discriminate.
    + unfold parse_lit in E. destruct (str_eqb _ l); discriminate.
  - exfalso. rewrite json_parse_eq in E. destruct (jclassify c); try discriminate.
    + rewrite E in IH. destruct IH as [(t & r' & X & _)|[X|X]]; discriminate X.
    + unfold jmap, jbind in E. destruct (parse_num_total (c :: s)) as [(v & r' & X)|X].
      * rewrite X in E; discriminate.
      * destruct (parse_num (c :: s)) as [o t]; cbn in X; subst; discriminate.
    + unfold jmap, jbind in E. destruct (parse_str_total s) as [(v & r' & X)|[X|X]].
      * rewrite X in E; discriminate.
      * destruct (parse_str s) as [o t]; cbn in X; subst; discriminate.
      * destruct (parse_str s) as [o t]; cbn in X; subst; discriminate.
    + unfold parse_lit in E. destruct (str_eqb _ l); discriminate.
  - auto.
Qed.
