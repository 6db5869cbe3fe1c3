(** Where the parser stops, and what could have stood there. *)
From Verif Require Import Base Sexpr_Model Plist_Model Plist_Spec Plist_Proofs PlistSay_Model PlistSay_Spec PlistSay_Proofs.
From Coq Require Import Lia.

Definition wordy (t : ptok) : Prop := match t with PString _ => True | _ => False end.
Definition same_kind (u : str) (t : ptok) : Prop :=
  forall X, exists t' r', get_token (u ++ X) = Some (t', r') /\ kind_of t' = kind_of t.
Inductive lexeme (u : str) (t : ptok) (r : str) : Prop :=
| lex_closed : (forall X, (wordy t -> stopped X) -> get_token (u ++ X) = Some (t, X)) -> (wordy t -> stopped r) -> lexeme u t r
| lex_open v cl : r = [] -> t = PQuoted v -> (forall X, exists v', get_token (u ++ cl ++ X) = Some (PQuoted v', X)) -> lexeme u t r.

(** white space in front changes nothing *)
Lemma lexeme_ws c u t r : pws c = true -> lexeme u t r -> lexeme (c :: u) t r.
Proof.
  intros W [H1 H2|v cl H1 H2 H3].
  - apply lex_closed; [|exact H2]. intros X S. cbn [app]. rewrite get_token_ws by exact W. now apply H1.
  - apply (lex_open _ _ _ v cl H1 H2). intro X. cbn [app]. rewrite get_token_ws by exact W. apply H3.
Qed.
Lemma spells_ws c u t : pws c = true -> spells u t -> spells (c :: u) t.
Proof.
  intros W H. apply space_pws in W. destruct H; rewrite app_comm_cons; constructor; try assumption; constructor; assumption.
Qed.
Lemma same_kind_ws c u t : pws c = true -> same_kind u t -> same_kind (c :: u) t.
Proof. intros W H X. cbn [app]. rewrite get_token_ws by exact W. apply H. Qed.

Lemma not_stop c : word_stop c = false -> ~ space c /\ ~ special c.
Proof.
  intro H. split.
  - intro S. apply space_stop in S. congruence.
  - unfold special. cbn [In s_ list_ascii_of_string app]. intro I. repeat destruct I as [I|I]; try contradiction; subst c; discriminate H.
Qed.
Lemma read_word_stops s w r : read_word s = (w, r) -> stopped r.
Proof.
  revert w r; induction s as [|c s IH]; intros w r; cbn.
  - intro E; injection E; intros; subst. exact I.
  - destruct (word_stop c) eqn:S; [intro E; injection E; intros; subst; exact S|].
    destruct (read_word s) as [w' r'] eqn:R. intro E; injection E; intros; subst. now apply (IH w').
Qed.

(** a quoted string, closed or not *)
Lemma eqb_false a b : a <> b -> Ascii.eqb a b = false.
Proof. destruct (Ascii.eqb_spec a b); [congruence|reflexivity]. Qed.
Lemma quoted_parts q s : q = c_dq \/ q = c_sq -> forall e v r, read_quoted q e s = (v, r) ->
  (exists b v0, s = b ++ q :: r /\ quoted_body q (if e then c_bs :: b else b) v /\ v0 = v) \/
  (r = [] /\ exists b e', s = b ++ e' /\ (e' = [] \/ e' = [c_bs]) /\
     ((quoted_body q (if e then c_bs :: b else b) v) \/ (e = true /\ b = [] /\ e' = [] /\ v = []))).
Proof.
  intro Hq. induction s as [|c s IH]; intros e v r E; cbn [read_quoted] in E.
  - injection E; intros; subst. right. split; [reflexivity|]. exists [], []. split; [reflexivity|]. split; [now left|].
    destruct e; [right; auto|left; constructor].
  - assert (forall v', read_quoted q false s = (v', r) -> v = c :: v' -> (e = true \/ (c <> q /\ c <> c_bs)) ->
      (exists b v0, c :: s = b ++ q :: r /\ quoted_body q (if e then c_bs :: b else b) v /\ v0 = v) \/
      (r = [] /\ exists b e', c :: s = b ++ e' /\ (e' = [] \/ e' = [c_bs]) /\
       ((quoted_body q (if e then c_bs :: b else b) v) \/ (e = true /\ b = [] /\ e' = [] /\ v = [])))) as K.
    { intros v' R -> Hc. destruct (IH _ _ _ R) as [(b & v0 & -> & Q & ->)|(-> & b & e' & -> & He & Q)].
      - left. exists (c :: b), (c :: v'). split; [reflexivity|]. split; [|reflexivity]. destruct e; [now constructor|].
        destruct Hc as [Hc|[H1 H2]]; [discriminate|]. now constructor.
      - right. split; [reflexivity|]. exists (c :: b), e'. split; [reflexivity|]. split; [exact He|]. left.
        destruct Q as [Q|(Q & _)]; [|discriminate]. destruct e; [now constructor|].
        destruct Hc as [Hc|[H1 H2]]; [discriminate|]. now constructor. }
    assert (Ascii.eqb c_dq c_bs = false /\ Ascii.eqb c_sq c_bs = false) as [B1 B2] by (split; reflexivity).
    destruct (Ascii.eqb c c_dq || Ascii.eqb c c_sq) eqn:Eq.
    + destruct (e || negb (Ascii.eqb q c)) eqn:Ee.
      * destruct (read_quoted q false s) as [v' r'] eqn:R. injection E; intros; subst. apply (K v'); auto.
        destruct e; [now left|]. right. cbn [orb] in Ee. split.
        -- intros ->. rewrite Ascii.eqb_refl in Ee. discriminate.
        -- intros ->. discriminate Eq.
      * injection E; intros; subst. destruct e; [discriminate|]. cbn [orb] in Ee. destruct (Ascii.eqb_spec q c); [subst c|discriminate].
        left. exists [], []. split; [reflexivity|]. split; [constructor|reflexivity].
    + destruct (Ascii.eqb_spec c c_bs) as [->|Nb].
      * destruct e.
        -- destruct (read_quoted q false s) as [v' r'] eqn:R. injection E; intros; subst. apply (K v'); auto.
        -- destruct (IH _ _ _ E) as [(b & v0 & -> & Q & ->)|(-> & b & e' & -> & He & Q)].
           ++ left. exists (c_bs :: b), v. split; [reflexivity|]. split; [exact Q|reflexivity].
           ++ right. split; [reflexivity|]. destruct Q as [Q|(_ & -> & -> & ->)].
              ** exists (c_bs :: b), e'. split; [reflexivity|]. split; [exact He|]. now left.
              ** exists [], [c_bs]. split; [reflexivity|]. split; [now right|]. left. constructor.
      * destruct (read_quoted q false s) as [v' r'] eqn:R. injection E; intros; subst. apply (K v'); auto.
        right. split; [|exact Nb]. intros ->. destruct Hq as [-> | ->]; discriminate Eq.
Qed.
Lemma body_app q a v b w : quoted_body q a v -> quoted_body q b w -> quoted_body q (a ++ b) (v ++ w).
Proof. induction 1; intro H2; cbn [app]; [exact H2|constructor; auto|constructor; auto]. Qed.
Lemma body_closed q b v e : q = c_dq \/ q = c_sq -> quoted_body q b v -> e = [] \/ e = [c_bs] ->
  exists cl v', forall X, read_quoted q false ((b ++ e) ++ cl ++ X) = (v', X).
Proof.
  intros Hq Q [-> | ->].
  - exists [q], v. intro X. rewrite app_nil_r. cbn [app]. now apply read_quoted_ok.
  - exists [q; q], (v ++ [q]). intro X. replace ((b ++ [c_bs]) ++ [q; q] ++ X) with ((b ++ [c_bs; q]) ++ q :: X) by (rewrite <- !app_assoc; reflexivity).
    apply read_quoted_ok; [exact Hq|]. apply body_app; [exact Q|]. constructor. constructor.
Qed.
Lemma gt_q q r : q = c_dq \/ q = c_sq -> get_token (q :: r) = let '(v, rest) := read_quoted q false r in Some (PQuoted v, rest).
Proof. intros [-> | ->]; [apply gt_dq|apply gt_sq]. Qed.

Lemma token_local s t r : get_token s = Some (t, r) ->
  exists u, s = u ++ r /\ u <> [] /\ spells u t /\ same_kind u t /\ lexeme u t r.
Proof.
  induction s as [|c s IH]; [discriminate|]. intro G. destruct (pws c) eqn:W.
  { rewrite get_token_ws in G by exact W. destruct (IH G) as (u & -> & NE & Sp & Sk & Lx). exists (c :: u).
    split; [reflexivity|]. split; [discriminate|]. split; [now apply spells_ws|]. split; [now apply same_kind_ws|now apply lexeme_ws]. }
  clear IH. destruct (word_stop c) eqn:S.
  - assert (forall q, q = c_dq \/ q = c_sq -> c = q -> exists u, c :: s = u ++ r /\ u <> [] /\ spells u t /\ same_kind u t /\ lexeme u t r) as KQ.
    { intros q Hq ->. rewrite gt_q in G by exact Hq. destruct (read_quoted q false s) as [v r'] eqn:R. injection G as <- <-.
      assert (forall v' Y, same_kind (q :: Y) (PQuoted v')) as SK.
      { intros v' Y X. cbn [app]. rewrite gt_q by exact Hq. destruct (read_quoted q false (Y ++ X)) as [v1 r1]. exists (PQuoted v1), r1. auto. }
      destruct (quoted_parts q s Hq _ _ _ R) as [(b & v0 & -> & Q & ->)|(-> & b & e' & -> & He & Q)].
      - exists (q :: b ++ [q]). assert (quoted (q :: b ++ [q]) v) as Qd by (constructor; [exact Hq|exact Q]).
        split; [now rewrite <- app_comm_cons, <- app_assoc|]. split; [discriminate|].
        split; [apply (spells_quoted []); [constructor|exact Qd]|]. split; [apply SK|].
        apply lex_closed; [|intros []]. intros X _. now apply gt_quoted.
      - destruct Q as [Q|(Q & _)]; [|discriminate]. exists (q :: b ++ e'). split; [now rewrite app_nil_r|]. split; [discriminate|].
        split; [apply (spells_open []); [constructor|exact Hq|exact Q|exact He]|]. split; [apply SK|].
        destruct (body_closed q b v e' Hq Q He) as (cl & v' & Hcl). apply (lex_open _ _ _ v cl eq_refl eq_refl).
        intro X. exists v'. cbn [app]. rewrite gt_q by exact Hq. now rewrite Hcl. }
    assert (forall t', (forall X, get_token (c :: X) = Some (t', X)) ->
       In (c, t') [(",", PComma); (":", PColon); (";", PSemi); ("(", PLParen); (")", PRParen); ("{", PLBrace); ("}", PRBrace)]%char ->
       ~ wordy t' -> exists u, c :: s = u ++ r /\ u <> [] /\ spells u t /\ same_kind u t /\ lexeme u t r) as K.
    { intros t' E I N. rewrite E in G. injection G as -> ->. exists [c]. split; [reflexivity|]. split; [discriminate|].
      split; [apply (spells_sign []); [constructor|exact I]|]. split; [intro X; exists t, X; split; [apply E|reflexivity]|].
      apply lex_closed; [intros X _; apply E|contradiction]. }
    destruct (Ascii.eqb_spec c c_dq) as [Ed|Nd]; [apply (KQ c_dq); auto|].
    destruct (Ascii.eqb_spec c c_sq) as [Es|Ns]; [apply (KQ c_sq); auto|].
    destruct (Ascii.eqb_spec c ","%char) as [->|N1]; [apply (K PComma); [reflexivity|cbn; tauto|intros []]|].
    destruct (Ascii.eqb_spec c ":"%char) as [->|N2]; [apply (K PColon); [reflexivity|cbn; tauto|intros []]|].
    destruct (Ascii.eqb_spec c ";"%char) as [->|N3]; [apply (K PSemi); [reflexivity|cbn; tauto|intros []]|].
    destruct (Ascii.eqb_spec c "("%char) as [->|N4]; [apply (K PLParen); [reflexivity|cbn; tauto|intros []]|].
    destruct (Ascii.eqb_spec c ")"%char) as [->|N5]; [apply (K PRParen); [reflexivity|cbn; tauto|intros []]|].
    destruct (Ascii.eqb_spec c "{"%char) as [->|N6]; [apply (K PLBrace); [reflexivity|cbn; tauto|intros []]|].
    destruct (Ascii.eqb_spec c "}"%char) as [->|N7]; [apply (K PRBrace); [reflexivity|cbn; tauto|intros []]|].
    exfalso. clear K KQ G. ascii_cases c; try discriminate S; try discriminate W;
      first [now destruct Nd|now destruct Ns|now destruct N1|now destruct N2|now destruct N3|now destruct N4|now destruct N5|now destruct N6|now destruct N7].
  - rewrite gt_plain in G by exact S. destruct (read_word (c :: s)) as [w r'] eqn:R. injection G as <- <-.
    destruct (read_word_prefix _ _ _ R) as (E & F). pose proof (read_word_stops _ _ _ R) as St.
    assert (exists w0, w = c :: w0) as (w0 & ->).
    { cbn in R. rewrite S in R. destruct (read_word s). injection R; intros; subst. eauto. }
    assert (word (c :: w0)) as Wd. { split; [discriminate|]. eapply Forall_impl; [|exact F]. intros a. apply not_stop. }
    exists (c :: w0). split; [exact E|]. split; [discriminate|]. split; [apply (spells_word []); [constructor|exact Wd]|]. split.
    + intro X. cbn [app]. rewrite gt_plain by exact S. destruct (read_word (c :: w0 ++ X)) as [w1 r1]. exists (PString w1), r1. auto.
    + apply lex_closed; [|intros _; exact St]. intros X SX. apply gt_word; [exact Wd|]. apply SX. exact I.
Qed.
Lemma none_blank s : get_token s = None -> blank s.
Proof.
  induction s as [|c s IH]; [constructor|]. destruct (pws c) eqn:W.
  - rewrite get_token_ws by exact W. intro G. constructor; [now apply space_pws|now apply IH].
  - intro H. exfalso. revert H. unfold get_token. cbn [skip_ws]. rewrite W.
    destruct (read_word (c :: s)) as [w r']. destruct (read_quoted c false s) as [v r]. ascii_cases c; discriminate.
Qed.

Lemma verdict_gt x m s s' : get_token s = get_token s' -> verdict x m s = verdict x m s'.
Proof.
  intro E. destruct (get_token s') as [[t r]|] eqn:G.
  - now rewrite (verdict_token _ _ _ _ _ E), (verdict_token _ _ _ _ _ G).
  - now rewrite !verdict_end.
Qed.
Lemma step_quoted x m v v' y : step x m (PQuoted v) = inl y -> step x m (PQuoted v') = inl y.
Proof. destruct x as [[|d]|d|d p w]; cbn [step]; congruence. Qed.
Lemma step_kind x m t t' e : kind_of t = kind_of t' -> step x m t = inr e -> exists e', step x m t' = inr e'.
Proof.
  destruct t, t'; intro K; try discriminate K; (destruct x as [[|d]|d|d p w]; cbn [step]; intro H; try discriminate H; eauto);
  destruct p, w; try discriminate H; eauto.
Qed.
Definition kept (m : str) : Prop := m = [] \/ m = open_paren.
Lemma step_kept x m t y m' : kept m -> step x m t = inl (y, m') -> kept m'.
Proof.
  intros K H. destruct x as [[|d]|d|d p w], t; cbn [step] in H; try discriminate H; try (injection H as <- <-; exact K);
  destruct p; try discriminate H; try (injection H as <- <-; exact K); try (injection H as <- <-; now right);
  destruct w; try discriminate H; injection H as <- <-; exact K.
Qed.
Lemma stopped_front a b c : a <> [] -> stopped (a ++ b) -> stopped (a ++ c).
Proof. destruct a; [congruence|auto]. Qed.

Definition stops_at (x : st) (m s e : str) : Prop :=
  exists pre tok after t y m1, s = pre ++ tok ++ after /\ tok <> [] /\ spells tok t /\ step y m1 t = inr e /\ kept m1 /\
    (forall X, stopped X -> verdict x m (pre ++ X) = verdict y m1 X) /\
    (forall X, exists e', verdict x m (pre ++ tok ++ X) = Some e').
Definition runs_out (x : st) (m s e : str) : Prop :=
  exists y m1 cl, finish y m1 = Some e /\ kept m1 /\ (s = [] -> cl = []) /\
    (forall X, stopped X -> verdict x m (s ++ cl ++ X) = verdict y m1 X).
Lemma fails n : forall x m s e, length s <= n -> kept m -> verdict x m s = Some e -> stops_at x m s e \/ runs_out x m s e.
Proof.
  induction n as [n IH] using (well_founded_induction Wf_nat.lt_wf). intros x m s e L K V.
  destruct (get_token s) as [[t r]|] eqn:G.
  2:{ right. rewrite verdict_end in V by exact G. exists x, m, []. split; [exact V|]. split; [exact K|]. split; [reflexivity|].
      intros X _. apply verdict_gt. cbn [app]. apply gt_blank. now apply none_blank. }
  destruct (token_local _ _ _ G) as (u & -> & NE & Sp & Sk & Lx). pose proof (token_len _ _ _ G) as Lr.
  rewrite (verdict_token _ _ _ _ _ G) in V. destruct (step x m t) as [[x1 m1]|e0] eqn:St.
  2:{ injection V as ->. left. exists [], u, r, t, x, m. split; [reflexivity|]. split; [exact NE|]. split; [exact Sp|]. split; [exact St|].
      split; [exact K|]. split; [reflexivity|]. intro X. cbn [app]. destruct (Sk X) as (t' & r' & G' & Kt).
      rewrite (verdict_token _ _ _ _ _ G'). destruct (step_kind x m t t' e (eq_sym Kt) St) as (e' & ->). eauto. }
  pose proof (step_kept _ _ _ _ _ K St) as K1.
  destruct Lx as [H1 H2|v cl -> -> H3].
  - assert (forall X, (wordy t -> stopped X) -> verdict x m (u ++ X) = verdict x1 m1 X) as Go.
    { intros X SX. rewrite (verdict_token _ _ _ _ _ (H1 X SX)). now rewrite St. }
    destruct (IH (length r) ltac:(lia) x1 m1 r e (le_n _) K1 V) as [(pre & tok & after & t' & y & m2 & E & NE' & Sp' & St' & K2 & R1 & R2)
       |(y & m2 & cl & F & K2 & Z & R)].
    + left. exists (u ++ pre), tok, after, t', y, m2. split; [rewrite E, app_assoc; reflexivity|]. split; [exact NE'|]. split; [exact Sp'|].
      split; [exact St'|]. split; [exact K2|]. split.
      * intros X SX. rewrite <- app_assoc, Go; [now apply R1|]. intro Wt. destruct pre as [|a pre]; [exact SX|].
        specialize (H2 Wt). rewrite E in H2. exact H2.
      * intro X. rewrite <- app_assoc, Go; [apply R2|]. intro Wt. specialize (H2 Wt). rewrite E in H2. rewrite app_assoc in *.
        apply (stopped_front _ after); [|exact H2]. destruct pre; [exact NE'|discriminate].
    + right. exists y, m2, cl. split; [exact F|]. split; [exact K2|]. split; [intro Q; destruct u; [congruence|discriminate]|].
      intros X SX. rewrite <- app_assoc, Go; [now apply R|]. intro Wt. specialize (H2 Wt). destruct r as [|a r]; [|exact H2].
      rewrite (Z eq_refl). exact SX.
  - right. exists x1, m1, cl. rewrite verdict_end in V by reflexivity. split; [exact V|]. split; [exact K1|].
    split; [intro Q; destruct u; [congruence|discriminate]|]. intros X _. rewrite app_nil_r. destruct (H3 X) as (v' & G').
    rewrite (verdict_token _ _ _ _ _ G'). now rewrite (step_quoted _ _ _ v' _ St).
Qed.

(** every state can be led to an end *)
Lemma close_braces d m : verdict (Item d) m (repeat "}"%char d) = None.
Proof.
  induction d as [|d IH]; [reflexivity|]. cbn [repeat].
  assert (get_token ("}"%char :: repeat "}"%char d) = Some (PRBrace, repeat "}"%char d)) as G by reflexivity.
  rewrite (verdict_token _ _ _ _ _ G). exact IH.
Qed.
Lemma sign_token c t X : In (c, t) [(",", PComma); (":", PColon); (";", PSemi); ("(", PLParen); (")", PRParen); ("{", PLBrace); ("}", PRBrace)]%char ->
  get_token (c :: X) = Some (t, X).
Proof. cbn. intros H. repeat destruct H as [H|H]; try contradiction; injection H as <- <-; reflexivity. Qed.
Lemma endable y m : exists X, stopped X /\ verdict y m X = None.
Proof.
  destruct y as [d|d|d p w].
  - exists (repeat "}"%char d). split; [destruct d; reflexivity|apply close_braces].
  - exists (":"%char :: ";"%char :: repeat "}"%char d). split; [reflexivity|].
    rewrite (verdict_token _ _ _ _ _ (sign_token ":"%char PColon _ ltac:(cbn; tauto))). cbn [step].
    rewrite (verdict_token _ _ _ _ _ (sign_token ";"%char PSemi _ ltac:(cbn; tauto))). cbn [step]. apply close_braces.
  - exists (";"%char :: repeat "}"%char d). split; [reflexivity|].
    rewrite (verdict_token _ _ _ _ _ (sign_token ";"%char PSemi _ ltac:(cbn; tauto))). cbn [step]. apply close_braces.
Qed.
Lemma shown_print t : shown t (print_token t).
Proof.
  unfold print_token. destruct t as [w|w| | | | | | |]; cbn [token_buf kind_name]; try (rewrite app_nil_r);
  try (apply (shown_kind PComma); discriminate); try (apply (shown_kind PColon); discriminate); try (apply (shown_kind PSemi); discriminate);
  try (apply (shown_kind PLParen); discriminate); try (apply (shown_kind PRParen); discriminate); try (apply (shown_kind PLBrace); discriminate);
  try (apply (shown_kind PRBrace); discriminate).
  all: destruct w as [|c w]; [rewrite app_nil_r; apply shown_empty; auto|].
  all: change (s_ "STRING" ++ s_ "<" ++ (c :: w) ++ s_ ">") with (s_ "STRING<" ++ (c :: w) ++ s_ ">"); apply shown_text; [auto|discriminate].
Qed.
Lemma spelled_stop k X : stopped (spelled k ++ X).
Proof. destruct k; reflexivity. Qed.
Lemma named y m t e : step y m t = inr e -> exists ks, ks <> [] /\ complaint t ks e /\
  forall k, In k ks -> exists X, verdict y m (spelled k ++ X) = None.
Proof.
  intro St.
  assert (forall k y' m', (forall X, verdict y m (spelled k ++ X) = verdict y' m' X) -> exists X, verdict y m (spelled k ++ X) = None) as Go.
  { intros k y' m' H. destruct (endable y' m') as (X & _ & V). exists X. now rewrite H. }
  assert (forall d, y = Item d -> e = wants "STRING" t -> exists ks, ks <> [] /\ complaint t ks e /\
    forall k, In k ks -> exists X, verdict y m (spelled k ++ X) = None) as KI.
  { intros d -> ->. exists [KString]. split; [discriminate|]. split; [apply (complaint_one t KString); apply shown_print|].
    intros k [<-|[]]. apply (Go KString (Name d) m). intro X. cbn [spelled].
    assert (get_token (s_ " x " ++ X) = Some (PString (s_ "x"), s_ " " ++ X)) as G by reflexivity.
    rewrite (verdict_token _ _ _ _ _ G). cbn [step]. apply verdict_gt. reflexivity. }
  assert (forall d, y = Name d -> e = wants_colon t -> exists ks, ks <> [] /\ complaint t ks e /\
    forall k, In k ks -> exists X, verdict y m (spelled k ++ X) = None) as KN.
  { intros d -> ->. exists [KColon; KLBrace]. split; [discriminate|]. split; [apply (complaint_two t KColon KLBrace); apply shown_print|].
    intros k [<-|[<-|[]]].
    - apply (Go KColon (Vals d 0 false) m). intro X. cbn [spelled].
      now rewrite (verdict_token _ _ _ _ _ (sign_token ":"%char PColon X ltac:(cbn; tauto))).
    - apply (Go KLBrace (Item (S d)) m). intro X. cbn [spelled].
      now rewrite (verdict_token _ _ _ _ _ (sign_token "{"%char PLBrace X ltac:(cbn; tauto))). }
  assert (forall d p w, y = Vals d p w -> exists X, verdict y m (spelled KSemicolon ++ X) = None) as KS.
  { intros d p w ->. eapply (Go KSemicolon (Item d)). intro X. cbn [spelled].
    rewrite (verdict_token _ _ _ _ _ (sign_token ";"%char PSemi X ltac:(cbn; tauto))). cbn [step]. reflexivity. }
  assert (forall d p w, y = Vals d p w -> e = wants_semicolon t -> exists ks, ks <> [] /\ complaint t ks e /\
    forall k, In k ks -> exists X, verdict y m (spelled k ++ X) = None) as KV.
  { intros d p w Ey ->. exists [KSemicolon; KComma]. split; [discriminate|]. split; [apply (complaint_two t KSemicolon KComma); apply shown_print|].
    intros k [<-|[<-|[]]]; [now apply (KS d p w)|]. subst y. apply (Go KComma (Vals d p false) m). intro X. cbn [spelled].
    now rewrite (verdict_token _ _ _ _ _ (sign_token ","%char PComma X ltac:(cbn; tauto))). }
  destruct y as [d|d|d p w].
  - apply (KI d eq_refl). destruct t, d; cbn [step] in St; congruence.
  - apply (KN d eq_refl). destruct t; cbn [step] in St; congruence.
  - destruct t; cbn [step] in St; try discriminate St; try (apply (KV d p w eq_refl); congruence).
    + destruct w; [discriminate St|]. apply (KV d p false eq_refl). congruence.
    + destruct p; [|discriminate St]. injection St as <-. exists [KSemicolon]. split; [discriminate|].
      split; [apply (complaint_one PRParen KSemicolon); apply (shown_print PRParen)|]. intros k [<-|[]]. now apply (KS d 0 w).
Qed.

(** one block deeper *)
Definition deeper (x : st) : st :=
  match x with Item d => Item (S d) | Name d => Name (S d) | Vals d p w => Vals (S d) p w end.
Lemma step_deeper x m0 m t y m1 : step x m0 t = inl (y, m1) -> exists m2, step (deeper x) m t = inl (deeper y, m2).
Proof.
  destruct x as [[|d]|d|d p w], t; cbn [step deeper]; intro H; try discriminate H; try (injection H as <- <-; eexists; reflexivity);
  destruct p; try discriminate H; try (injection H as <- <-; eexists; reflexivity);
  destruct w; try discriminate H; injection H as <- <-; eexists; reflexivity.
Qed.
Lemma verdict_deeper n : forall x m0 m s, length s <= n -> kept m -> verdict x m0 s = None ->
  exists e, verdict (deeper x) m s = Some e /\ kept e.
Proof.
  induction n as [n IH] using (well_founded_induction Wf_nat.lt_wf). intros x m0 m s L K V.
  destruct (get_token s) as [[t r]|] eqn:G.
  - pose proof (token_len _ _ _ G) as Lr. rewrite (verdict_token _ _ _ _ _ G) in V. rewrite (verdict_token _ _ _ _ _ G).
    destruct (step x m0 t) as [[y m1]|e] eqn:St; [|discriminate]. destruct (step_deeper x m0 m t y m1 St) as (m2 & St2).
    rewrite St2. apply (IH (length r) ltac:(lia) y m1 m2 r (le_n _)); [|exact V]. exact (step_kept _ _ _ _ _ K St2).
  - rewrite verdict_end in V by exact G. rewrite verdict_end by exact G. destruct x as [[|d]|d|d p w]; try discriminate V. exists m. split; [reflexivity|exact K].
Qed.
