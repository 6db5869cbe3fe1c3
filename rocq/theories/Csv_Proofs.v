From Verif Require Import Base Csv_Model Csv_Spec.

Lemma list_strong {A} (P : list A -> Prop) :
  (forall l, (forall l', length l' < length l -> P l') -> P l) -> forall l, P l.
Proof.
  intros H l. assert (forall n l, length l < n -> P l) as X.
  { induction n as [|n IH]; intros l0 Hl; [lia|]. apply H; intros l' Hl'; apply IH; lia. }
  apply (X (S (length l)) l); lia.
Qed.

(** What may follow a field. *)
Definition delim (k : str) : Prop :=
  match k with [] => True | c :: _ => c = c_cr \/ c = c_nl \/ c = comma end.

Lemma lit_end_spec c : lit_end c = true <-> c = c_cr \/ c = c_nl \/ c = comma.
Proof.
  unfold lit_end, c_comma, comma.
  destruct (Ascii.eqb_spec c c_cr), (Ascii.eqb_spec c c_nl), (Ascii.eqb_spec c ","); cbn; subst;
    split; intro H; auto; try discriminate; destruct H as [H|[H|H]]; congruence.
Qed.

Lemma lit_end_false c : lit_end c = false <-> c <> c_cr /\ c <> c_nl /\ c <> comma.
Proof.
  destruct (lit_end c) eqn:E.
  - apply lit_end_spec in E. split; [discriminate|intuition].
  - split; auto. intros _. repeat split; intro X; assert (lit_end c = true) by (apply lit_end_spec; auto); congruence.
Qed.

Lemma delim_not_dq k : delim k -> forall r, k <> c_dq :: r.
Proof. intros H r ->. cbn in H. destruct H as [H|[H|H]]; discriminate. Qed.

Lemma field_escaped_ok v k : (forall r, k <> c_dq :: r) ->
  field_escaped (double_quotes v ++ c_dq :: k) = Ret (v, k).
Proof.
  intro Hk. induction v as [|c v IH]; cbn [double_quotes app].
  - cbn. destruct k as [|c2 k]; auto. destruct (Ascii.eqb_spec c2 c_dq); auto. subst. exfalso; eapply Hk; eauto.
  - destruct (Ascii.eqb_spec c c_dq) as [->|n].
    + cbn [app field_escaped]. rewrite !Ascii.eqb_refl. rewrite IH. reflexivity.
    + cbn [app field_escaped]. rewrite (proj2 (ascii_eqb_neq _ _) n). rewrite IH. reflexivity.
Qed.

Lemma field_escaped_inv s v k : field_escaped s = Ret (v, k) ->
  s = double_quotes v ++ c_dq :: k /\ forall r, k <> c_dq :: r.
Proof.
  revert v k. induction s as [s IH] using list_strong. intros v k H.
  destruct s as [|c s]; [discriminate|]. cbn in H.
  destruct (Ascii.eqb_spec c c_dq) as [->|n].
  - destruct s as [|c2 s].
    + inversion H; subst. split; [reflexivity|discriminate].
    + destruct (Ascii.eqb_spec c2 c_dq) as [->|n2].
      * destruct (field_escaped s) as [[v' k']| | | |] eqn:E; try discriminate.
        inversion H; subst. apply IH in E; [|cbn; lia]. destruct E as [-> Hk]. split; auto.
      * inversion H; subst. split; [reflexivity|]. intros r X; inversion X; congruence.
  - destruct (field_escaped s) as [[v' k']| | | |] eqn:E; try discriminate.
    inversion H; subst. apply IH in E; [|cbn; lia]. destruct E as [-> Hk]. split; auto.
    cbn [double_quotes]. rewrite (proj2 (ascii_eqb_neq _ _) n). reflexivity.
Qed.

Lemma field_escaped_outcome s : (exists v k, field_escaped s = Ret (v, k)) \/ field_escaped s = Err.
Proof.
  induction s as [s IH] using list_strong. destruct s as [|c s]; [auto|]. cbn.
  destruct (Ascii.eqb c c_dq).
  - destruct s as [|c2 s]; [eauto|]. destruct (Ascii.eqb c2 c_dq); [|eauto].
    destruct (IH s ltac:(cbn; lia)) as [(v & k & ->)| ->]; cbn; eauto.
  - destruct (IH s ltac:(cbn; lia)) as [(v & k & ->)| ->]; cbn; eauto.
Qed.

Lemma field_literal_ok v k : Forall (fun c => c <> c_cr /\ c <> c_nl /\ c <> comma) v -> delim k ->
  field_literal (v ++ k) = (v, k).
Proof.
  intros Hv Hk. induction Hv as [|c v Hc Hv IH]; cbn [app].
  - destruct k as [|c k]; auto. cbn. apply lit_end_spec in Hk. now rewrite Hk.
  - cbn. apply lit_end_false in Hc. now rewrite Hc, IH.
Qed.

Lemma field_literal_inv s : let '(v, k) := field_literal s in
  s = v ++ k /\ Forall (fun c => c <> c_cr /\ c <> c_nl /\ c <> comma) v /\ delim k.
Proof.
  induction s as [|c s IH]; cbn; auto.
  destruct (lit_end c) eqn:E.
  - repeat split; auto. now apply lit_end_spec.
  - destruct (field_literal s) as [v k]. destruct IH as (-> & Hv & Hk). repeat split; auto.
    constructor; auto. now apply lit_end_false.
Qed.

Lemma parse_field_ok t v k : field t v -> delim k -> parse_field (t ++ k) = Ret (v, k).
Proof.
  intros H Hk. inversion H as [v0|v0 Hv Hq]; subst.
  - cbn [app parse_field]. rewrite Ascii.eqb_refl. rewrite <- app_assoc. cbn [app].
    apply field_escaped_ok. now apply delim_not_dq.
  - pose proof (field_literal_ok v k Hv Hk) as E.
    destruct (v ++ k) as [|c r] eqn:Evk; cbn [parse_field].
    + cbn in E. inversion E; subst; auto.
    + destruct (Ascii.eqb_spec c c_dq) as [->|n].
      * exfalso. destruct v as [|c v]; cbn in Evk.
        -- subst k. cbn in Hk. destruct Hk as [X|[X|X]]; discriminate.
        -- inversion Evk; subst. eapply Hq; eauto.
      * now rewrite E.
Qed.

Lemma parse_field_inv s v k : parse_field s = Ret (v, k) -> exists t, s = t ++ k /\ field t v.
Proof.
  destruct s as [|c s]; unfold parse_field.
  - intro H; inversion H; subst. exists []. split; auto. constructor; [constructor|discriminate].
  - destruct (Ascii.eqb_spec c c_dq) as [->|n].
    + intro H. apply field_escaped_inv in H as [-> Hk].
      exists (c_dq :: double_quotes v ++ [c_dq]). cbn. rewrite <- app_assoc. split; auto. constructor.
    + pose proof (field_literal_inv (c :: s)) as P.
      destruct (field_literal (c :: s)) as [v0 k0].
      destruct P as (E & Hv & Hk). intro H; inversion H; subst. exists v. split; auto.
      constructor; auto. intros r ->. inversion E; subst. congruence.
Qed.

Lemma parse_field_outcome s : (exists v k, parse_field s = Ret (v, k)) \/ parse_field s = Err.
Proof.
  destruct s as [|c s]; [cbn; eauto|]. unfold parse_field. destruct (Ascii.eqb c c_dq); [apply field_escaped_outcome|].
  destruct (field_literal (c :: s)); eauto.
Qed.

Lemma parse_field_len s v k : parse_field s = Ret (v, k) -> length k <= length s.
Proof. intro H. apply parse_field_inv in H as (t & -> & _). rewrite app_length; lia. Qed.

(* ---- records ---- *)
Definition eol_start (k : str) : Prop :=
  match k with [] => False | c :: _ => c = c_cr \/ c = c_nl end.

Lemma eol_start_delim k : eol_start k -> delim k.
Proof. destruct k; cbn; tauto. Qed.

Lemma eolb c : (c = c_cr \/ c = c_nl) <-> Ascii.eqb c c_cr || Ascii.eqb c c_nl = true.
Proof.
  rewrite orb_true_iff. destruct (Ascii.eqb_spec c c_cr), (Ascii.eqb_spec c c_nl); intuition; try discriminate.
Qed.

Lemma comma_not_eol : Ascii.eqb comma c_cr || Ascii.eqb comma c_nl = false.
Proof. reflexivity. Qed.

Lemma parse_record_S n s acc : s <> [] -> parse_record (S n) s acc =
  let* (field, rest) := parse_field s in
  match rest with
  | [] => Ret (acc ++ [field], [])
  | c :: r => if Ascii.eqb c c_cr || Ascii.eqb c c_nl then Ret (acc ++ [field], rest)
              else if Ascii.eqb c c_comma then parse_record n r (acc ++ [field]) else Err
  end.
Proof. destruct s; [congruence|reflexivity]. Qed.

Lemma app_cons_ne {A} (t : list A) c r : t ++ c :: r <> [].
Proof. destruct t; discriminate. Qed.

(** completeness, record followed by a line end *)
Lemma record_ok s r : record s r -> forall k acc n, eol_start k -> length (s ++ k) <= n ->
  parse_record n (s ++ k) acc = Ret (acc ++ r, k).
Proof.
  induction 1 as [t v Hf|t v s vs Hf Hr IH]; intros k acc n Hk Hn.
  - destruct k as [|c k]; [destruct Hk|].
    destruct n as [|n]; [rewrite app_length in Hn; cbn in Hn; lia|].
    rewrite parse_record_S by apply app_cons_ne.
    rewrite (parse_field_ok _ v) by (auto using eol_start_delim). cbn [bind].
    apply eolb in Hk. now rewrite Hk.
  - rewrite <- app_assoc in *. cbn [app] in *. destruct n as [|n]; [rewrite app_length in Hn; cbn in Hn; lia|].
    rewrite parse_record_S by apply app_cons_ne.
    rewrite (parse_field_ok _ v) by (cbn; auto). cbn [bind].
    rewrite comma_not_eol. unfold c_comma; cbn [Ascii.eqb comma]. change (Ascii.eqb comma ",") with true. cbn iota.
    rewrite IH; auto.
    + now rewrite <- app_assoc.
    + rewrite app_length in Hn |- *; cbn in Hn. rewrite app_length in Hn. lia.
Qed.

Lemma last_ok s r : last_line s r -> forall acc n, length s <= n ->
  parse_record n s acc = Ret (acc ++ r, []).
Proof.
  induction 1 as [t v Hne Hf|t v Hf|t v s vs Hf Hr IH]; intros acc n Hn.
  - destruct n as [|n]; [destruct t; [congruence|cbn in Hn; lia]|].
    rewrite parse_record_S by auto.
    rewrite <- (app_nil_r t). rewrite (parse_field_ok _ v) by (auto; exact I). reflexivity.
  - destruct n as [|n]; [rewrite app_length in Hn; cbn in Hn; lia|].
    rewrite parse_record_S by apply app_cons_ne.
    rewrite (parse_field_ok _ v) by (cbn; auto). cbn [bind].
    rewrite comma_not_eol. change (Ascii.eqb comma c_comma) with true. cbn iota.
    destruct n; reflexivity.
  - destruct n as [|n]; [rewrite app_length in Hn; cbn in Hn; lia|].
    rewrite parse_record_S by apply app_cons_ne.
    rewrite (parse_field_ok _ v) by (cbn; auto). cbn [bind].
    rewrite comma_not_eol. change (Ascii.eqb comma c_comma) with true. cbn iota.
    rewrite IH; [now rewrite <- app_assoc|]. rewrite app_length in Hn; cbn in Hn; lia.
Qed.

(** soundness *)
Lemma record_inv n : forall s acc res k, s <> [] -> parse_record n s acc = Ret (res, k) ->
  exists r, res = acc ++ r /\
    ((eol_start k /\ exists s0, s = s0 ++ k /\ record s0 r) \/ (k = [] /\ last_line s r)).
Proof.
  induction n as [|n IH]; intros s acc res k Hs H.
  { destruct s; [congruence|discriminate]. }
  rewrite parse_record_S in H by auto.
  destruct (parse_field s) as [[v rest]| | | |] eqn:E; try discriminate. cbn [bind] in H.
  apply parse_field_inv in E as (t & -> & Hf).
  destruct rest as [|c rest].
  - inversion H; subst. rewrite app_nil_r in *. exists [v]. split; auto. right. split; auto. now constructor.
  - destruct (Ascii.eqb c c_cr || Ascii.eqb c c_nl) eqn:Ee.
    + inversion H; subst. exists [v]. split; auto. left. split; [now apply eolb|].
      exists t. split; auto. now constructor.
    + destruct (Ascii.eqb_spec c c_comma) as [->|n0]; [|discriminate].
      destruct rest as [|c2 rest].
      * assert (parse_record n [] (acc ++ [v]) = Ret (acc ++ [v], [])) as X by (destruct n; reflexivity).
        rewrite X in H. inversion H; subst. exists [v]. split; auto. right. split; auto. now constructor.
      * apply IH in H; [|discriminate]. destruct H as (r & -> & H).
        exists (v :: r). rewrite <- app_assoc. split; auto.
        destruct H as [(Hk & s0 & Hs0 & Hr)|(-> & Hl)].
        -- left. split; auto. exists (t ++ comma :: s0). rewrite <- app_assoc. cbn. rewrite <- Hs0.
           split; auto. now constructor.
        -- right. split; auto. now constructor.
Qed.

Lemma record_outcome n : forall s acc, length s <= n ->
  (exists res k, parse_record n s acc = Ret (res, k)) \/ parse_record n s acc = Err.
Proof.
  induction n as [|n IH]; intros s acc Hn.
  { destruct s; [cbn; eauto|cbn in Hn; lia]. }
  destruct s as [|c s]; [cbn; eauto|]. rewrite parse_record_S by discriminate.
  destruct (parse_field_outcome (c :: s)) as [(v & k & E)|E]; rewrite E; cbn [bind]; auto.
  apply parse_field_len in E. destruct k as [|c2 k]; eauto.
  destruct (Ascii.eqb c2 c_cr || Ascii.eqb c2 c_nl); eauto.
  destruct (Ascii.eqb c2 c_comma); eauto. apply IH. cbn in *; lia.
Qed.

(* ---- files ---- *)
Lemma parse_rows_S n s out : s <> [] -> parse_rows (S n) s out =
  let* (record, rest) := parse_record (S n) s [] in
  match rest with
  | [] => Ret (out ++ [record])
  | c :: r =>
      if Ascii.eqb c c_cr then
        match r with
        | c2 :: r2 => if Ascii.eqb c2 c_nl then parse_rows n r2 (out ++ [record]) else Err
        | [] => Err
        end
      else if Ascii.eqb c c_nl then parse_rows n r (out ++ [record])
      else parse_rows n rest (out ++ [record])
  end.
Proof. destruct s; [congruence|reflexivity]. Qed.

Lemma last_line_ne s r : last_line s r -> s <> [].
Proof. intro H; inversion H; subst; auto; apply app_cons_ne. Qed.

Lemma rows_ok s rows : file_code s rows -> forall out n, length s <= n ->
  parse_rows n s out = Ret (out ++ rows).
Proof.
  induction 1 as [|s r Hl|s r e s' rows Hr He Hf IH]; intros out n Hn.
  - rewrite app_nil_r. destruct n; reflexivity.
  - pose proof (last_line_ne _ _ Hl) as Hne.
    destruct n as [|n]; [destruct s; [congruence|cbn in Hn; lia]|].
    rewrite parse_rows_S by auto. rewrite (last_ok _ _ Hl) by auto. reflexivity.
  - assert (exists c e', e = c :: e') as (c & e' & Ee) by (destruct He; subst; eauto).
    destruct n as [|n]; [rewrite app_length, Ee in Hn; cbn in Hn; lia|].
    rewrite parse_rows_S by (rewrite Ee; apply app_cons_ne).
    rewrite (record_ok _ _ Hr); auto.
    2:{ destruct He; subst e; cbn; auto. }
    cbn [bind app].
    assert (length s' <= n) as Hn' by (rewrite app_length, Ee in Hn; cbn in Hn; rewrite app_length in Hn; lia).
    destruct He; subst e; cbn [app].
    + change (Ascii.eqb c_nl c_cr) with false. change (Ascii.eqb c_nl c_nl) with true. cbn iota.
      rewrite IH by auto. now rewrite <- app_assoc.
    + change (Ascii.eqb c_cr c_cr) with true. change (Ascii.eqb c_nl c_nl) with true. cbn iota.
      rewrite IH by auto. now rewrite <- app_assoc.
Qed.

Lemma rows_inv n : forall s out res, parse_rows n s out = Ret res ->
  exists rows, res = out ++ rows /\ file_code s rows.
Proof.
  induction n as [|n IH]; intros s out res H.
  { destruct s; [|discriminate]. inversion H; subst. exists []. rewrite app_nil_r. split; auto; constructor. }
  destruct s as [|c0 s0].
  { inversion H; subst. exists []. rewrite app_nil_r. split; auto; constructor. }
  rewrite parse_rows_S in H by discriminate. remember (c0 :: s0) as s.
  destruct (parse_record (S n) s []) as [[r rest]| | | |] eqn:E; try discriminate.
  apply record_inv in E; [|subst; discriminate]. destruct E as (r' & -> & E). cbn [app] in H.
  cbn [bind] in H. destruct E as [(Hk & s1 & Hs & Hr)|(-> & Hl)].
  - destruct rest as [|c rest]; [destruct Hk|]. rewrite Hs.
    destruct (Ascii.eqb_spec c c_cr) as [->|n1].
    + destruct rest as [|c2 rest]; [discriminate|].
      destruct (Ascii.eqb_spec c2 c_nl) as [->|n2]; [|discriminate].
      apply IH in H as (rows & -> & Hf). exists (r' :: rows). rewrite <- app_assoc. split; auto.
      apply (fc_row s1 r' [c_cr; c_nl] rest rows); auto. right; auto.
    + destruct (Ascii.eqb_spec c c_nl) as [->|n2].
      * apply IH in H as (rows & -> & Hf). exists (r' :: rows). rewrite <- app_assoc. split; auto.
        apply (fc_row s1 r' [c_nl] rest rows); auto. left; auto.
      * cbn in Hk. destruct Hk; congruence.
  - inversion H; subst. exists [r']. split; auto. now constructor.
Qed.

Lemma rows_outcome n : forall s out, length s <= n ->
  (exists res, parse_rows n s out = Ret res) \/ parse_rows n s out = Err.
Proof.
  induction n as [|n IH]; intros s out Hn.
  { destruct s; [cbn; eauto|cbn in Hn; lia]. }
  destruct s as [|c0 s0]; [cbn; eauto|]. rewrite parse_rows_S by discriminate. remember (c0 :: s0) as s.
  destruct (record_outcome (S n) s [] Hn) as [(res & k & E)|E]; rewrite E; cbn [bind]; auto.
  destruct k as [|c k]; eauto.
  assert (S (length k) <= length s) as Hk.
  { apply record_inv in E; [|subst; discriminate]. destruct E as (r & _ & [(_ & s1 & -> & _)|[X _]]); [|discriminate].
    rewrite app_length; cbn; lia. }
  destruct (Ascii.eqb_spec c c_cr) as [->|n1].
  - destruct k as [|c2 k]; auto. destruct (Ascii.eqb c2 c_nl); auto. apply IH; cbn in *; lia.
  - destruct (Ascii.eqb_spec c c_nl) as [->|n2].
    + apply IH; lia.
    + exfalso. apply record_inv in E; [|subst; discriminate].
      destruct E as (r & _ & [([X|X] & _)|[X _]]); congruence.
Qed.

Lemma csv_iff_code s rows : csv_parse (length s) s = Ret rows <-> file_code s rows.
Proof.
  unfold csv_parse. split.
  - intro H. apply rows_inv in H as (r & -> & H). exact H.
  - intro H. now rewrite (rows_ok _ _ H).
Qed.

Lemma csv_total s : (exists rows, csv_parse (length s) s = Ret rows) \/ csv_parse (length s) s = Err.
Proof. apply rows_outcome; auto. Qed.

(* ---- relation to the standard grammar ---- *)
Lemma field_no_final_comma t v : field t v -> no_final_comma t.
Proof.
  intros H s0 E. destruct H as [v|v Hv Hq].
  - change (c_dq :: double_quotes v ++ [c_dq]) with ((c_dq :: double_quotes v) ++ [c_dq]) in E.
    apply app_inj_tail in E as [_ X]. discriminate.
  - subst v. apply Forall_app in Hv as [_ Hv]. apply Forall_inv in Hv. tauto.
Qed.

Lemma nfc_app (a b : str) : b <> [] -> no_final_comma (a ++ b) <-> no_final_comma b.
Proof.
  intro Hb. split; intros H s0 E.
  - apply (H (a ++ s0)). now rewrite E, app_assoc.
  - destruct b as [|b0 b] using rev_ind; [congruence|]. clear IHb.
    rewrite app_assoc in E. apply app_inj_tail in E as [E1 E2]. subst. now apply (H b).
Qed.

Lemma record_last_line s r : s <> [] -> no_final_comma s -> record s r -> last_line s r.
Proof.
  intros Hne Hc H. induction H as [t v Hf|t v s vs Hf Hr IH].
  - now constructor.
  - constructor; auto. apply IH.
    + intros ->. apply (Hc t). reflexivity.
    + assert (s <> []) by (intros ->; apply (Hc t); reflexivity).
      change (t ++ comma :: s) with (t ++ [comma] ++ s) in Hc.
      apply (proj1 (nfc_app (t ++ [comma]) s H)). now rewrite <- app_assoc.
Qed.

Lemma last_line_record s r : no_final_comma s -> last_line s r -> record s r.
Proof.
  intros Hc H. induction H as [t v Hne Hf|t v Hf|t v s vs Hf Hr IH].
  - now constructor.
  - exfalso. now apply (Hc t).
  - constructor; auto. apply IH. pose proof (last_line_ne _ _ Hr) as Hs.
    apply (proj1 (nfc_app (t ++ [comma]) s Hs)). rewrite <- app_assoc. exact Hc.
Qed.

Lemma file_code_iff s rows : no_final_comma s -> (file_code s rows <-> file s rows).
Proof.
  intro Hc. split; intro H; revert Hc.
  - induction H as [|s r Hl|s r e s' rows Hr He Hf IH]; intro Hc.
    + constructor.
    + constructor; [now apply last_line_ne in Hl|now apply last_line_record].
    + constructor; auto. destruct s' as [|c s']; [apply IH; intros [|? ?]; discriminate|].
      apply IH. rewrite app_assoc in Hc. apply nfc_app in Hc; auto; discriminate.
  - induction H as [|s r Hne Hr|s r e s' rows Hr He Hf IH]; intro Hc.
    + constructor.
    + constructor. now apply record_last_line.
    + constructor; auto. destruct s' as [|c s']; [apply IH; intros [|? ?]; discriminate|].
      apply IH. rewrite app_assoc in Hc. apply nfc_app in Hc; auto; discriminate.
Qed.

Lemma csv_iff s rows : no_final_comma s -> (csv_parse (length s) s = Ret rows <-> file s rows).
Proof. intro H. rewrite csv_iff_code. now apply file_code_iff. Qed.

(** texts ending in a comma: the empty last field is lost *)
Lemma field_nil v : field [] v -> v = [].
Proof. intro H; inversion H; subst; auto. Qed.

Lemma record_final_comma s r : record (s ++ [comma]) r -> exists r0, r = r0 ++ [[]] /\ record s r0.
Proof.
  remember (s ++ [comma]) as s1. intro H. revert s Heqs1.
  induction H as [t v Hf|t v s1 vs Hf Hr IH]; intros s E.
  - subst. exfalso. now apply (field_no_final_comma _ _ Hf s).
  - destruct s1 as [|c s1] using rev_ind.
    + apply app_inj_tail in E as [-> _]. exists [v]. split.
      * inversion Hr; subst.
        -- apply field_nil in H. now subst.
        -- destruct t; discriminate.
      * now constructor.
    + clear IHs1. change (t ++ comma :: s1 ++ [c]) with (t ++ (comma :: s1) ++ [c]) in E.
      rewrite app_assoc in E. apply app_inj_tail in E as [<- ->].
      destruct (IH s1 eq_refl) as (r0 & -> & Hr0). exists (v :: r0). split; auto. now constructor.
Qed.

Lemma record_last_comma s r : record s r -> last_line (s ++ [comma]) r.
Proof.
  induction 1 as [t v Hf|t v s vs Hf Hr IH].
  - now constructor.
  - rewrite <- app_assoc. cbn. now constructor.
Qed.

Lemma csv_final_comma s rows : file (s ++ [comma]) rows ->
  exists rows0 r, rows = rows0 ++ [r ++ [[]]] /\
    csv_parse (length (s ++ [comma])) (s ++ [comma]) = Ret (rows0 ++ [r]).
Proof.
  intro H. setoid_rewrite csv_iff_code. remember (s ++ [comma]) as s1. revert s Heqs1.
  induction H as [|s1 r Hne Hr|s1 r e s' rows Hr He Hf IH]; intros s E.
  - destruct s; discriminate.
  - subst. apply record_final_comma in Hr as (r0 & -> & Hr). exists [], r0. split; auto.
    cbn. constructor. now apply record_last_comma.
  - destruct s' as [|c s'] using rev_ind.
    + exfalso. rewrite app_nil_r in E. destruct He; subst e.
      * apply app_inj_tail in E as [_ X]; discriminate.
      * change (s1 ++ [c_cr; c_nl]) with (s1 ++ [c_cr] ++ [c_nl]) in E. rewrite app_assoc in E.
        apply app_inj_tail in E as [_ X]; discriminate.
    + clear IHs'. rewrite !app_assoc in E. apply app_inj_tail in E as [<- ->].
      destruct (IH s' eq_refl) as (rows0 & r0 & -> & X). exists (r :: rows0), r0. split; auto.
      cbn [app]. now constructor.
Qed.

(* ---- round trip ---- *)
Lemma write_record_ok r : r <> [] -> record (write_record r) r.
Proof.
  induction r as [|v r IH]; intro H; [congruence|]. destruct r as [|v2 r].
  - cbn. constructor. constructor.
  - change (write_record (v :: v2 :: r)) with (write_field v ++ comma :: write_record (v2 :: r)).
    constructor; [constructor|]. apply IH; discriminate.
Qed.

Lemma write_table_ok e rows : eol e -> Forall (fun r => r <> []) rows ->
  file_code (write_table e rows) rows.
Proof.
  intros He H. induction H as [|r rows Hr H IH]; [constructor|].
  unfold write_table in *. cbn [flat_map]. rewrite <- app_assoc. constructor; auto. now apply write_record_ok.
Qed.

Lemma csv_roundtrip e rows : eol e -> Forall (fun r => r <> []) rows ->
  let s := write_table e rows in csv_parse (length s) s = Ret rows.
Proof. intros He H s. apply csv_iff_code. now apply write_table_ok. Qed.

(* ---- columns ---- *)
Lemma index_of_spec k l i : index_of k l = Some i <->
  nth_error l i = Some k /\ forall j, j < i -> nth_error l j <> Some k.
Proof.
  revert i; induction l as [|x l IH]; intro i; cbn.
  - split; [discriminate|]. intros [H _]. destruct i; discriminate.
  - destruct (str_eqb_spec x k) as [->|n].
    + split.
      * intro H; inversion H; subst. split; auto. intros; lia.
      * intros [H1 H2]. destruct i as [|i]; auto. exfalso. apply (H2 0); [lia|reflexivity].
    + destruct (index_of k l) as [j|] eqn:E; cbn.
      * split.
        -- intro H; inversion H; subst. destruct (proj1 (IH j) eq_refl) as [H1 H2]. split; auto.
           intros [|j'] Hj; cbn; [congruence|apply H2; lia].
        -- intros [H1 H2]. destruct i as [|i]; cbn in H1; [congruence|].
           f_equal. assert (Some j = Some i) as X; [|now inversion X].
           apply IH. split; auto. intros j' Hj'. apply (H2 (S j')); lia.
      * split; [discriminate|]. intros [H1 H2]. exfalso. destruct i as [|i]; cbn in H1; [congruence|].
        assert (@None nat = Some i) as X; [|discriminate X]. apply IH. split; auto.
        intros j' Hj'. apply (H2 (S j')); lia.
Qed.

Lemma extract_ok idx rows vs : extract_rows idx rows = (vs, Ret tt) <->
  Forall2 (fun row v => nth_error row idx = Some v) rows vs.
Proof.
  revert vs; induction rows as [|row rows IH]; intro vs; cbn [extract_rows].
  - split; intro H; inversion H; subst; auto.
  - destruct (Nat.ltb_spec (length row) idx) as [L|L].
    + split; [discriminate|]. intro H; inversion H; subst.
      assert (nth_error row idx = None) by (apply nth_error_None; lia). congruence.
    + destruct (nth_error row idx) as [v|] eqn:E.
      * destruct (extract_rows idx rows) as [vs' o]. split.
        -- intro H; inversion H; subst. constructor; auto. apply IH; auto.
        -- intro H; inversion H; subst. rewrite E in H2; inversion H2; subst.
           apply IH in H4. inversion H4; subst; auto.
      * split; [discriminate|]. intro H; inversion H; congruence.
Qed.

(** exactly which tables abort: the first row too short has exactly idx fields *)
Lemma extract_throw idx rows : snd (extract_rows idx rows) = Throw <->
  exists pre row post, rows = pre ++ row :: post /\ Forall (fun r => idx < length r) pre /\ length row = idx.
Proof.
  induction rows as [|row rows IH]; cbn [extract_rows snd].
  - split; [discriminate|]. intros (pre & row & post & H & _). destruct pre; discriminate.
  - destruct (Nat.ltb_spec (length row) idx) as [L|L].
    + split; [discriminate|]. intros (pre & row0 & post & H & Hp & Hl).
      destruct pre; inversion H; subst; [lia|]. apply Forall_inv in Hp. lia.
    + destruct (nth_error row idx) as [v|] eqn:E.
      * assert (idx < length row) by (apply nth_error_Some; congruence).
        destruct (extract_rows idx rows) as [vs' o] eqn:Ex. cbn in *. rewrite IH. split.
        -- intros (pre & row0 & post & -> & Hp & Hl). exists (row :: pre), row0, post. repeat split; auto.
        -- intros (pre & row0 & post & Hx & Hp & Hl). destruct pre; inversion Hx; subst; [lia|].
           inversion Hp; subst. exists pre, row0, post. auto.
      * cbn. apply nth_error_None in E. split; auto. intros _. exists [], row, rows.
        repeat split; auto; lia.
Qed.

Lemma extract_err idx rows : snd (extract_rows idx rows) = Err <->
  exists pre row post, rows = pre ++ row :: post /\ Forall (fun r => idx < length r) pre /\ length row < idx.
Proof.
  induction rows as [|row rows IH]; cbn [extract_rows snd].
  - split; [discriminate|]. intros (pre & row & post & H & _). destruct pre; discriminate.
  - destruct (Nat.ltb_spec (length row) idx) as [L|L].
    + split; auto. intros _. exists [], row, rows. auto.
    + destruct (nth_error row idx) as [v|] eqn:E.
      * assert (idx < length row) by (apply nth_error_Some; congruence).
        destruct (extract_rows idx rows) as [vs' o] eqn:Ex. cbn in *. rewrite IH. split.
        -- intros (pre & row0 & post & -> & Hp & Hl). exists (row :: pre), row0, post. repeat split; auto.
        -- intros (pre & row0 & post & Hx & Hp & Hl). destruct pre; inversion Hx; subst; [lia|].
           inversion Hp; subst. exists pre, row0, post. auto.
      * cbn. apply nth_error_None in E. split; [discriminate|].
        intros (pre & row0 & post & H & Hp & Hl).
        destruct pre; inversion H; subst; [lia|]. apply Forall_inv in Hp. lia.
Qed.

Lemma column_ok headers rows column idx : index_of column headers = Some idx ->
  Forall (fun r => idx < length r) rows ->
  exists vs, csv_extract_column (headers :: rows) column = (vs, Ret tt) /\
    Forall2 (fun row v => nth_error row idx = Some v) rows vs.
Proof.
  intros Hi H. cbn. rewrite Hi.
  assert (exists vs, Forall2 (fun row v => nth_error row idx = Some v) rows vs) as [vs Hv].
  { clear Hi. induction H as [|r rows Hr H [vs IH]]; [exists []; constructor|].
    destruct (nth_error r idx) as [v|] eqn:E.
    - exists (v :: vs). now constructor.
    - apply nth_error_None in E. lia. }
  exists vs. split; auto. now apply extract_ok.
Qed.
