From Verif Require Import Base Sexpr_Model Plist_Model Plist_Spec.

Ltac ascii_cases c := destruct c as [[] [] [] [] [] [] [] []].

(* -- equations -- *)
Lemma parse_values_S n s : parse_values (S n) s =
      match get_token s with
      | None => Ret ([], s)
      | Some (PSemi, _) | Some (PRParen, _) => Ret ([], s)
      | Some (PComma, r) => parse_values n r
      | Some (PString _, _) | Some (PQuoted _, _) =>
          let* (v, s1) := parse_value n s in
          let* (vs, s2) := parse_values n s1 in
          Ret (v :: vs, s2)
      | Some _ => Err
      end.
Proof. reflexivity. Qed.
Lemma parse_value_S n s : parse_value (S n) s =
      match get_token s with
      | Some (PQuoted v, r) => Ret (EVal v, r)
      | Some (PString v, r) =>
          match get_token r with
          | Some (PLParen, r1) =>
              let* (args, s1) := parse_values n r1 in
              let s2 := match get_token s1 with Some (PRParen, r2) => r2 | _ => s1 end in
              Ret (EList (ELit v :: args), s2)
          | _ => Ret (ELit v, r)
          end
      | _ => Err
      end.
Proof. reflexivity. Qed.
Lemma property_or_map_S n s : property_or_map (S n) s =
      match get_token s with
      | Some (PString name, r) | Some (PQuoted name, r) =>
          match get_token r with
          | Some (PColon, r1) =>
              let* (args, s1) := parse_values n r1 in
              match get_token s1 with
              | Some (PSemi, r2) => Ret (EList (ELit name :: args), r2)
              | _ => Err
              end
          | Some (PLBrace, r1) =>
              let* (items, s1) := map_items n r1 in
              match get_token s1 with
              | Some (PRBrace, r2) => Ret (EList (ELit name :: items), r2)
              | _ => Err
              end
          | _ => Err
          end
      | _ => Err
      end.
Proof. reflexivity. Qed.
Lemma map_items_S n s : map_items (S n) s =
      match get_token s with
      | None => Ret ([], s)
      | Some (PRBrace, _) => Ret ([], s)
      | Some _ =>
          let* (x, s1) := property_or_map n s in
          let* (xs, s2) := map_items n s1 in
          Ret (x :: xs, s2)
      end.
Proof. reflexivity. Qed.
Lemma parse_program_S n s : parse_program (S n) s =
      match get_token s with
      | None => Ret []
      | Some _ =>
          let* (x, s1) := property_or_map n s in
          let* xs := parse_program n s1 in
          Ret (x :: xs)
      end.
Proof. reflexivity. Qed.

(* -- tokens -- *)
Lemma space_pws c : space c <-> pws c = true.
Proof.
  split.
  - intros [H|[H|[H|H]]]; subst; reflexivity.
  - unfold space. ascii_cases c; cbn; intro H; try discriminate H; auto.
Qed.
Lemma gt_blank w s : blank w -> get_token (w ++ s) = get_token s.
Proof.
  intro H. unfold get_token. replace (skip_ws (w ++ s)) with (skip_ws s); auto.
  induction H as [|c w Hc H IH]; auto. cbn [app skip_ws]. apply space_pws in Hc. now rewrite Hc.
Qed.
Lemma gt_blank_end w : blank w -> get_token w = None.
Proof. intro H. rewrite <- (app_nil_r w). now rewrite gt_blank. Qed.

Definition stopped (s : str) : Prop := match s with [] => True | c :: _ => word_stop c = true end.
Lemma word_char c : ~ space c -> ~ special c -> word_stop c = false.
Proof.
  intros H1 H2. unfold space in H1. unfold special in H2. cbn in H2.
  ascii_cases c; cbn; auto; exfalso; try (apply H2; tauto); apply H1; tauto.
Qed.
Lemma read_word_ok w rest : Forall (fun c => ~ space c /\ ~ special c) w -> stopped rest ->
  read_word (w ++ rest) = (w, rest).
Proof.
  intros H S. induction H as [|c w [H1 H2] H IH]; cbn [app read_word].
  - destruct rest as [|c r]; auto. cbn in *. now rewrite S.
  - rewrite (word_char c) by auto. now rewrite IH.
Qed.
Lemma gt_plain c r : word_stop c = false -> get_token (c :: r) =
  let '(w, rest) := read_word (c :: r) in Some (PString w, rest).
Proof. unfold get_token. ascii_cases c; cbn [word_stop]; intro H; try discriminate H; reflexivity. Qed.
Lemma gt_word w rest : word w -> stopped rest -> get_token (w ++ rest) = Some (PString w, rest).
Proof.
  intros [NE H] S. destruct w as [|c w]; [congruence|]. pose proof (read_word_ok _ _ H S) as R.
  inversion H as [|? ? [H1 H2] _]; subst. cbn [app] in *. rewrite gt_plain by now apply word_char.
  now rewrite R.
Qed.

Lemma read_quoted_ok q b v rest : q = c_dq \/ q = c_sq -> quoted_body q b v ->
  read_quoted q false (b ++ q :: rest) = (v, rest).
Proof.
  intros Hq H. induction H as [|c b v Hc1 Hc2 H IH|c b v H IH]; cbn [app].
  - cbn [read_quoted]. destruct Hq as [-> | ->]; reflexivity.
  - cbn [read_quoted]. rewrite IH. rewrite (proj2 (ascii_eqb_neq c c_bs)) by auto.
    rewrite (proj2 (ascii_eqb_neq q c)) by auto. cbn. destruct (_ || _); reflexivity.
  - change (read_quoted q false (c_bs :: c :: b ++ q :: rest)) with (read_quoted q true (c :: b ++ q :: rest)).
    cbn [read_quoted]. rewrite IH. cbn [orb]. destruct (_ || _); auto.
    destruct (Ascii.eqb_spec c c_bs); subst; reflexivity.
Qed.
Lemma gt_dq r : get_token (c_dq :: r) = let '(v, rest) := read_quoted c_dq false r in Some (PQuoted v, rest).
Proof. reflexivity. Qed.
Lemma gt_sq r : get_token (c_sq :: r) = let '(v, rest) := read_quoted c_sq false r in Some (PQuoted v, rest).
Proof. reflexivity. Qed.
Lemma gt_quoted t v rest : quoted t v -> get_token (t ++ rest) = Some (PQuoted v, rest).
Proof.
  intros [q b v' Hq H]. cbn [app]. rewrite <- app_assoc. cbn [app].
  pose proof (read_quoted_ok q b v' rest Hq H) as R.
  destruct Hq as [-> | ->]; [rewrite gt_dq|rewrite gt_sq]; now rewrite R.
Qed.

(* -- C16 -- *)
(** What may stand behind a value. *)
Definition follow (rest : str) : Prop := stopped rest /\ exists t r, get_token rest = Some (t, r) /\ t <> PLParen.
Definition closing (rest : str) : Prop := exists c r, rest = c :: r /\ (c = ";"%char \/ c = ")"%char).

Lemma space_stop c : space c -> word_stop c = true.
Proof. intros [H|[H|[H|H]]]; subst; reflexivity. Qed.
Lemma blank_stopped w c r : blank w -> word_stop c = true -> stopped (w ++ c :: r).
Proof. intros H Hc. destruct H as [|x w Hx H]; cbn; auto. now apply space_stop. Qed.
Lemma follow_stopped rest : follow rest -> stopped rest.
Proof. now intros [S _]. Qed.
Lemma follow_token rest : follow rest -> exists t r, get_token rest = Some (t, r) /\ t <> PLParen.
Proof. now intros [_ T]. Qed.
Lemma blank_before w rest : blank w -> stopped rest -> stopped (w ++ rest).
Proof. intros H S. destruct H as [|x w Hx H]; cbn; auto. now apply space_stop. Qed.
Lemma follow_blank w rest : blank w -> follow rest -> follow (w ++ rest).
Proof. intros Hw [S T]. split; [now apply blank_before|]. now rewrite gt_blank. Qed.
Lemma closing_follow rest : closing rest -> follow rest.
Proof. intros (c & r & -> & [-> | ->]); (split; [reflexivity|]); cbn; do 2 eexists; split; try reflexivity; discriminate. Qed.
Lemma comma_follow u : follow (s_ "," ++ u).
Proof. split; [reflexivity|]. cbn. do 2 eexists. split; [reflexivity|discriminate]. Qed.

Scheme val_text_ind2 := Minimality for val_text Sort Prop
  with args_text_ind2 := Minimality for args_text Sort Prop.
Combined Scheme val_args_ind from val_text_ind2, args_text_ind2.

Lemma token_nonempty_value t v rest : val_text v t -> stopped rest ->
  (exists u r, get_token (t ++ rest) = Some (PString u, r)) \/ (exists u r, get_token (t ++ rest) = Some (PQuoted u, r)).
Proof.
  intros V F. destruct V as [s W|s t Q|f args w1 t W Hw A].
  - left. rewrite gt_word by auto. eauto.
  - right. rewrite (gt_quoted _ _ _ Q). eauto.
  - left. rewrite <- !app_assoc. rewrite gt_word; eauto. apply blank_stopped; auto.
Qed.
Lemma nonblank_stopped w s : blank w -> w <> [] -> stopped (w ++ s).
Proof. intros H N. destruct H as [|x w Hx H]; [congruence|]. now apply space_stop. Qed.
Lemma space_follow vs u w rest : args_text vs u -> vs <> [] -> blank w -> w <> [] -> stopped rest -> follow (w ++ u ++ rest).
Proof.
  intros A N B NB S. split; [now apply nonblank_stopped|]. rewrite gt_blank by auto.
  assert (T : (exists x r, get_token (u ++ rest) = Some (PString x, r)) \/ (exists x r, get_token (u ++ rest) = Some (PQuoted x, r))).
  { destruct A as [w0 H|v t w1 w2 H1 H2 V|v t vs u w1 w2 H1 H2 V NV A|v t vs u w1 w2 H1 H2 H3 V NV A]; [congruence|..];
      rewrite <- !app_assoc, gt_blank by auto; apply (token_nonempty_value _ v); auto using nonblank_stopped.
    - now apply blank_before.
    - now apply blank_before. }
  destruct T as [(x & r & ->)|(x & r & ->)]; do 2 eexists; (split; [reflexivity|discriminate]).
Qed.

Lemma quoted_len t v : quoted t v -> 1 <= length t.
Proof. intros [q b v' Hq H]. cbn. lia. Qed.
Lemma word_len w : word w -> 1 <= length w.
Proof. intros [H _]. destruct w; cbn; [congruence|lia]. Qed.
Lemma val_len v t : val_text v t -> 1 <= length t.
Proof.
  intros [s W|s t' Q|f args w1 t' W Hw A]; [now apply word_len|eapply quoted_len; eauto|].
  rewrite app_length. apply word_len in W. lia.
Qed.

Lemma values_ok :
  (forall v t, val_text v t -> forall rest n, follow rest -> 2 * length t <= n ->
     parse_value n (t ++ rest) = Ret (val_expr v, rest)) /\
  (forall args t, args_text args t -> forall rest n, closing rest -> 2 * length t + 2 <= n ->
     exists w, blank w /\ parse_values n (t ++ rest) = Ret (map val_expr args, w ++ rest)).
Proof.
  apply val_args_ind.
  - intros s W rest n F Hn. pose proof (word_len _ W). destruct n as [|n]; [lia|]. rewrite parse_value_S.
    rewrite gt_word by auto using follow_stopped. destruct (follow_token _ F) as (t & r & -> & NE).
    destruct t; try reflexivity. congruence.
  - intros s t Q rest n F Hn. pose proof (quoted_len _ _ Q). destruct n as [|n]; [lia|]. rewrite parse_value_S.
    rewrite (gt_quoted _ _ _ Q). reflexivity.
  - intros f args w1 t W Hw A IH rest n F Hn. rewrite !app_length in Hn. cbn [length s_ list_ascii_of_string] in Hn.
    destruct n as [|n]; [lia|]. rewrite parse_value_S. rewrite <- !app_assoc.
    rewrite gt_word by (auto; apply blank_stopped; auto).
    rewrite gt_blank by auto.
    change (get_token (s_ "(" ++ t ++ s_ ")" ++ rest)) with (Some (PLParen, t ++ s_ ")" ++ rest)).
    cbn match. destruct (IH (s_ ")" ++ rest) n) as (w & Hw' & E).
    { exists ")"%char, rest. auto. }
    { cbn in Hn. lia. }
    rewrite E. cbn [bind]. rewrite gt_blank by auto. reflexivity.
  - intros w Hw rest n C Hn. exists w. split; auto. destruct n as [|n]; [lia|]. rewrite parse_values_S.
    rewrite gt_blank by auto. destruct C as (c & r & -> & [-> | ->]); reflexivity.
  - intros v t w1 w2 H1 H2 V IH rest n C Hn. rewrite !app_length in Hn. exists w2. split; auto.
    pose proof (val_len _ _ V).
    assert (follow (w2 ++ rest)) as F by (apply follow_blank; auto using closing_follow).
    destruct n as [|n]; [lia|]. rewrite parse_values_S. rewrite <- !app_assoc. rewrite gt_blank by auto.
    assert (parse_value n (w1 ++ t ++ w2 ++ rest) = Ret (val_expr v, w2 ++ rest)) as E.
    { destruct n as [|n]; [lia|]. rewrite parse_value_S. rewrite gt_blank by auto. rewrite <- parse_value_S. apply IH; auto. lia. }
    rewrite E. cbn [bind].
    assert (parse_values n (w2 ++ rest) = Ret ([], w2 ++ rest)) as E2.
    { destruct n as [|n]; [lia|]. rewrite parse_values_S. rewrite gt_blank by auto.
      destruct C as (c & r & -> & [-> | ->]); reflexivity. }
    rewrite E2. destruct (token_nonempty_value t v (w2 ++ rest) V (proj1 F)) as [(u & r & ->)|(u & r & ->)]; reflexivity.
  - intros v t vs u w1 w2 H1 H2 V IH NE A IHA rest n C Hn. rewrite !app_length in Hn.
    cbn [length s_ list_ascii_of_string] in Hn. pose proof (val_len _ _ V).
    assert (follow (w2 ++ s_ "," ++ u ++ rest)) as F by (apply follow_blank; auto using comma_follow).
    destruct n as [|n]; [lia|]. rewrite parse_values_S. rewrite <- !app_assoc. rewrite gt_blank by auto.
    assert (parse_value n (w1 ++ t ++ w2 ++ s_ "," ++ u ++ rest) = Ret (val_expr v, w2 ++ s_ "," ++ u ++ rest)) as E.
    { destruct n as [|n]; [lia|]. rewrite parse_value_S. rewrite gt_blank by auto. rewrite <- parse_value_S. apply IH; auto. lia. }
    rewrite E. cbn [bind].
    destruct n as [|n]; [lia|].
    destruct (IHA rest n C) as (w & Hw & E3); [cbn in Hn; lia|]. exists w. split; auto.
    assert (parse_values (S n) (w2 ++ s_ "," ++ u ++ rest) = Ret (map val_expr vs, w ++ rest)) as E2.
    { rewrite parse_values_S. rewrite gt_blank by auto. exact E3. }
    rewrite E2.
    destruct (token_nonempty_value t v _ V (proj1 F)) as [(u' & r & ->)|(u' & r & ->)]; reflexivity.
  - intros v t vs u w1 w2 H1 H2 H3 V IH NE A IHA rest n C Hn. rewrite !app_length in Hn. pose proof (val_len _ _ V).
    assert (L2 : 1 <= length w2) by (destruct w2; [congruence|cbn; lia]).
    assert (follow (w2 ++ u ++ rest)) as F by (apply (space_follow vs); auto; apply closing_follow in C; apply C).
    destruct n as [|n]; [lia|]. rewrite parse_values_S. rewrite <- !app_assoc. rewrite gt_blank by auto.
    assert (parse_value n (w1 ++ t ++ w2 ++ u ++ rest) = Ret (val_expr v, w2 ++ u ++ rest)) as E.
    { destruct n as [|n]; [lia|]. rewrite parse_value_S. rewrite gt_blank by auto. rewrite <- parse_value_S. apply IH; auto. lia. }
    rewrite E. cbn [bind].
    destruct (IHA rest n C) as (w & Hw & E3); [lia|]. exists w. split; auto.
    assert (parse_values n (w2 ++ u ++ rest) = Ret (map val_expr vs, w ++ rest)) as E2.
    { destruct n as [|n]; [lia|]. rewrite parse_values_S in E3 |- *. rewrite gt_blank by auto.
      assert (PV : parse_value n (w2 ++ u ++ rest) = parse_value n (u ++ rest)).
      { destruct n as [|n]; [reflexivity|]. rewrite !parse_value_S. now rewrite gt_blank by auto. }
      rewrite PV. destruct (get_token (u ++ rest)) as [[[] ?]|]; first [exact E3 | discriminate E3 | destruct vs; [congruence|discriminate E3]]. }
    rewrite E2.
    destruct (token_nonempty_value t v _ V (proj1 F)) as [(u' & r & ->)|(u' & r & ->)]; reflexivity.
Qed.

Lemma name_token nm t rest : name_text nm t -> stopped rest ->
  get_token (t ++ rest) = Some (PString nm, rest) \/ get_token (t ++ rest) = Some (PQuoted nm, rest).
Proof.
  intros [s W|s t' Q] S; [left; now apply gt_word|right; now apply gt_quoted].
Qed.
Lemma name_len nm t : name_text nm t -> 1 <= length t.
Proof. intros [s W|s t' Q]; [now apply word_len|eapply quoted_len; eauto]. Qed.

Scheme tree_text_ind2 := Minimality for tree_text Sort Prop
  with trees_text_ind2 := Minimality for trees_text Sort Prop.
Combined Scheme tree_trees_ind from tree_text_ind2, trees_text_ind2.

Lemma tree_token x t rest : tree_text x t ->
  (exists u r, get_token (t ++ rest) = Some (PString u, r)) \/ (exists u r, get_token (t ++ rest) = Some (PQuoted u, r)).
Proof.
  intros [n nt w1 args t' N Hw A|n nt w1 items t' N Hw A]; rewrite <- !app_assoc.
  - destruct (name_token n nt (w1 ++ s_ ":" ++ t' ++ s_ ";" ++ rest) N) as [-> | ->]; eauto. now apply blank_stopped.
  - destruct (name_token n nt (w1 ++ s_ "{" ++ t' ++ s_ "}" ++ rest) N) as [-> | ->]; eauto. now apply blank_stopped.
Qed.

Lemma trees_ok :
  (forall x t, tree_text x t -> forall rest n, 2 * length t <= n ->
     property_or_map n (t ++ rest) = Ret (tree_expr x, rest)) /\
  (forall xs t, trees_text xs t ->
     (forall r n, 2 * length t + 2 <= n ->
       exists w, blank w /\ map_items n (t ++ s_ "}" ++ r) = Ret (map tree_expr xs, w ++ s_ "}" ++ r)) /\
     (forall n, 2 * length t + 2 <= n -> parse_program n t = Ret (map tree_expr xs))).
Proof.
  apply tree_trees_ind.
  - intros nm nt w1 args t N Hw A rest n Hn. rewrite !app_length in Hn. cbn [length s_ list_ascii_of_string] in Hn.
    destruct n as [|n]; [lia|]. rewrite property_or_map_S. rewrite <- !app_assoc.
    assert (get_token (w1 ++ s_ ":" ++ t ++ s_ ";" ++ rest) = Some (PColon, t ++ s_ ";" ++ rest)) as E1
      by now rewrite gt_blank.
    destruct (proj2 values_ok _ _ A (s_ ";" ++ rest) n) as (w & Hw' & E2); [exists ";"%char, rest; auto|cbn in Hn; lia|].
    assert (get_token (w ++ s_ ";" ++ rest) = Some (PSemi, rest)) as E3 by now rewrite gt_blank.
    destruct (name_token nm nt (w1 ++ s_ ":" ++ t ++ s_ ";" ++ rest) N) as [-> | ->]; [now apply blank_stopped| |];
      rewrite E1, E2; cbn [bind]; rewrite E3; reflexivity.
  - intros nm nt w1 items t N Hw A [IH _] rest n Hn. rewrite !app_length in Hn. cbn [length s_ list_ascii_of_string] in Hn.
    destruct n as [|n]; [lia|]. rewrite property_or_map_S. rewrite <- !app_assoc.
    assert (get_token (w1 ++ s_ "{" ++ t ++ s_ "}" ++ rest) = Some (PLBrace, t ++ s_ "}" ++ rest)) as E1
      by now rewrite gt_blank.
    destruct (IH rest n) as (w & Hw' & E2); [cbn in Hn; lia|].
    assert (get_token (w ++ s_ "}" ++ rest) = Some (PRBrace, rest)) as E3 by now rewrite gt_blank.
    destruct (name_token nm nt (w1 ++ s_ "{" ++ t ++ s_ "}" ++ rest) N) as [-> | ->]; [now apply blank_stopped| |];
      rewrite E1, E2; cbn [bind]; rewrite E3; reflexivity.
  - intros w Hw. split.
    + intros r n Hn. exists w. split; auto. destruct n as [|n]; [lia|]. rewrite map_items_S. now rewrite gt_blank.
    + intros n Hn. destruct n as [|n]; [lia|]. rewrite parse_program_S. now rewrite gt_blank_end.
  - intros x t xs u w Hw T IHx Ts [IHm IHp].
    assert (1 <= length t) as L.
    { destruct T as [n nt w1 args t' N _ _|n nt w1 items t' N _ _]; rewrite app_length; apply name_len in N; lia. }
    split.
    + intros r n Hn. rewrite !app_length in Hn. destruct n as [|n]; [lia|]. rewrite map_items_S. rewrite <- !app_assoc.
      rewrite gt_blank by auto.
      assert (property_or_map n (w ++ t ++ u ++ s_ "}" ++ r) = Ret (tree_expr x, u ++ s_ "}" ++ r)) as E.
      { destruct n as [|n]; [lia|]. rewrite property_or_map_S, gt_blank, <- property_or_map_S by auto. apply IHx. lia. }
      destruct (IHm r n) as (w' & Hw' & E2); [lia|]. exists w'. split; auto. rewrite E. cbn [bind]. rewrite E2.
      destruct (tree_token x t (u ++ s_ "}" ++ r) T) as [(a & b & ->)|(a & b & ->)]; reflexivity.
    + intros n Hn. rewrite !app_length in Hn. destruct n as [|n]; [lia|]. rewrite parse_program_S.
      rewrite gt_blank by auto.
      assert (property_or_map n (w ++ t ++ u) = Ret (tree_expr x, u)) as E.
      { destruct n as [|n]; [lia|]. rewrite property_or_map_S, gt_blank, <- property_or_map_S by auto. apply IHx. lia. }
      rewrite E. cbn [bind]. rewrite IHp by lia.
      destruct (tree_token x t u T) as [(a & b & ->)|(a & b & ->)]; reflexivity.
Qed.

Lemma program_ok xs t : trees_text xs t -> plist_parse t = Ret (map tree_expr xs).
Proof. intro T. apply (proj2 trees_ok _ _ T). lia. Qed.

(** every string can be written quoted *)
Fixpoint quote_body (q : ascii) (v : str) : str :=
  match v with
  | [] => []
  | c :: r => if Ascii.eqb c q || Ascii.eqb c c_bs then c_bs :: c :: quote_body q r else c :: quote_body q r
  end.
Lemma quote_ok q v : quoted_body q (quote_body q v) v.
Proof.
  induction v as [|c v IH]; cbn; [constructor|]. destruct (Ascii.eqb_spec c q); cbn [orb]; [now constructor|].
  destruct (Ascii.eqb_spec c c_bs); now constructor.
Qed.

(** an unclosed parenthesis *)
Lemma unclosed_paren nm nt w1 w2 f w3 args t : name_text nm nt -> blank w1 -> blank w2 -> word f -> blank w3 ->
  args_text args t ->
  plist_parse (nt ++ w1 ++ s_ ":" ++ w2 ++ f ++ w3 ++ s_ "(" ++ t ++ s_ ";") =
  Ret [tree_expr (Prop_ nm [VFn f args])].
Proof.
  intros N H1 H2 W H3 A. unfold plist_parse.
  match goal with |- parse_program ?n ?s = _ => set (fuel := n); assert (4 * length s + 4 <= fuel) as Hf by (unfold fuel; lia); clearbody fuel end.
  rewrite !app_length in Hf. cbn [length s_ list_ascii_of_string] in Hf.
  destruct fuel as [|n]; [lia|]. rewrite parse_program_S.
  assert (get_token (w1 ++ s_ ":" ++ w2 ++ f ++ w3 ++ s_ "(" ++ t ++ s_ ";") =
          Some (PColon, w2 ++ f ++ w3 ++ s_ "(" ++ t ++ s_ ";")) as E1 by now rewrite gt_blank.
  assert (property_or_map n (nt ++ w1 ++ s_ ":" ++ w2 ++ f ++ w3 ++ s_ "(" ++ t ++ s_ ";") =
          Ret (tree_expr (Prop_ nm [VFn f args]), [])) as E.
  { destruct n as [|n]; [lia|]. rewrite property_or_map_S.
    assert (parse_values n (w2 ++ f ++ w3 ++ s_ "(" ++ t ++ s_ ";") = 
       match parse_values (n - 2) (t ++ s_ ";") with
       | Ret (vs, r) => match get_token r with
                        | Some (PSemi, r') => Ret ([EList (ELit f :: vs)], r) | _ => Err end
       | _ => Err end) as E2.
    { destruct (proj2 values_ok _ _ A (s_ ";") (n - 2)) as (w & Hw & E2); [exists ";"%char, []; auto|lia|].
      rewrite E2. destruct n as [|[|n]]; [lia|lia|]. replace (S (S n) - 2) with n in * by lia.
      rewrite parse_values_S, gt_blank by auto. rewrite gt_word by (auto; apply blank_stopped; auto).
      rewrite parse_value_S, gt_blank by auto. rewrite gt_word by (auto; apply blank_stopped; auto).
      rewrite gt_blank by auto.
      change (get_token (s_ "(" ++ t ++ s_ ";")) with (Some (PLParen, t ++ s_ ";")). cbn match.
      rewrite E2. cbn [bind]. rewrite gt_blank by auto. change (get_token (s_ ";")) with (Some (PSemi, @nil ascii)). cbn match.
      rewrite parse_values_S, gt_blank by auto. reflexivity. }
    destruct (proj2 values_ok _ _ A (s_ ";") (n - 2)) as (w & Hw & E3); [exists ";"%char, []; auto|lia|].
    rewrite E3 in E2. cbn match in E2. rewrite gt_blank in E2 by auto.
    change (get_token (s_ ";")) with (Some (PSemi, @nil ascii)) in E2. cbn match in E2.
    destruct (name_token nm nt (w1 ++ s_ ":" ++ w2 ++ f ++ w3 ++ s_ "(" ++ t ++ s_ ";") N) as [-> | ->];
      [now apply blank_stopped| |]; rewrite E1, E2; cbn [bind]; rewrite gt_blank by auto; reflexivity. }
  rewrite E. cbn [bind].
  assert (parse_program n [] = Ret []) as -> by (destruct n; [lia|reflexivity]).
  destruct (name_token nm nt (w1 ++ s_ ":" ++ w2 ++ f ++ w3 ++ s_ "(" ++ t ++ s_ ";") N) as [-> | ->];
      [now apply blank_stopped| |]; reflexivity.
Qed.

(* -- C17 -- *)
Lemma scan_app m a b : scan m (a ++ b) = scan (scan m a) b.
Proof. revert m; induction a as [|c a IH]; intro m; cbn; auto. Qed.
Lemma count_app x m a b : count_out x m (a ++ b) = count_out x m a + count_out x (scan m a) b.
Proof. revert m; induction a as [|c a IH]; intro m; cbn; auto. rewrite IH. lia. Qed.

Definition brackets : list ascii := s_ "(){}".
Definition weight (t : ptok) (x : ascii) : nat :=
  match t with
  | PLParen => if Ascii.eqb x "("%char then 1 else 0
  | PRParen => if Ascii.eqb x ")"%char then 1 else 0
  | PLBrace => if Ascii.eqb x "{"%char then 1 else 0
  | PRBrace => if Ascii.eqb x "}"%char then 1 else 0
  | _ => 0
  end.
(** One token: a prefix with the token's brackets, or a string that never ends. *)
Definition one (t : ptok) (s r : str) : Prop :=
  (exists p, s = p ++ r /\ scan Outside p = Outside /\ length r < length s /\
     forall x, In x brackets -> count_out x Outside p = weight t x) \/
  (r = [] /\ s <> [] /\ scan Outside s <> Outside).

Lemma one_ws c t s r : pws c = true -> one t s r -> one t (c :: s) r.
Proof.
  intros Hc [(p & -> & S & L & C)|(-> & NE & S)].
  - left. exists (c :: p). cbn [app length scan count_out]. assert (scan1 Outside c = Outside) as ->
      by (revert Hc; ascii_cases c; cbn; intro H; try discriminate H; reflexivity).
    split; [reflexivity|split; [exact S|split; [cbn in L; lia|]]]. intros x Hx. rewrite C by auto.
    enough ((if Ascii.eqb c x then 1 else 0) = 0) as -> by reflexivity.
    destruct (Ascii.eqb_spec c x); auto. subst. exfalso. revert Hx. revert Hc. ascii_cases x; cbn; intros H; try discriminate H; intuition discriminate.
  - right. repeat split; [discriminate|]. cbn [scan].
    assert (scan1 Outside c = Outside) as -> by (revert Hc; ascii_cases c; cbn; intro H; try discriminate H; reflexivity).
    exact S.
Qed.

Lemma read_word_prefix s w r : read_word s = (w, r) -> s = w ++ r /\ Forall (fun c => word_stop c = false) w.
Proof.
  revert w r; induction s as [|c s IH]; intros w r; cbn.
  - intro E; injection E; intros; subst. auto.
  - destruct (word_stop c) eqn:S; [intro E; injection E; intros; subst; auto|].
    destruct (read_word s) as [w' r'] eqn:R. intro E; injection E; intros; subst.
    destruct (IH _ _ eq_refl) as (-> & F). auto.
Qed.
Lemma word_scan w : Forall (fun c => word_stop c = false) w -> scan Outside w = Outside /\
  forall x, In x brackets -> count_out x Outside w = 0.
Proof.
  induction 1 as [|c w Hc H [IH1 IH2]]; cbn; auto.
  assert ((if Ascii.eqb c c_dq || Ascii.eqb c c_sq then Inside c else Outside) = Outside) as E
    by (revert Hc; ascii_cases c; cbn; intro Q; try discriminate Q; reflexivity).
  rewrite E. split; auto. intros x Hx. rewrite IH2 by auto.
  destruct (Ascii.eqb_spec c x); auto. subst. exfalso. revert Hx Hc. clear. ascii_cases x; cbn; intros H Q; try discriminate Q; intuition discriminate.
Qed.

Lemma read_quoted_scan q s : q = c_dq \/ q = c_sq -> forall e v r, read_quoted q e s = (v, r) ->
  let m := if e then Escaped q else Inside q in
  (exists p, s = p ++ r /\ scan m p = Outside /\ p <> [] /\ forall x, count_out x m p = 0) \/
  (r = [] /\ scan m s <> Outside).
Proof.
  intro Hq. induction s as [|c s IH]; intros e v r E; cbn [read_quoted] in E.
  - injection E; intros; subst. right. split; auto. destruct e; discriminate.
  - assert (forall e' : bool, (let m := if e then Escaped q else Inside q in scan1 m c = if e' then Escaped q else Inside q) ->
       read_quoted q e' s = (v, r) \/ (exists v', read_quoted q e' s = (v', r)) ->
       let m := if e then Escaped q else Inside q in
       (exists p, c :: s = p ++ r /\ scan m p = Outside /\ p <> [] /\ forall x, count_out x m p = 0) \/
       (r = [] /\ scan m (c :: s) <> Outside)) as K.
    { cbn. intros e' Es R. assert (exists v', read_quoted q e' s = (v', r)) as (v' & R') by (destruct R; eauto).
      destruct (IH _ _ _ R') as [(p & -> & S & NE & C)|(-> & S)].
      - left. exists (c :: p). cbn [app scan count_out]. rewrite Es. split; [reflexivity|split; [exact S|split; [discriminate|]]].
        intro x. rewrite C. destruct e; reflexivity.
      - right. split; auto. now rewrite Es. }
    destruct (Ascii.eqb c c_dq || Ascii.eqb c c_sq) eqn:Q.
    + destruct (e || negb (Ascii.eqb q c)) eqn:EN.
      * apply (K false).
        -- destruct e; [reflexivity|]. cbn in EN |- *. rewrite (Ascii.eqb_sym c q). destruct (Ascii.eqb q c); [discriminate|].
           destruct (Ascii.eqb_spec c c_bs); [subst; discriminate|reflexivity].
        -- destruct (read_quoted q false s) as [v' r'] eqn:R. injection E; intros; subst. eauto.
      * injection E; intros; subst. apply orb_false_iff in EN as [-> EN]. left. exists [c]. cbn.
        rewrite (Ascii.eqb_sym c q). destruct (Ascii.eqb q c); [|discriminate].
        split; [reflexivity|split; [reflexivity|split; [discriminate|reflexivity]]].
    + apply orb_false_iff in Q as [Q1 Q2].
      assert (Ascii.eqb c q = false) as Qq by (destruct Hq as [-> | ->]; auto).
      destruct (Ascii.eqb c c_bs) eqn:B.
      * destruct e.
        -- apply (K false); [reflexivity|]. destruct (read_quoted q false s) as [v' r'] eqn:R. injection E; intros; subst. eauto.
        -- apply (K true); [cbn; now rewrite Qq, B|]. eauto.
      * apply (K false); [destruct e; [reflexivity|cbn; now rewrite Qq, B]|].
        destruct (read_quoted q false s) as [v' r'] eqn:R. injection E; intros; subst. eauto.
Qed.

Lemma get_token_ws c s : pws c = true -> get_token (c :: s) = get_token s.
Proof. intro H. unfold get_token. cbn [skip_ws]. now rewrite H. Qed.

Lemma get_token_one s t r : get_token s = Some (t, r) -> one t s r.
Proof.
  induction s as [|c s IH]; [discriminate|]. destruct (pws c) eqn:W.
  - rewrite get_token_ws by auto. intro H. apply one_ws; auto.
  - intro H. destruct (word_stop c) eqn:S.
    + assert (forall t' : ptok, get_token (c :: s) = Some (t', s) -> scan1 Outside c = Outside ->
        (forall x, In x brackets -> (if Ascii.eqb c x then 1 else 0) = weight t' x) -> one t (c :: s) r) as K.
      { intros t' E Sc Wt. rewrite E in H. injection H; intros; subst. left. exists [c]. cbn [app length scan count_out].
        rewrite Sc. split; [reflexivity|split; [reflexivity|split; [lia|]]]. intros x Hx. rewrite Wt by auto. lia. }
      assert (forall q, (q = c_dq \/ q = c_sq) -> get_token (c :: s) = (let '(v, rest) := read_quoted q false s in Some (PQuoted v, rest)) ->
         c = q -> one t (c :: s) r) as KQ.
      { intros q Hq E ->. rewrite E in H. destruct (read_quoted q false s) as [v r'] eqn:R. injection H; intros; subst.
        assert (scan1 Outside q = Inside q) as Sc by (destruct Hq as [-> | ->]; reflexivity).
        destruct (read_quoted_scan q s Hq false v r R) as [(p & -> & S1 & NE & C)|(-> & S1)].
        - left. exists (q :: p). cbn [app length scan count_out]. rewrite Sc. split; [reflexivity|split; [exact S1|split]].
          + rewrite app_length. destruct p; [congruence|]. cbn. lia.
          + intros x Hx. rewrite C. cbn [weight]. destruct (Ascii.eqb_spec q x); auto. subst. exfalso.
            revert Hx Hq. clear. cbn. intuition (subst; discriminate).
        - right. split; auto. split; [discriminate|]. cbn [scan]. now rewrite Sc. }
      revert W S K KQ. clear H. ascii_cases c; intros W S; try discriminate W; try discriminate S; intros K KQ;
        first [ apply (KQ c_dq); [now left|reflexivity|reflexivity]
              | apply (KQ c_sq); [now right|reflexivity|reflexivity]
              | eapply K; [reflexivity|reflexivity|intros x Hx; cbn in Hx; intuition (subst; reflexivity)] ].
    + rewrite gt_plain in H by auto. destruct (read_word (c :: s)) as [w r'] eqn:R. injection H; intros; subst.
      pose proof (read_word_prefix _ _ _ R) as (E & F). destruct (word_scan w F) as (Sc & C). left. exists w.
      split; [exact E|split; [exact Sc|split; [|exact C]]]. rewrite E. rewrite app_length.
      destruct w; [|cbn; lia]. exfalso. cbn in R. rewrite S in R. destruct (read_word s). discriminate.
Qed.
Lemma get_token_none s : get_token s = None -> scan Outside s = Outside /\ forall x, In x brackets -> count x s = 0.
Proof.
  induction s as [|c s IH]; [split; auto|]. destruct (pws c) eqn:W.
  - rewrite get_token_ws by auto. intro H. destruct (IH H) as (A & B). cbn [scan].
    assert (scan1 Outside c = Outside) as E by (revert W; clear; ascii_cases c; cbn; intro H; try discriminate H; reflexivity).
    rewrite E. split; auto. intros x Hx. unfold count. cbn [count_out]. rewrite E. specialize (B x Hx). unfold count in B. rewrite B.
    destruct (Ascii.eqb_spec c x); auto. subst. exfalso. revert Hx W. clear. ascii_cases x; cbn; intros H Q; try discriminate Q; intuition discriminate.
  - unfold get_token. cbn [skip_ws]. rewrite W. intro H. exfalso. revert H.
    destruct (read_word (c :: s)) as [w r']. destruct (read_quoted c false s) as [v r].
    ascii_cases c; discriminate.
Qed.

Definition clean (s s' : str) : Prop := exists p, s = p ++ s' /\ scan Outside p = Outside /\
  count "{"%char p = count "}"%char p /\ count ")"%char p <= count "("%char p.
Definition broken (s s' : str) : Prop := s' = [] /\ scan Outside s <> Outside.

Lemma clean_refl s : clean s s.
Proof. exists []. repeat split; auto. Qed.
Lemma clean_trans a b c : clean a b -> clean b c -> clean a c.
Proof.
  intros (p & -> & S & B & P) (q & -> & S' & B' & P'). exists (p ++ q). unfold count in *.
  rewrite !count_app, !scan_app, S. repeat split; auto; try lia. now rewrite app_assoc.
Qed.
Lemma clean_broken a b c : clean a b -> broken b c -> broken a c.
Proof. intros (p & -> & S & _) (-> & N). split; auto. rewrite scan_app, S. exact N. Qed.

Definition plain_tok (t : ptok) : Prop := match t with PLBrace | PRBrace | PRParen => False | _ => True end.
Lemma one_clean t s r : plain_tok t -> one t s r -> clean s r \/ broken s r.
Proof.
  intros Ht [(p & -> & S & _ & C)|(-> & _ & N)].
  - left. exists p. repeat split; auto; unfold count; rewrite !C by (cbn; tauto); destruct t; cbn in *; try tauto; lia.
  - right. split; auto.
Qed.
(** for tokens that are not strings the input cannot be inside one *)
Definition no_string (t : ptok) : Prop := match t with PString _ | PQuoted _ => False | _ => True end.
Lemma token_split t s r : get_token s = Some (t, r) -> no_string t -> exists p, s = p ++ r /\ scan Outside p = Outside /\
  forall x, In x brackets -> count_out x Outside p = weight t x.
Proof.
  intros H Ht. induction s as [|c s IH]; [discriminate|]. destruct (pws c) eqn:W.
  - rewrite get_token_ws in H by auto. destruct (IH H) as (p & -> & S & C). exists (c :: p).
    assert (scan1 Outside c = Outside) as E by (revert W; clear; ascii_cases c; cbn; intro H; try discriminate H; reflexivity).
    cbn [app scan count_out]. rewrite E. repeat split; auto. intros x Hx. rewrite C by auto.
    destruct (Ascii.eqb_spec c x); auto. subst. exfalso. revert Hx W. clear. ascii_cases x; cbn; intros H Q; try discriminate Q; intuition discriminate.
  - assert (forall t' : ptok, get_token (c :: s) = Some (t', s) -> scan1 Outside c = Outside ->
        (forall x, In x brackets -> (if Ascii.eqb c x then 1 else 0) = weight t' x) -> exists p, c :: s = p ++ r /\ scan Outside p = Outside /\
        forall x, In x brackets -> count_out x Outside p = weight t x) as K.
    { intros t' E Sc Wt. rewrite E in H. injection H; intros; subst. exists [c]. cbn [app scan count_out].
      rewrite Sc. repeat split; auto. intros x Hx. rewrite Wt by auto. lia. }
    destruct (word_stop c) eqn:S.
    + assert ((Ascii.eqb c c_dq || Ascii.eqb c c_sq) = true -> False) as NQ.
      { intro Q. apply orb_prop in Q. destruct Q as [Q|Q]; apply Ascii.eqb_eq in Q; subst c; [rewrite gt_dq in H|rewrite gt_sq in H].
        - destruct (read_quoted c_dq false s) as [v r']. injection H; intros; subst; contradiction.
        - destruct (read_quoted c_sq false s) as [v r']. injection H; intros; subst; contradiction. }
      revert W S K NQ. clear H. ascii_cases c; intros W S; try discriminate W; try discriminate S; intros K NQ;
        first [ exfalso; apply NQ; reflexivity
              | eapply K; [reflexivity|reflexivity|intros x Hx; cbn in Hx; intuition (subst; reflexivity)] ].
    + rewrite gt_plain in H by auto. destruct (read_word (c :: s)) as [w r'] eqn:R. injection H; intros; subst. contradiction.
Qed.

Ltac q4 := split; [now rewrite ?app_assoc|split; [auto|split; cbn; lia]].

Lemma values_clean n : (forall s vs s', parse_values n s = Ret (vs, s') -> clean s s' \/ broken s s') /\
                       (forall s v s', parse_value n s = Ret (v, s') -> clean s s' \/ broken s s').
Proof.
  induction n as [|n [IH1 IH2]]; [split; discriminate|]. split.
  - intros s vs s'. rewrite parse_values_S. destruct (get_token s) as [[t r]|] eqn:G.
    2:{ intro E; injection E; intros; subst. left. apply clean_refl. }
    assert (forall v s1 vs' s2, parse_value n s = Ret (v, s1) -> parse_values n s1 = Ret (vs', s2) -> s2 = s' ->
        clean s s' \/ broken s s') as K.
    { intros v s1 vs' s2 E1 E2 <-. apply IH2 in E1. destruct E1 as [C1|B1].
      - apply IH1 in E2 as [C2|B2]; [left; eapply clean_trans; eauto|right; eapply clean_broken; eauto].
      - right. destruct B1 as [-> N]. destruct n as [|n]; [discriminate|]. cbn in E2. injection E2; intros; subst. split; auto. }
    destruct t; try discriminate.
    1-2: destruct (parse_value n s) as [[v s1]| | | |] eqn:E1; try discriminate; cbn [bind];
      destruct (parse_values n s1) as [[vs' s2]| | | |] eqn:E2; try discriminate; cbn [bind];
      intro E; injection E; intros; subst; eapply K; eauto.
    + intro E. apply IH1 in E. destruct (token_split PComma _ _ G I) as (p & -> & S & C). destruct E as [E|E].
      * left. eapply clean_trans; [|exact E]. exists p. repeat split; auto; unfold count; rewrite !C by (cbn; tauto); cbn; lia.
      * right. eapply clean_broken; [|exact E]. exists p. repeat split; auto; unfold count; rewrite !C by (cbn; tauto); cbn; lia.
    + intro E; injection E; intros; subst. left. apply clean_refl.
    + intro E; injection E; intros; subst. left. apply clean_refl.
  - intros s v s'. rewrite parse_value_S. destruct (get_token s) as [[t r]|] eqn:G; [|discriminate].
    destruct t; try discriminate.
    + destruct (one_clean (PString s0) _ _ I (get_token_one _ _ _ G)) as [C|B].
      * destruct (get_token r) as [[t1 r1]|] eqn:G1; [|intro E; injection E; intros; subst; auto].
        destruct t1; try (intro E; injection E; intros; subst; auto).
        destruct (parse_values n r1) as [[args s1]| | | |] eqn:E1; try discriminate. cbn [bind].
        intro E; injection E; intros Es Ev; subst. clear E.
        destruct (token_split _ _ _ G1 ltac:(exact I)) as (p & -> & S & Cp).
        apply IH1 in E1 as [C1|B1].
        -- left. eapply clean_trans; [exact C|]. destruct C1 as (p1 & -> & S1 & B1 & P1).
           destruct (get_token s1) as [[t2 r2]|] eqn:G2.
           2:{ exists (p ++ p1). unfold count in *. rewrite !count_app, !scan_app, S, !Cp by (cbn; tauto). cbn [weight Ascii.eqb].
               q4. }
           destruct t2.
           all: try (exists (p ++ p1); unfold count in *; rewrite !count_app, !scan_app, S, !Cp by (cbn; tauto); cbn;
                q4).
           destruct (token_split _ _ _ G2 ltac:(exact I)) as (p2 & -> & S2 & Cp2). exists (p ++ p1 ++ p2). unfold count in *.
                rewrite !count_app, !scan_app, S, S1, !Cp, !Cp2 by (cbn; tauto). cbn.
                q4.
        -- right. destruct B1 as [-> N]. cbn. eapply clean_broken; [exact C|]. split; auto. rewrite scan_app, S. exact N.
      * destruct B as [-> N]. cbn. intro E; injection E; intros; subst. right. split; auto.
    + destruct (one_clean (PQuoted s0) _ _ I (get_token_one _ _ _ G)) as [C|B]; intro E; injection E; intros; subst; auto.
Qed.

Lemma trees_clean n : (forall s x s', property_or_map n s = Ret (x, s') -> clean s s') /\
                      (forall s xs s', map_items n s = Ret (xs, s') -> clean s s').
Proof.
  induction n as [|n [IH1 IH2]]; [split; discriminate|]. split.
  - intros s x s'. rewrite property_or_map_S. destruct (get_token s) as [[t r]|] eqn:G; [|discriminate].
    assert (forall name, (forall E : t = PString name \/ t = PQuoted name, plain_tok t -> 
      match get_token r with
          | Some (PColon, r1) =>
              let* (args, s1) := parse_values n r1 in
              match get_token s1 with
              | Some (PSemi, r2) => Ret (EList (ELit name :: args), r2)
              | _ => Err
              end
          | Some (PLBrace, r1) =>
              let* (items, s1) := map_items n r1 in
              match get_token s1 with
              | Some (PRBrace, r2) => Ret (EList (ELit name :: items), r2)
              | _ => Err
              end
          | _ => Err
          end = Ret (x, s') -> clean s s')) as K.
    { intros name Et Pt. destruct (one_clean _ _ _ Pt (get_token_one _ _ _ G)) as [C|B]; [|destruct B as [-> N]; discriminate].
      destruct (get_token r) as [[t1 r1]|] eqn:G1; [|discriminate]. destruct t1; try discriminate.
      - destruct (parse_values n r1) as [[args s1]| | | |] eqn:E1; try discriminate. cbn [bind].
        destruct (get_token s1) as [[t2 r2]|] eqn:G2; [|discriminate]. destruct t2; try discriminate.
        intro E; injection E; intros; subst. apply (proj1 (values_clean n)) in E1 as [C1|[-> _]]; [|discriminate].
        eapply clean_trans; [exact C|]. eapply clean_trans; [|eapply clean_trans; [exact C1|]].
        + destruct (token_split _ _ _ G1 ltac:(exact I)) as (p & -> & S & Cp). exists p. repeat split; auto; unfold count; rewrite !Cp by (cbn; tauto); cbn; lia.
        + destruct (token_split _ _ _ G2 ltac:(exact I)) as (p & -> & S & Cp). exists p. repeat split; auto; unfold count; rewrite !Cp by (cbn; tauto); cbn; lia.
      - destruct (map_items n r1) as [[args s1]| | | |] eqn:E1; try discriminate. cbn [bind].
        destruct (get_token s1) as [[t2 r2]|] eqn:G2; [|discriminate]. destruct t2; try discriminate.
        intro E; injection E; intros; subst. apply IH2 in E1.
        eapply clean_trans; [exact C|].
        destruct (token_split _ _ _ G1 ltac:(exact I)) as (p & -> & S & Cp). destruct E1 as (p1 & -> & S1 & B1 & P1).
        destruct (token_split _ _ _ G2 ltac:(exact I)) as (p2 & -> & S2 & Cp2). exists (p ++ p1 ++ p2). unfold count in *.
        rewrite !count_app, !scan_app, S, S1, !Cp, !Cp2 by (cbn; tauto). cbn.
        q4. }
    destruct t; try discriminate; apply K; cbn; auto.
  - intros s xs s'. rewrite map_items_S. destruct (get_token s) as [[t r]|] eqn:G.
    2:{ intro E; injection E; intros; subst. apply clean_refl. }
    assert ((let* (x, s1) := property_or_map n s in let* (xs, s2) := map_items n s1 in Ret (x :: xs, s2)) = Ret (xs, s') -> clean s s') as K.
    { destruct (property_or_map n s) as [[x s1]| | | |] eqn:E1; try discriminate. cbn [bind].
      destruct (map_items n s1) as [[xs' s2]| | | |] eqn:E2; try discriminate. cbn [bind].
      intro E; injection E; intros; subst. eapply clean_trans; eauto. }
    destruct t; try exact K. intro E; injection E; intros; subst. apply clean_refl.
Qed.

Lemma program_clean n : forall s xs, parse_program n s = Ret xs ->
  scan Outside s = Outside /\ count "{"%char s = count "}"%char s /\ count ")"%char s <= count "("%char s.
Proof.
  induction n as [|n IH]; [discriminate|]. intros s xs. rewrite parse_program_S. destruct (get_token s) as [[t r]|] eqn:G.
  - destruct (property_or_map n s) as [[x s1]| | | |] eqn:E1; try discriminate. cbn [bind].
    destruct (parse_program n s1) as [xs'| | | |] eqn:E2; try discriminate. intros _.
    apply (proj1 (trees_clean n)) in E1 as (p & -> & S & B & P). apply IH in E2 as (S' & B' & P').
    unfold count in *. rewrite !count_app, !scan_app, S. repeat split; auto; lia.
  - intros _. destruct (get_token_none _ G) as (S & C). rewrite !C by (cbn; tauto). auto.
Qed.

(* -- totality -- *)
Lemma token_len s t r : get_token s = Some (t, r) -> length r < length s.
Proof.
  intro G. destruct (get_token_one _ _ _ G) as [(p & _ & _ & L & _)|(-> & NE & _)]; auto.
  destruct s; [congruence|]. cbn. lia.
Qed.
Definition returns {A} (o : outcome A) : Prop := (exists v, o = Ret v) \/ o = Err.
Lemma values_total n : (forall s, 2 * length s + 2 <= n -> returns (parse_values n s) /\ forall vs s', parse_values n s = Ret (vs, s') -> length s' <= length s) /\
                       (forall s, 2 * length s + 1 <= n -> returns (parse_value n s) /\ forall v s', parse_value n s = Ret (v, s') -> length s' < length s).
Proof.
  induction n as [|n [IH1 IH2]]; [split; intros; lia|]. split.
  - intros s Hn. rewrite parse_values_S. destruct (get_token s) as [[t r]|] eqn:G.
    2:{ split; [left; eauto|]. intros vs s' E; injection E; intros; subst. auto. }
    pose proof (token_len _ _ _ G) as L.
    assert (let o := (let* (v, s1) := parse_value n s in let* (vs, s2) := parse_values n s1 in Ret (v :: vs, s2)) in
        returns o /\ forall vs s', o = Ret (vs, s') -> length s' <= length s) as K.
    { destruct (IH2 s ltac:(lia)) as [[([v s1] & E)|E] Q]; cbn zeta; rewrite E; cbn [bind]; [|split; [now right|discriminate]].
      specialize (Q _ _ E). destruct (IH1 s1 ltac:(lia)) as [[([vs s2] & E2)|E2] Q2]; rewrite E2; cbn [bind]; [|split; [now right|discriminate]].
      specialize (Q2 _ _ E2). split; [left; eauto|]. intros vs' s' X; injection X; intros; subst. lia. }
    destruct t; try exact K; try (split; [now right|discriminate]); try (split; [left; eauto|intros vs s' E; injection E; intros; subst; auto]).
    destruct (IH1 r ltac:(lia)) as [R Q]. split; auto. intros vs s' E. specialize (Q _ _ E). lia.
  - intros s Hn. rewrite parse_value_S. destruct (get_token s) as [[t r]|] eqn:G; [|split; [now right|discriminate]].
    pose proof (token_len _ _ _ G) as L. destruct t; try (split; [now right|discriminate]).
    + destruct (get_token r) as [[t1 r1]|] eqn:G1; [|split; [left; eauto|intros v s' E; injection E; intros; subst; auto]].
      pose proof (token_len _ _ _ G1) as L1.
      destruct t1; try (split; [left; eauto|intros v s' E; injection E; intros; subst; auto]).
      destruct (IH1 r1 ltac:(lia)) as [[([vs s1] & E)|E] Q]; rewrite E; cbn [bind]; [|split; [now right|discriminate]].
      specialize (Q _ _ E). split; [left; eauto|]. intros v s' X; injection X; intros; subst.
      destruct (get_token s1) as [[t2 r2]|] eqn:G2; [|lia]. pose proof (token_len _ _ _ G2). destruct t2; lia.
    + split; [left; eauto|]. intros v s' E; injection E; intros; subst; auto.
Qed.
Lemma trees_total n : (forall s, 2 * length s + 2 <= n -> returns (property_or_map n s) /\ forall x s', property_or_map n s = Ret (x, s') -> length s' < length s) /\
                      (forall s, 2 * length s + 3 <= n -> returns (map_items n s) /\ forall xs s', map_items n s = Ret (xs, s') -> length s' <= length s).
Proof.
  induction n as [|n [IH1 IH2]]; [split; intros; lia|]. split.
  - intros s Hn. rewrite property_or_map_S. destruct (get_token s) as [[t r]|] eqn:G; [|split; [now right|discriminate]].
    pose proof (token_len _ _ _ G) as L.
    assert (forall name, let o := match get_token r with
          | Some (PColon, r1) =>
              let* (args, s1) := parse_values n r1 in
              match get_token s1 with
              | Some (PSemi, r2) => Ret (EList (ELit name :: args), r2)
              | _ => Err
              end
          | Some (PLBrace, r1) =>
              let* (items, s1) := map_items n r1 in
              match get_token s1 with
              | Some (PRBrace, r2) => Ret (EList (ELit name :: items), r2)
              | _ => Err
              end
          | _ => Err
          end in returns o /\ forall x s', o = Ret (x, s') -> length s' < length s) as K.
    { intro name. cbn zeta. destruct (get_token r) as [[t1 r1]|] eqn:G1; [|split; [now right|discriminate]].
      pose proof (token_len _ _ _ G1) as L1.
      destruct t1; try (split; [now right|discriminate]).
      - destruct (proj1 (values_total n) r1 ltac:(lia)) as [[([vs s1] & E)|E] Q]; rewrite E; cbn [bind]; [|split; [now right|discriminate]].
        specialize (Q _ _ E). destruct (get_token s1) as [[t2 r2]|] eqn:G2; [|split; [now right|discriminate]].
        pose proof (token_len _ _ _ G2). destruct t2; try (split; [now right|discriminate]).
        split; [left; eauto|]. intros x s' X; injection X; intros; subst. lia.
      - destruct (IH2 r1 ltac:(lia)) as [[([vs s1] & E)|E] Q]; rewrite E; cbn [bind]; [|split; [now right|discriminate]].
        specialize (Q _ _ E). destruct (get_token s1) as [[t2 r2]|] eqn:G2; [|split; [now right|discriminate]].
        pose proof (token_len _ _ _ G2). destruct t2; try (split; [now right|discriminate]).
        split; [left; eauto|]. intros x s' X; injection X; intros; subst. lia. }
    destruct t; try apply K; (split; [now right|discriminate]).
  - intros s Hn. rewrite map_items_S. destruct (get_token s) as [[t r]|] eqn:G.
    2:{ split; [left; eauto|]. intros vs s' E; injection E; intros; subst. auto. }
    assert (let o := (let* (x, s1) := property_or_map n s in let* (xs, s2) := map_items n s1 in Ret (x :: xs, s2)) in
        returns o /\ forall vs s', o = Ret (vs, s') -> length s' <= length s) as K.
    { destruct (IH1 s ltac:(lia)) as [[([v s1] & E)|E] Q]; cbn zeta; rewrite E; cbn [bind]; [|split; [now right|discriminate]].
      specialize (Q _ _ E). destruct (IH2 s1 ltac:(lia)) as [[([vs s2] & E2)|E2] Q2]; rewrite E2; cbn [bind]; [|split; [now right|discriminate]].
      specialize (Q2 _ _ E2). split; [left; eauto|]. intros vs' s' X; injection X; intros; subst. lia. }
    destruct t; try exact K. split; [left; eauto|]. intros vs s' E; injection E; intros; subst. auto.
Qed.
Lemma program_total n : forall s, 2 * length s + 3 <= n -> returns (parse_program n s).
Proof.
  induction n as [|n IH]; intros s Hn; [lia|]. rewrite parse_program_S. destruct (get_token s) as [[t r]|]; [|left; eauto].
  destruct (proj1 (trees_total n) s ltac:(lia)) as [[([v s1] & E)|E] Q]; rewrite E; cbn [bind]; [|now right].
  specialize (Q _ _ E). destruct (IH s1 ltac:(lia)) as [(xs & ->)| ->]; [left; eexists; reflexivity|now right].
Qed.
Lemma plist_total s : returns (plist_parse s).
Proof. apply program_total. lia. Qed.
