(** The parser as a machine that reads one token after the other. *)
From Verif Require Import Base Sexpr_Model Plist_Model Plist_Spec Plist_Proofs PlistSay_Model PlistSay_Spec.
From Coq Require Import Lia.

Inductive st := Item (d : nat) | Name (d : nat) | Vals (d p : nat) (w : bool).
Definition open_paren : str := wants "RPAREN" PSemi.
Definition step (x : st) (m : str) (t : ptok) : (st * str) + str :=
  match x with
  | Item d => match t, d with
              | PString _, _ | PQuoted _, _ => inl (Name d, m)
              | PRBrace, S d => inl (Item d, m)
              | _, _ => inr (wants "STRING" t)
              end
  | Name d => match t with
              | PColon => inl (Vals d 0 false, m)
              | PLBrace => inl (Item (S d), m)
              | _ => inr (wants_colon t)
              end
  | Vals d p w => match t with
                  | PComma => inl (Vals d p false, m)
                  | PString _ => inl (Vals d p true, m)
                  | PQuoted _ => inl (Vals d p false, m)
                  | PSemi => inl (Item d, match p with O => m | S _ => open_paren end)
                  | PRParen => match p with O => inr (wants "SEMICOLON" PRParen) | S p => inl (Vals d p false, m) end
                  | PLParen => if w then inl (Vals d (S p) false, m) else inr (wants_semicolon t)
                  | _ => inr (wants_semicolon t)
                  end
  end.
Definition finish (x : st) (m : str) : option str :=
  match x with Item O => None | Name _ => Some end_of_file | _ => Some m end.
Fixpoint mrun (n : nat) (x : st) (m s : str) : option str :=
  match n with
  | O => finish x m
  | S n => match get_token s with
           | None => finish x m
           | Some (t, r) => match step x m t with inl (y, m') => mrun n y m' r | inr e => Some e end
           end
  end.
Definition verdict (x : st) (m s : str) : option str := mrun (length s) x m s.

Lemma mrun_enough n : forall x m s, length s <= n -> mrun n x m s = verdict x m s.
Proof.
  induction n as [n IH] using (well_founded_induction Wf_nat.lt_wf). intros x m s L. unfold verdict.
  destruct s as [|c s]; [destruct n; reflexivity|]. destruct n as [|n]; [cbn in L; lia|].
  cbn [length mrun]. destruct (get_token (c :: s)) as [[t r]|] eqn:G; [|reflexivity].
  apply token_len in G. cbn [length] in G, L. destruct (step x m t) as [[y m']|e]; [|reflexivity].
  rewrite (IH n) by lia. symmetry. apply (IH (length s)); lia.
Qed.
Lemma verdict_token x m s t r : get_token s = Some (t, r) ->
  verdict x m s = match step x m t with inl (y, m') => verdict y m' r | inr e => Some e end.
Proof.
  intro G. pose proof (token_len _ _ _ G). unfold verdict. destruct s as [|c s]; [cbn in G; discriminate|].
  cbn [length mrun]. rewrite G. destruct (step x m t) as [[y m']|e]; [|reflexivity]. apply mrun_enough. cbn [length] in H. lia.
Qed.
Lemma verdict_end x m s : get_token s = None -> verdict x m s = finish x m.
Proof. intro G. unfold verdict. destruct s as [|c s]; [reflexivity|]. cbn [length mrun]. now rewrite G. Qed.

Definition no_paren (s : str) : Prop := forall r, get_token s <> Some (PLParen, r).
Definition ends_values (s : str) : Prop :=
  match get_token s with None | Some (PSemi, _) | Some (PRParen, _) => True | _ => False end.

Lemma parse_values_said_S n s m : parse_values_said (S n) s m =
      match get_token s with
      | None => (Ret ([], s), m)
      | Some (PSemi, _) | Some (PRParen, _) => (Ret ([], s), m)
      | Some (PComma, r) => parse_values_said n r m
      | Some (PString _, _) | Some (PQuoted _, _) =>
          sbind (parse_value_said n s m) (fun '(v, s1) m =>
          sbind (parse_values_said n s1 m) (fun '(vs, s2) m => (Ret (v :: vs, s2), m)))
      | Some (t, _) => (Err, wants_semicolon t)
      end.
Proof. reflexivity. Qed.
Lemma parse_value_said_S n s m : parse_value_said (S n) s m =
      match get_token s with
      | Some (PQuoted v, r) => (Ret (EVal v, r), m)
      | Some (PString v, r) =>
          match get_token r with
          | Some (PLParen, r1) =>
              sbind (parse_values_said n r1 m) (fun '(args, s1) m =>
              let '(o, m) := expect_said "RPAREN" is_rparen s1 m in
              (Ret (EList (ELit v :: args), match o with Ret s2 => s2 | _ => s1 end), m))
          | _ => (Ret (ELit v, r), m)
          end
      | Some (t, _) => (Err, s_ "unexpected token '" ++ print_token t ++ s_ "'; expected STRING")
      | None => (Err, m)
      end.
Proof. reflexivity. Qed.
Lemma property_or_map_said_S n s m : property_or_map_said (S n) s m =
      match get_token s with
      | Some (PString name, r) | Some (PQuoted name, r) =>
          match get_token r with
          | Some (PColon, r1) =>
              sbind (parse_values_said n r1 m) (fun '(args, s1) m =>
              sbind (expect_said "SEMICOLON" is_semi s1 m) (fun s2 m => (Ret (EList (ELit name :: args), s2), m)))
          | Some (PLBrace, r1) =>
              sbind (map_items_said n r1 m) (fun '(items, s1) m =>
              sbind (expect_said "RCBRACE" is_rbrace s1 m) (fun s2 m => (Ret (EList (ELit name :: items), s2), m)))
          | Some (t, _) => (Err, wants_colon t)
          | None => (Err, end_of_file)
          end
      | Some (t, _) => (Err, wants "STRING" t)
      | None => (Err, m)
      end.
Proof. reflexivity. Qed.
Lemma map_items_said_S n s m : map_items_said (S n) s m =
      match get_token s with
      | None => (Ret ([], s), m)
      | Some (PRBrace, _) => (Ret ([], s), m)
      | Some _ =>
          sbind (property_or_map_said n s m) (fun '(x, s1) m =>
          sbind (map_items_said n s1 m) (fun '(xs, s2) m => (Ret (x :: xs, s2), m)))
      end.
Proof. reflexivity. Qed.

(** the messages do not change what is accepted *)
Lemma values_same n : (forall s m, fst (parse_values_said n s m) = parse_values n s) /\
  (forall s m, fst (parse_value_said n s m) = parse_value n s).
Proof.
  induction n as [|n [IH1 IH2]]; [split; reflexivity|]. split; intros s m.
  - rewrite parse_values_said_S, parse_values_S. destruct (get_token s) as [[t r]|]; [|reflexivity].
    destruct t; try reflexivity; try apply IH1;
    (rewrite <- (IH2 s m); destruct (parse_value_said n s m) as [o m1]; destruct o as [[v s1]| | | |]; cbn [fst sbind bind]; try reflexivity;
     rewrite <- (IH1 s1 m1); destruct (parse_values_said n s1 m1) as [o m2]; destruct o as [[vs s2]| | | |]; reflexivity).
  - rewrite parse_value_said_S, parse_value_S. destruct (get_token s) as [[t r]|]; [|reflexivity].
    destruct t; try reflexivity. destruct (get_token r) as [[t r1]|]; [|reflexivity]. destruct t; try reflexivity.
    rewrite <- (IH1 r1 m). destruct (parse_values_said n r1 m) as [o m1]. destruct o as [[vs s1]| | | |]; cbn [fst sbind bind]; try reflexivity.
    unfold expect_said. destruct (get_token s1) as [[t r2]|]; [|reflexivity]. destruct t; reflexivity.
Qed.
Lemma trees_same n : (forall s m, fst (property_or_map_said n s m) = property_or_map n s) /\
  (forall s m, fst (map_items_said n s m) = map_items n s).
Proof.
  induction n as [|n [IH1 IH2]]; [split; reflexivity|]. split; intros s m.
  - rewrite property_or_map_said_S, property_or_map_S. destruct (get_token s) as [[t r]|]; [|reflexivity].
    assert (forall s1 m1 k name (vs : list expr), k = PSemi \/ k = PRBrace -> fst (sbind (expect_said (if is_semi k then "SEMICOLON" else "RCBRACE") (if is_semi k then is_semi else is_rbrace) s1 m1)
       (fun s2 m => (Ret (EList (ELit name :: vs), s2), m))) = match get_token s1 with
        Some (t, r2) => if (if is_semi k then is_semi else is_rbrace) t then Ret (EList (ELit name :: vs), r2) else Err | None => Err end) as E.
    { intros. unfold expect_said. destruct (get_token s1) as [[t' r2]|]; [|reflexivity]. destruct (_ t'); reflexivity. }
    pose proof (fun s1 m1 name vs => E s1 m1 PSemi name vs (or_introl eq_refl)) as E1. pose proof (fun s1 m1 name vs => E s1 m1 PRBrace name vs (or_intror eq_refl)) as E2.
    cbn [is_semi] in E1, E2.
    destruct t as [name|name| | | | | | |]; try reflexivity; (destruct (get_token r) as [[t r1]|]; [|reflexivity]; destruct t; try reflexivity);
      first [rewrite <- (proj1 (values_same n) r1 m); destruct (parse_values_said n r1 m) as [o m1]; destruct o as [[vs s1]| | | |]; cbn [fst sbind bind]; try reflexivity;
             rewrite (E1 s1 m1 name vs)
      |rewrite <- (IH2 r1 m); destruct (map_items_said n r1 m) as [o m1]; destruct o as [[vs s1]| | | |]; cbn [fst sbind bind]; try reflexivity;
             rewrite (E2 s1 m1 name vs)]; (destruct (get_token s1) as [[t r2]|]; [destruct t; reflexivity|reflexivity]).
  - rewrite map_items_said_S, map_items_S. destruct (get_token s) as [[t r]|]; [|reflexivity].
    destruct t; try reflexivity;
    (rewrite <- (IH1 s m); destruct (property_or_map_said n s m) as [o m1]; destruct o as [[v s1]| | | |]; cbn [fst sbind bind]; try reflexivity;
     rewrite <- (IH2 s1 m1); destruct (map_items_said n s1 m1) as [o m2]; destruct o as [[vs s2]| | | |]; reflexivity).
Qed.
Lemma program_same n : forall s m, fst (parse_program_said n s m) = parse_program n s.
Proof.
  induction n as [|n IH]; [reflexivity|]. intros s m. cbn [parse_program_said]. rewrite parse_program_S.
  destruct (get_token s) as [[t r]|]; [|reflexivity].
  rewrite <- (proj1 (trees_same n) s m). destruct (property_or_map_said n s m) as [o m1]. destruct o as [[v s1]| | | |]; cbn [fst sbind bind]; try reflexivity.
  rewrite <- (IH s1 m1). destruct (parse_program_said n s1 m1) as [o m2]. destruct o; reflexivity.
Qed.

(** the parser is the machine *)
Lemma values_run n :
  (forall s m d p b, 2 * length s + 2 <= n -> b = false \/ no_paren s ->
     match parse_values_said n s m with
     | (Ret (_, s'), m') => (exists b', verdict (Vals d p b) m s = verdict (Vals d p b') m' s') /\ ends_values s' /\ length s' <= length s
     | (Err, m') => verdict (Vals d p b) m s = Some m'
     | _ => False
     end) /\
  (forall s m d p b, 2 * length s + 1 <= n -> (exists t r, get_token s = Some (t, r) /\ kind_of t = KString) ->
     match parse_value_said n s m with
     | (Ret (_, s'), m') => (exists b', verdict (Vals d p b) m s = verdict (Vals d p b') m' s' /\ (b' = false \/ no_paren s')) /\ length s' < length s
     | (Err, m') => verdict (Vals d p b) m s = Some m'
     | _ => False
     end).
Proof.
  induction n as [|n [IH1 IH2]]; [split; intros; lia|]. split; intros s m d p b L Hb.
  - rewrite parse_values_said_S. destruct (get_token s) as [[t r]|] eqn:G.
    2:{ split; [exists b; reflexivity|]. split; [|lia]. unfold ends_values. now rewrite G. }
    pose proof (token_len _ _ _ G) as Lr.
    assert (kind_of t = KString -> match sbind (parse_value_said n s m) (fun '(v, s1) m =>
          sbind (parse_values_said n s1 m) (fun '(vs, s2) m => (Ret (v :: vs, s2), m))) with
     | (Ret (_, s'), m') => (exists b', verdict (Vals d p b) m s = verdict (Vals d p b') m' s') /\ ends_values s' /\ length s' <= length s
     | (Err, m') => verdict (Vals d p b) m s = Some m'
     | _ => False
     end) as K.
    { intro Kt. specialize (IH2 s m d p b ltac:(lia) (ex_intro _ t (ex_intro _ r (conj G Kt)))).
      destruct (parse_value_said n s m) as [o m1]. destruct o as [[v s1]| | | |]; cbn [sbind]; try exact IH2.
      destruct IH2 as ((b1 & E1 & H1) & L1). specialize (IH1 s1 m1 d p b1 ltac:(lia) H1). rewrite E1.
      destruct (parse_values_said n s1 m1) as [o m2]. destruct o as [[vs s2]| | | |]; cbn [sbind]; try exact IH1.
      destruct IH1 as (Ex & En & L2). split; [exact Ex|]. split; [exact En|lia]. }
    destruct t; try (apply K; reflexivity).
    + specialize (IH1 r m d p false ltac:(lia) (or_introl eq_refl)). rewrite (verdict_token _ _ _ _ _ G). cbn [step].
      destruct (parse_values_said n r m) as [o m1]. destruct o as [[v s1]| | | |]; try exact IH1.
      destruct IH1 as (Ex & En & L2). split; [exact Ex|]. split; [exact En|lia].
    + now rewrite (verdict_token _ _ _ _ _ G).
    + split; [exists b; reflexivity|]. split; [|lia]. unfold ends_values. now rewrite G.
    + rewrite (verdict_token _ _ _ _ _ G). cbn [step]. destruct Hb as [-> |Hb]; [reflexivity|]. now destruct (Hb r).
    + split; [exists b; reflexivity|]. split; [|lia]. unfold ends_values. now rewrite G.
    + now rewrite (verdict_token _ _ _ _ _ G).
    + now rewrite (verdict_token _ _ _ _ _ G).
  - destruct Hb as (t & r & G & Kt). rewrite parse_value_said_S, G. pose proof (token_len _ _ _ G) as Lr.
    destruct t; try discriminate Kt.
    2:{ split; [|lia]. exists false. rewrite (verdict_token _ _ _ _ _ G). cbn [step]. auto. }
    assert (no_paren r -> match (Ret (ELit s0, r) : outcome (expr * str), m) with
     | (Ret (_, s'), m') => (exists b', verdict (Vals d p b) m s = verdict (Vals d p b') m' s' /\ (b' = false \/ no_paren s')) /\ length s' < length s
     | (Err, m') => verdict (Vals d p b) m s = Some m'
     | _ => False
     end) as K.
    { intro N. split; [|lia]. exists true. rewrite (verdict_token _ _ _ _ _ G). cbn [step]. auto. }
    destruct (get_token r) as [[t r1]|] eqn:G1; [|apply K; intros r' H; congruence].
    destruct t; try (apply K; intros r' H; congruence).
    pose proof (token_len _ _ _ G1) as L1. specialize (IH1 r1 m d (S p) false ltac:(lia) (or_introl eq_refl)).
    rewrite (verdict_token _ _ _ _ _ G). cbn [step]. rewrite (verdict_token _ _ _ _ _ G1). cbn [step].
    destruct (parse_values_said n r1 m) as [o m1]. destruct o as [[v s1]| | | |]; cbn [sbind]; try exact IH1.
    destruct IH1 as ((b' & Ex) & En & L2). unfold expect_said. unfold ends_values in En. rewrite Ex.
    destruct (get_token s1) as [[t r2]|] eqn:G2.
    + pose proof (token_len _ _ _ G2). rewrite (verdict_token _ _ _ _ _ G2). destruct t; try destruct En; cbn [is_rparen].
      * split; [|lia]. exists false. split; [|now left]. rewrite (verdict_token _ _ _ _ _ G2). cbn [step]. destruct p; reflexivity.
      * split; [|lia]. exists false. split; [reflexivity|now left].
    + split; [|lia]. exists false. split; [|now left]. now rewrite !verdict_end by exact G2.
Qed.
Lemma trees_run n :
  (forall s m d, 2 * length s + 2 <= n -> (exists t r, get_token s = Some (t, r) /\ (d = 0 \/ t <> PRBrace)) ->
     match property_or_map_said n s m with
     | (Ret (_, s'), m') => verdict (Item d) m s = verdict (Item d) m' s' /\ length s' < length s
     | (Err, m') => verdict (Item d) m s = Some m'
     | _ => False
     end) /\
  (forall s m d, 2 * length s + 3 <= n ->
     match map_items_said n s m with
     | (Ret (_, s'), m') => verdict (Item (S d)) m s = verdict (Item (S d)) m' s' /\ length s' <= length s /\
                            match get_token s' with None | Some (PRBrace, _) => True | _ => False end
     | (Err, m') => verdict (Item (S d)) m s = Some m'
     | _ => False
     end).
Proof.
  induction n as [|n [IH1 IH2]]; [split; intros; lia|]. split; intros s m d L.
  - intros (t & r & G & Hd). rewrite property_or_map_said_S, G. pose proof (token_len _ _ _ G) as Lr.
    assert (forall name, kind_of t = KString -> match (match get_token r with
          | Some (PColon, r1) =>
              sbind (parse_values_said n r1 m) (fun '(args, s1) m =>
              sbind (expect_said "SEMICOLON" is_semi s1 m) (fun s2 m => (Ret (EList (ELit name :: args), s2), m)))
          | Some (PLBrace, r1) =>
              sbind (map_items_said n r1 m) (fun '(items, s1) m =>
              sbind (expect_said "RCBRACE" is_rbrace s1 m) (fun s2 m => (Ret (EList (ELit name :: items), s2), m)))
          | Some (t, _) => (Err, wants_colon t)
          | None => (Err, end_of_file)
          end) with
     | (Ret (_, s'), m') => verdict (Item d) m s = verdict (Item d) m' s' /\ length s' < length s
     | (Err, m') => verdict (Item d) m s = Some m'
     | _ => False
     end) as K.
    { intros name Kt. rewrite (verdict_token _ _ _ _ _ G).
      assert (step (Item d) m t = inl (Name d, m)) as -> by (destruct t; try discriminate Kt; destruct d; reflexivity).
      destruct (get_token r) as [[t1 r1]|] eqn:G1; [|now rewrite verdict_end].
      rewrite (verdict_token _ _ _ _ _ G1). pose proof (token_len _ _ _ G1) as L1. destruct t1; cbn [step]; try reflexivity.
      - pose proof (proj1 (values_run n) r1 m d 0 false ltac:(lia) (or_introl eq_refl)) as V.
        destruct (parse_values_said n r1 m) as [o m1]. destruct o as [[v s1]| | | |]; cbn [sbind]; try exact V.
        destruct V as ((b' & ->) & En & L2). unfold ends_values in En. unfold expect_said.
        destruct (get_token s1) as [[t2 r2]|] eqn:G2; [|cbn [sbind]; now rewrite verdict_end].
        rewrite (verdict_token _ _ _ _ _ G2). pose proof (token_len _ _ _ G2). destruct t2; try destruct En; cbn [is_semi sbind step].
        + split; [reflexivity|lia].
        + reflexivity.
      - specialize (IH2 r1 m d ltac:(lia)). destruct (map_items_said n r1 m) as [o m1]. destruct o as [[v s1]| | | |]; cbn [sbind]; try exact IH2.
        destruct IH2 as (-> & L2 & En). unfold expect_said. destruct (get_token s1) as [[t2 r2]|] eqn:G2; [|cbn [sbind]; now rewrite verdict_end].
        pose proof (token_len _ _ _ G2). destruct t2; try destruct En. cbn [is_rbrace sbind]. rewrite (verdict_token _ _ _ _ _ G2). cbn [step].
        split; [reflexivity|lia]. }
    destruct t; try (apply K; reflexivity); rewrite (verdict_token _ _ _ _ _ G); try (destruct d; reflexivity).
    destruct Hd as [-> |Hd]; [reflexivity|congruence].
  - rewrite map_items_said_S. destruct (get_token s) as [[t r]|] eqn:G; [|rewrite G; auto].
    assert (t <> PRBrace -> match sbind (property_or_map_said n s m) (fun '(x, s1) m =>
          sbind (map_items_said n s1 m) (fun '(xs, s2) m => (Ret (x :: xs, s2), m))) with
     | (Ret (_, s'), m') => verdict (Item (S d)) m s = verdict (Item (S d)) m' s' /\ length s' <= length s /\
                            match get_token s' with None | Some (PRBrace, _) => True | _ => False end
     | (Err, m') => verdict (Item (S d)) m s = Some m'
     | _ => False
     end) as K.
    { intro N. specialize (IH1 s m (S d) ltac:(lia) (ex_intro _ t (ex_intro _ r (conj G (or_intror N))))).
      destruct (property_or_map_said n s m) as [o m1]. destruct o as [[v s1]| | | |]; cbn [sbind]; try exact IH1.
      destruct IH1 as (-> & L1). specialize (IH2 s1 m1 d ltac:(lia)). destruct (map_items_said n s1 m1) as [o m2].
      destruct o as [[vs s2]| | | |]; cbn [sbind]; try exact IH2. destruct IH2 as (-> & L2 & En). split; [reflexivity|]. split; [lia|exact En]. }
    destruct t; try (apply K; discriminate). rewrite G. auto.
Qed.
Lemma program_run n : forall s m, 2 * length s + 3 <= n ->
  match parse_program_said n s m with
  | (Ret _, _) => verdict (Item 0) m s = None
  | (Err, m') => verdict (Item 0) m s = Some m'
  | _ => False
  end.
Proof.
  induction n as [|n IH]; [intros; lia|]. intros s m L. cbn [parse_program_said].
  destruct (get_token s) as [[t r]|] eqn:G; [|now rewrite verdict_end].
  pose proof (proj1 (trees_run n) s m 0 ltac:(lia) (ex_intro _ t (ex_intro _ r (conj G (or_introl eq_refl))))) as T.
  destruct (property_or_map_said n s m) as [o m1]. destruct o as [[v s1]| | | |]; cbn [sbind]; try exact T. destruct T as (-> & L1).
  specialize (IH s1 m1 ltac:(lia)). destruct (parse_program_said n s1 m1) as [o m2]. destruct o; exact IH.
Qed.
Lemma parse_run s : match plist_parse_said s with
  | (Ret _, _) => verdict (Item 0) [] s = None
  | (Err, m') => verdict (Item 0) [] s = Some m'
  | _ => False
  end.
Proof. apply program_run. lia. Qed.
Lemma said_same s : fst (plist_parse_said s) = plist_parse s.
Proof. apply program_same. Qed.
Lemma accepted s : verdict (Item 0) [] s = None <-> exists xs, plist_parse s = Ret xs.
Proof.
  pose proof (parse_run s) as P. rewrite <- said_same. destruct (plist_parse_said s) as [o m]. destruct o; cbn [fst]; try tauto.
  - split; eauto.
  - split; [congruence|]. intros (xs & H); discriminate.
Qed.
Lemma rejected s : plist_parse s = Err <-> verdict (Item 0) [] s = Some (snd (plist_parse_said s)).
Proof.
  pose proof (parse_run s) as P. rewrite <- said_same. destruct (plist_parse_said s) as [o m]. destruct o; cbn [fst snd]; try tauto.
  split; [discriminate|congruence].
Qed.
