(** C112: what the tool says about a program that cannot be read. *)
From Verif Require Import Base Sexpr_Model Plist_Model Plist_Spec Plist_Proofs PlistSay_Model PlistSay_Spec PlistSay_Proofs PlistSay_Proofs2.
From Coq Require Import Lia.

(** A text that is read as a program. *)
Definition is_read (s : str) : Prop := exists xs, plist_parse s = Ret xs.
(** A text that a program can begin with. *)
Definition begins (s : str) : Prop := exists rest, is_read (s ++ rest).

(** Keeping the message does not change what is read. *)
Theorem C112_same s : fst (plist_parse_said s) = plist_parse s.
Proof. apply said_same. Qed.
Print Assumptions C112_same.

(** A text is read, or it is refused with a message. If the message is about a token, then that token is the first
    place that no program could have: the text in front of it begins a program, the text with the token does not.
    Every kind of token that is said to be expected there could have followed. Otherwise the whole text could have
    gone on to be a program; then the message is one of three, whatever is missing. *)
Theorem C112_first_fault s message : plist_parse_said s = (Err, message) ->
  (exists pre tok after t ks, s = pre ++ tok ++ after /\ spells tok t /\ complaint t ks message /\ ks <> [] /\
     begins pre /\ (forall rest, ~ is_read (pre ++ tok ++ rest)) /\
     forall k, In k ks -> begins (pre ++ spelled k)) \/
  (begins s /\ (message = s_ "unexpected end of file; expected COLON or LCBRACE" \/ message = [] \/
                message = s_ "unexpected token; expected: RPAREN, got: SEMICOLON")).
Proof.
  intro H. assert (plist_parse s = Err) as R by (rewrite <- said_same, H; reflexivity).
  apply rejected in R. rewrite H in R. cbn [snd] in R.
  assert (forall u y m1 X, verdict (Item 0) [] (u ++ X) = verdict y m1 X -> verdict y m1 X = None -> is_read (u ++ X)) as Rd.
  { intros u y m1 X E V. apply accepted. now rewrite E. }
  destruct (fails (length s) (Item 0) [] s message (le_n _) (or_introl eq_refl) R)
    as [(pre & tok & after & t & y & m1 & -> & NE & Sp & St & K & R1 & R2)|(y & m1 & cl & F & K & Z & R1)].
  - left. destruct (named _ _ _ _ St) as (ks & Nk & C & Hk). exists pre, tok, after, t, ks.
    split; [reflexivity|]. split; [exact Sp|]. split; [exact C|]. split; [exact Nk|]. split; [|split].
    + destruct (endable y m1) as (X & SX & V). exists X. apply (Rd pre y m1 X); [now apply R1|exact V].
    + intros rest A. apply accepted in A. destruct (R2 rest) as (e' & E). congruence.
    + intros k I. destruct (Hk k I) as (X & V). exists X. rewrite <- app_assoc. apply (Rd pre y m1); [|exact V].
      apply R1. apply spelled_stop.
  - right. split.
    + destruct (endable y m1) as (X & SX & V). exists (cl ++ X). apply accepted. rewrite R1 by exact SX. exact V.
    + destruct y as [[|d]|d|d p w]; cbn [finish] in F; try discriminate F; injection F as <-; auto; right; destruct K as [-> | ->]; auto.
Qed.
Print Assumptions C112_first_fault.
(** There is always an answer: a program or a message. *)
Theorem C112_answers s : (exists xs m, plist_parse_said s = (Ret xs, m)) \/ exists m, plist_parse_said s = (Err, m).
Proof.
  pose proof (parse_run s) as P. destruct (plist_parse_said s) as [o m]. destruct o; try contradiction; eauto.
Qed.
Print Assumptions C112_answers.

(** A missing brace is never named: whatever program stands in the block, the message is empty or about a
    parenthesis. *)
Theorem C112_unclosed_refuted s : is_read s -> exists message, plist_parse_said (s_ "plot {" ++ s) = (Err, message) /\
  (message = [] \/ message = s_ "unexpected token; expected: RPAREN, got: SEMICOLON").
Proof.
  intro A. apply accepted in A. destruct (verdict_deeper (length s) (Item 0) [] [] s (le_n _) (or_introl eq_refl) A) as (e & V & K).
  assert (verdict (Item 0) [] (s_ "plot {" ++ s) = Some e) as R.
  { assert (get_token (s_ "plot {" ++ s) = Some (PString (s_ "plot"), s_ " {" ++ s)) as G by reflexivity.
    rewrite (verdict_token _ _ _ _ _ G). cbn [step].
    assert (get_token (s_ " {" ++ s) = Some (PLBrace, s)) as G2 by reflexivity. rewrite (verdict_token _ _ _ _ _ G2). exact V. }
  pose proof (parse_run (s_ "plot {" ++ s)) as P. destruct (plist_parse_said (s_ "plot {" ++ s)) as [o m]. destruct o; try contradiction; try congruence.
  rewrite R in P. injection P as ->. exists m. split; [reflexivity|exact K].
Qed.
Print Assumptions C112_unclosed_refuted.
(** A message about a token need not be about what is wrong: the parenthesis that is not closed is read as if it
    were, and what is wrong is the missing semicolon at the end. *)
Theorem C112_stale_refuted :
  plist_parse_said (s_ "a: f(1; b: 2") = (Err, s_ "unexpected token; expected: RPAREN, got: SEMICOLON") /\
  is_read (s_ "a: f(1; b: 2;") /\ plist_parse_said (s_ "a: f(1); b: 2") = (Err, []).
Proof. split; [vm_compute; reflexivity|]. split; [eexists; vm_compute; reflexivity|vm_compute; reflexivity]. Qed.
Print Assumptions C112_stale_refuted.
(** Messages. *)
Example C112_texts :
  snd (plist_parse_said (s_ "plot { x: 1 } }")) = s_ "unexpected token 'RCBRACE'; expected SEMICOLON OR COMMA" /\
  snd (plist_parse_said (s_ "plot x: 1;")) = s_ "unexpected token 'STRING<x>'; expected COLON OR LCBRACE" /\
  snd (plist_parse_said (s_ "plot")) = s_ "unexpected end of file; expected COLON or LCBRACE" /\
  snd (plist_parse_said (s_ "a: 1; }")) = s_ "unexpected token; expected: STRING, got: RCBRACE" /\
  snd (plist_parse_said (s_ "a: 1);")) = s_ "unexpected token; expected: SEMICOLON, got: RPAREN" /\
  snd (plist_parse_said (s_ "a: 'x")) = [] /\
  snd (plist_parse_said (s_ "a: 'x' (2);")) = s_ "unexpected token 'LPAREN'; expected SEMICOLON OR COMMA".
Proof. vm_compute. repeat (split; [reflexivity|]). reflexivity. Qed.
