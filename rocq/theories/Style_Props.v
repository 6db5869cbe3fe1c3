(** Theorems about styles: C89. *)
From Coq Require Import Reals Lra.
From Verif Require Import Base Num Str_Model Sexpr_Model Dispatch_Model Dispatch_Proofs Data_Model Scale_Model Units_Model Color_Model Geo_Model Svg_Model
  Cmd_Model Cmd_Spec Cmd_Proofs Eval_Spec Eval_Legend Style_Model Style_Spec.
Local Open Scope R_scope.

(* ---------------- choices ---------------- *)
Lemma is_word_spec e n : is_word e n = true <-> exists w r, e = w :: r /\ word n w.
Proof.
  unfold is_word, is_val, word. destruct e as [|[l|v|v] r]; cbn [value_of].
  - split; [discriminate|intros (? & ? & ? & _); discriminate].
  - split; [discriminate|]. intros (w & r' & X & Y). injection X as <- <-. destruct Y; discriminate.
  - destruct (str_eqb_spec v (s_ n)) as [->|N]; split; eauto; try discriminate.
    intros (w & r' & X & Y). injection X as <- <-. destruct Y as [Y|Y]; congruence.
  - destruct (str_eqb_spec v (s_ n)) as [->|N]; split; eauto; try discriminate.
    intros (w & r' & X & Y). injection X as <- <-. destruct Y as [Y|Y]; congruence.
Qed.
Lemma list_of_spec e n a : list_of e n = Some a <-> exists w r, e = EList (w :: a) :: r /\ word n w.
Proof.
  unfold list_of, list_headed, word. destruct e as [|[l|v|v] r]; try (split; [discriminate|intros (? & ? & X & _); discriminate]).
  destruct l as [|[l'|v|v] l]; cbn [value_of tl].
  - split; [discriminate|]. intros (w & r' & X). discriminate (proj1 X).
  - split; [discriminate|]. intros (w & r' & X & Y). injection X as <- <- <-. destruct Y; discriminate.
  - destruct (str_eqb_spec v (s_ n)) as [->|N]; split; try discriminate.
    + intro X. injection X as <-. eauto 6.
    + intros (w & r' & X & Y). injection X as <- <- <-. reflexivity.
    + intros (w & r' & X & Y). injection X as <- <- <-. destruct Y; congruence.
  - destruct (str_eqb_spec v (s_ n)) as [->|N]; split; try discriminate.
    + intro X. injection X as <-. eauto 6.
    + intros (w & r' & X & Y). injection X as <- <- <-. reflexivity.
    + intros (w & r' & X & Y). injection X as <- <- <-. destruct Y; congruence.
Qed.
Lemma chosen_word n names e : In n names -> is_word e n = true -> chosen names e [].
Proof. intros I H. apply is_word_spec in H as (w & r & -> & X). now apply ch_word with n. Qed.
Lemma chosen_list n names e a : In n names -> list_of e n = Some a -> chosen names e a.
Proof. intros I H. apply list_of_spec in H as (w & r & -> & X). now apply ch_list with n. Qed.
Lemma chosen_inv names e a : chosen names e a -> exists n, In n names /\ ((is_word e n = true /\ a = []) \/ list_of e n = Some a).
Proof.
  intros [n w r I X|n w b r I X]; exists n; split; auto; [left|right].
  - split; [|reflexivity]. apply is_word_spec. eauto.
  - apply list_of_spec. eauto.
Qed.
Lemma is_list_of_true e n : is_list_of e n = true <-> exists a, list_of e n = Some a.
Proof. unfold is_list_of. destruct (list_of e n); split; eauto; try discriminate. intros (a & X). discriminate. Qed.
(** Words are told apart. *)
Lemma word_inj n m w : word n w -> word m w -> n = m.
Proof.
  assert (I : forall a b, s_ a = s_ b -> a = b) by (intros a b X; apply (f_equal string_of_list_ascii) in X; unfold s_ in X; now rewrite !string_of_list_ascii_of_string in X).
  intros [->| ->] [X|X]; try discriminate; injection X as X; auto.
Qed.
Lemma chosen_fun n1 n2 e a1 a2 : chosen n1 e a1 -> chosen n2 e a2 -> a1 = a2 /\ exists n, In n n1 /\ In n n2.
Proof.
  intros [n w r I X|n w b r I X] H; inversion H as [m w' r' J Y Z|m w' b' r' J Y Z]; subst.
  - split; [reflexivity|]. rewrite (word_inj _ _ _ X Y) in *. eauto.
  - destruct X; discriminate.
  - destruct Y; discriminate.
  - split; [reflexivity|]. rewrite (word_inj _ _ _ X Y) in *. eauto.
Qed.

(* ---------------- parameters ---------------- *)
(** A table whose options can be read independently of the state. *)
Definition tells {S} (tbl : list (str * cmd S)) (ok : list (string * (list expr -> Prop))) : Prop :=
  Forall2 (fun kf kp => fst kf = s_ (fst kp) /\ forall b s, (exists s', snd kf b s = Ret s') <-> snd kp b) tbl ok.
Lemma tells_assoc {S} (tbl : list (str * cmd S)) ok k f : tells tbl ok -> assoc k tbl = Some f ->
  exists k' P, In (k', P) ok /\ k = s_ k' /\ forall b s, (exists s', f b s = Ret s') <-> P b.
Proof.
  intro T. induction T as [|[k1 f1] [k2 P] tbl ok [K R] T IH]; cbn [assoc]; [discriminate|]. cbn [fst snd] in *. subst k1.
  destruct (str_eqb_spec k (s_ k2)) as [->|N].
  - intro X. injection X as ->. exists k2, P. cbn. auto.
  - intro X. apply IH in X as (k' & P' & I & -> & Q). exists k', P'. cbn. auto.
Qed.
Lemma tells_In {S} (tbl : list (str * cmd S)) ok k P : tells tbl ok -> NoDup (map fst tbl) -> In (k, P) ok ->
  exists f, assoc (s_ k) tbl = Some f /\ forall b s, (exists s', f b s = Ret s') <-> P b.
Proof.
  intros T. induction T as [|[k1 f1] [k2 P2] tbl ok [K R] T IH]; intros ND I; [destruct I|]. cbn [fst snd map] in *. subst k1.
  apply NoDup_cons_iff in ND as [NI ND]. cbn [assoc]. destruct I as [I|I].
  - injection I as -> ->. rewrite str_eqb_refl. eauto.
  - destruct (IH ND I) as (f & A & Q). destruct (str_eqb_spec (s_ k) (s_ k2)) as [X|X]; [|eauto].
    exfalso. apply NI. rewrite <- X. apply (in_map fst) with (x := (s_ k, f)). now apply assoc_In.
Qed.
Lemma run_tells {S} (tbl : list (str * cmd S)) ok a : tells tbl ok -> NoDup (map fst tbl) ->
  forall s, (exists s', run tbl a s = Ret s') <-> parameters ok a.
Proof.
  intros T ND. induction a as [|x a IH]; intro s.
  - split; [constructor|intros _; now exists s].
  - rewrite run_cons. split.
    + intros (s' & H). destruct (option_of x) as [[k b]|] eqn:O; [|discriminate]. destruct (assoc k tbl) as [f|] eqn:F; [|discriminate].
      inv_bind H. destruct (tells_assoc _ _ _ _ T F) as (k' & P & I & -> & Q). constructor.
      * exists k', P, b. split; [exact I|]. split; [exact O|]. eapply Q. eauto.
      * eapply IH. eauto.
    + intro H. apply Forall_cons_iff in H as [(k & P & b & I & O & R) H]. rewrite O.
      destruct (tells_In _ _ _ _ T ND I) as (f & F & Q). rewrite F. destruct (proj2 (Q b s) R) as (s1 & C). rewrite C. cbn [bind]. now apply IH.
Qed.
(** What is read as a colour does not depend on the colour before, except that an index into an
    empty palette keeps it. *)
Lemma parse_indep f s : exists o : outcome (option color), forall c,
  parse f s c = let* x := o in Ret (match x with Some c1 => (true, c1) | None => (false, c) end).
Proof.
  unfold parse. destruct (begins_with s (s_ "#")); [|now exists (Ret None)].
  assert (S : exists o : outcome (option color), forall c, parse_hex_short f s c = let* x := o in Ret (match x with Some c1 => (true, c1) | None => (false, c) end)).
  { unfold parse_hex_short. destruct (negb _); [now exists (Ret None)|].
    exists (let* r := hex_component f (substr s 1 1) 15 in let* g := hex_component f (substr s 2 1) 15 in let* b := hex_component f (substr s 3 1) 15 in
            Ret (Some (mk_color r g b (Fin 1)))).
    intro c. destruct (hex_component f (substr s 1 1) 15); try reflexivity. cbn [bind]. destruct (hex_component f (substr s 2 1) 15); try reflexivity.
    cbn [bind]. destruct (hex_component f (substr s 3 1) 15); reflexivity. }
  assert (L : exists o : outcome (option color), forall c, parse_hex f s c = let* x := o in Ret (match x with Some c1 => (true, c1) | None => (false, c) end)).
  { unfold parse_hex. destruct (negb _); [now exists (Ret None)|].
    exists (let* r := hex_component f (substr s 1 2) 255 in let* g := hex_component f (substr s 3 2) 255 in let* b := hex_component f (substr s 5 2) 255 in
            Ret (Some (mk_color r g b (Fin 1)))).
    intro c. destruct (hex_component f (substr s 1 2) 255); try reflexivity. cbn [bind]. destruct (hex_component f (substr s 3 2) 255); try reflexivity.
    cbn [bind]. destruct (hex_component f (substr s 5 2) 255); reflexivity. }
  assert (A : exists o : outcome (option color), forall c, parse_hex_alpha f s c = let* x := o in Ret (match x with Some c1 => (true, c1) | None => (false, c) end)).
  { unfold parse_hex_alpha. destruct (negb _); [now exists (Ret None)|].
    exists (let* r := hex_component f (substr s 1 2) 255 in let* g := hex_component f (substr s 3 2) 255 in let* b := hex_component f (substr s 5 2) 255 in
            let* a := hex_component f (substr s 7 2) 255 in Ret (Some (mk_color r g b a))).
    intro c. destruct (hex_component f (substr s 1 2) 255); try reflexivity. cbn [bind]. destruct (hex_component f (substr s 3 2) 255); try reflexivity.
    cbn [bind]. destruct (hex_component f (substr s 5 2) 255); try reflexivity. cbn [bind]. destruct (hex_component f (substr s 7 2) 255); reflexivity. }
  destruct (length s) as [|[|[|[|[|[|[|[|[|[|]]]]]]]]]]; auto; now exists (Ret None).
Qed.
Lemma rd_color_indep W E b : exists o : outcome (option color), forall c,
  rd_color W E b c = let* x := o in Ret (match x with Some c1 => c1 | None => c end).
Proof.
  unfold rd_color, expr_to_color.
  assert (V : forall v, exists o : outcome (option color), forall c,
    (let* (ok, c1) := if begins_with v (s_ "#") then parse (w_f W) v c else Ret (false, c) in
     if ok then Ret c1 else if is_digit_string v then
       match e_palette E with [] => Ret c1 | _ => let* i := stol 10 v in palette_at (e_palette E) (((i - 1) mod 2 ^ 64) mod Z.of_nat (length (e_palette E))) end
     else Err) = let* x := o in Ret (match x with Some c1 => c1 | None => c end)).
  { intro v. assert (D : exists o : outcome (option color), forall c, (if is_digit_string v then
       match e_palette E with [] => Ret c | _ => let* i := stol 10 v in palette_at (e_palette E) (((i - 1) mod 2 ^ 64) mod Z.of_nat (length (e_palette E))) end
     else Err) = let* x := o in Ret (match x with Some c1 => c1 | None => c end)).
    { destruct (is_digit_string v); [|now exists Err]. destruct (e_palette E) as [|p0 ps]; [now exists (Ret None)|].
      exists (let* i := stol 10 v in let* c := palette_at (p0 :: ps) (((i - 1) mod 2 ^ 64) mod Z.of_nat (length (p0 :: ps))) in Ret (Some c)).
      intro c. destruct (stol 10 v); try reflexivity. cbn [bind]. destruct (palette_at (p0 :: ps) _); reflexivity. }
    destruct D as (o2 & D). destruct (begins_with v (s_ "#")).
    - destruct (parse_indep (w_f W) v) as (o & P).
      exists (let* x := o in match x with Some c1 => Ret (Some c1) | None => o2 end). intro c. rewrite P. destruct o as [[c1|]| | | |]; try reflexivity. cbn [bind]. apply D.
    - exists o2. exact D. }
  destruct b as [|[l|v|v] r]; [now exists Err| |apply V|apply V].
  match goal with |- exists o, forall c, ?t = _ => exists (let* c := t in Ret (Some c)); intro c; destruct t; reflexivity end.
Qed.
Lemma rd_color_any W E b c1 c2 : (exists v, rd_color W E b c1 = Ret v) <-> exists v, rd_color W E b c2 = Ret v.
Proof. destruct (rd_color_indep W E b) as (o & X). rewrite !X. destruct o as [[]| | | |]; cbn [bind]; split; intros (v & H); try discriminate; eauto. Qed.

(** Readers that look at the first argument only. *)
Lemma rd_measuren_head W E x r : rd_measuren W E (x :: r) = rd_measuren W E [x].
Proof. reflexivity. Qed.
Lemma tov_lengths (rd : list expr -> outcome xr) b l : (forall x r, rd (x :: r) = rd [x]) -> ended (expr_tov rd b []) = Ret l <-> lengths rd b l.
Proof.
  intro HD. unfold expr_tov, lengths.
  assert (G : forall b acc, ended (tov_loop rd b acc) = Ret l <-> exists m, l = acc ++ m /\ Forall2 (fun x v => rd [x] = Ret v) b m).
  { clear b. induction b as [|x b IH]; intro acc; cbn [tov_loop].
    - split; [intro H; injection H as <-; exists []; rewrite app_nil_r; auto|]. intros (m & -> & F). inversion F. now rewrite app_nil_r.
    - rewrite HD. destruct (rd [x]) as [v| | | |] eqn:R; try (split; [discriminate|intros (m & _ & F); inversion F; congruence]).
      rewrite IH. split.
      + intros (m & -> & F). exists (v :: m). rewrite <- app_assoc. auto.
      + intros (m & -> & F). inversion F as [|? v' ? m' R' F']; subst. assert (v' = v) by congruence. subst. exists m'. now rewrite <- app_assoc. }
  rewrite G. split; [intros (m & -> & F); exact F|intro F; exists l; split; [reflexivity|exact F]].
Qed.
Lemma to_number_head W E x r : rd_size W E (x :: r) = rd_size W E [x].
Proof. reflexivity. Qed.
Lemma can_upd {S T} (rd : list expr -> outcome T) (put : T -> S -> S) b s : (exists s', upd rd put b s = Ret s') <-> can rd b.
Proof. unfold upd, can. destruct (rd b); cbn [bind]; split; intros (v & H); try discriminate; eauto. Qed.
Lemma can_updf_color {S} W E (get : S -> color) put b s : (exists s', updf get (rd_color W E) put b s = Ret s') <-> can (fun b => rd_color W E b black) b.
Proof.
  unfold can. rewrite (rd_color_any W E b black (get s)). unfold updf.
  destruct (rd_color W E b (get s)); cbn [bind]; split; intros (v & H); try discriminate; eauto.
Qed.
Ltac tell := unfold tells; repeat (apply Forall2_cons; [cbn [fst snd]; split; [reflexivity|intros ? ?; first [apply can_upd|apply can_updf_color|idtac]]|]); try apply Forall2_nil.
Ltac distinct := cbn [map fst]; repeat constructor; cbn [In]; intuition discriminate.

(* ------------------------------------------------------------------ C89 *)
Lemma last_or_fun {T} k e (P : list expr -> T -> Prop) old v w : (forall b x y, P b x -> P b y -> x = y) -> last_or k e P old v -> last_or k e P old w -> v = w.
Proof. intros F. unfold last_or. destruct (last_args (s_ k) e); [apply F|congruence]. Qed.
Lemma lengths_fun rd b l m : lengths rd b l -> lengths rd b m -> l = m.
Proof. intro H. revert m. induction H; intros m G; inversion G; subst; [reflexivity|]. f_equal; [congruence|auto]. Qed.
Ltac same := match goal with |- forall b x y, _ -> _ -> x = y => intros ? ? ?; first [apply lengths_fun|congruence] end.

Lemma dash_ok W E a s r : stroke_style_read_dash W E a s = Ret r <->
  parameters (dash_parameters W E) a /\
  exists o p, last_or "pattern" a (lengths (rd_measuren W E)) [pt W E 2; pt W E 2] p /\
    last_or "offset" a (fun b v => rd_measuren W E b = Ret v) (s_offset s) o /\
    r = mk_stroke_style (s_width s) (s_color s) true o p.
Proof.
  unfold stroke_style_read_dash.
  set (tbl := [(s_ "pattern", upd (fun e => ended (expr_tov (rd_measuren W E) e [])) ss_with_pattern); (s_ "offset", upd (rd_measuren W E) ss_with_offset)]).
  set (s1 := ss_with_pattern _ _).
  assert (TL : tells tbl (dash_parameters W E)).
  { unfold tbl, dash_parameters. tell. rewrite can_upd. unfold can. split; intros (l & H); exists l; apply (tov_lengths _ _ _ (rd_measuren_head W E)); exact H. }
  assert (ND : NoDup (map fst tbl)) by (unfold tbl; distinct).
  assert (FW : forall r, run tbl a s1 = Ret r -> exists o p, last_or "pattern" a (lengths (rd_measuren W E)) [pt W E 2; pt W E 2] p /\
    last_or "offset" a (fun b v => rd_measuren W E b = Ret v) (s_offset s) o /\ r = mk_stroke_style (s_width s) (s_color s) true o p).
  { intros r0 H. exists (s_offset r0), (s_pattern r0).
    assert (P1 : last_or "pattern" a (fun b v => ended (expr_tov (rd_measuren W E) b []) = Ret v) (s_pattern s1) (s_pattern r0)).
    { refine (run_proj_last s_pattern tbl "pattern" _ _ _ _ _ H). unfold tbl; projection. }
    split; [|split].
    - revert P1. unfold last_or. destruct (last_args (s_ "pattern") a); [|auto]. apply (tov_lengths _ _ _ (rd_measuren_head W E)).
    - refine (run_proj_last s_offset tbl "offset" _ _ _ _ _ H). unfold tbl; projection.
    - assert (I : s_width r0 = s_width s /\ s_color r0 = s_color s /\ s_dashed r0 = true).
      { apply run_options in H. refine (options_inv tbl (fun r => s_width r = s_width s /\ s_color r = s_color s /\ s_dashed r = true) a _ s1 r0 _ H); [|cbn; auto].
        intros k f J b x y K C. unfold tbl in J. cbn [In] in J. destruct J as [J|[J|[]]]; injection J as _ <-; unfold upd in C; inv_bind C; injection C as <-; exact K. }
      destruct r0 as [w c dsh o p]. cbn in *. destruct I as (-> & -> & ->). reflexivity. }
  split.
  - intro H. split; [|now apply FW]. apply (run_tells _ _ _ TL ND s1). eauto.
  - intros (P & o & p & Hp & Ho & ->). apply (run_tells _ _ _ TL ND s1) in P as (r & H). rewrite H. f_equal.
    apply FW in H as (o' & p' & Hp' & Ho' & ->). f_equal; eapply last_or_fun; eauto; same.
Qed.

Lemma split_none e n : (is_word e n || is_list_of e n)%bool = true <-> exists a, chosen [n] e a.
Proof.
  split.
  - intro H. apply orb_true_iff in H as [H|H]; [exists []; now apply chosen_word with n; [left|]|].
    apply is_list_of_true in H as (a & H). exists a. apply chosen_list with n; [now left|exact H].
  - intros (a & H). apply chosen_inv in H as (m & [<-|[]] & [[H _]|H]); [now rewrite H|]. apply orb_true_iff. right. apply is_list_of_true. eauto.
Qed.
(** Two names for the same: the code looks at the words first, then at the lists. *)
Lemma split_two {B} e n m (f : list expr -> B) (other : B) :
  let r := if is_word e n || is_word e m then f [] else match list_of e n with Some a => f a | None => match list_of e m with Some a => f a | None => other end end in
  (exists a, chosen [n; m] e a /\ r = f a) \/ ((forall a, ~ chosen [n; m] e a) /\ r = other).
Proof.
  intro r. unfold r. destruct (is_word e n) eqn:A; [left; exists []; split; [apply chosen_word with n; cbn; auto|reflexivity]|].
  destruct (is_word e m) eqn:B0; [left; exists []; split; [apply chosen_word with m; cbn; auto|reflexivity]|]. cbn [orb].
  destruct (list_of e n) as [a|] eqn:C; [left; exists a; split; [apply chosen_list with n; cbn; auto|reflexivity]|].
  destruct (list_of e m) as [a|] eqn:D; [left; exists a; split; [apply chosen_list with m; cbn; auto|reflexivity]|].
  right. split; [|reflexivity]. intros a H. apply chosen_inv in H as (x & [<-|[<-|[]]] & [[H _]|H]); congruence.
Qed.

(** C89. stroke-style: none, solid, dash or dashed with a pattern and an offset, and nothing
    else, is accepted; none makes the width zero, solid and dash change how the line is drawn
    and leave the rest as it was; of several patterns or offsets the last one counts, and
    without one the pattern is 2pt 2pt. *)
Theorem C89_stroke_style : forall W E e s r, stroke_style_read W E e s = Ret r <-> stroke_style_means W E e s r.
Proof.
  intros W E e s r. unfold stroke_style_read. split.
  - destruct (is_word e "none" || is_list_of e "none")%bool eqn:N.
    { intro H. injection H as <-. apply split_none in N as (a & N). now apply sm_none with a. }
    destruct (is_word e "solid" || is_list_of e "solid")%bool eqn:S.
    { intro H. injection H as <-. apply split_none in S as (a & S). now apply sm_solid with a. }
    destruct (split_two e "dash" "dashed" (fun a => stroke_style_read_dash W E a s) Err) as [(a & C & X)|[C X]]; cbv zeta in X; rewrite X; [|discriminate].
    intro H. apply dash_ok in H as (P & o & p & Hp & Ho & ->). now apply sm_dash with a.
  - intros [a C|a C|a o p C P Hp Ho].
    + rewrite (proj2 (split_none e "none")); [reflexivity|eauto].
    + destruct (is_word e "none" || is_list_of e "none")%bool eqn:N.
      { apply split_none in N as (b & N). destruct (chosen_fun _ _ _ _ _ C N) as (_ & n & [<-|[]] & [X|[]]). discriminate. }
      rewrite (proj2 (split_none e "solid")); [reflexivity|eauto].
    + destruct (is_word e "none" || is_list_of e "none")%bool eqn:N.
      { apply split_none in N as (b & N). destruct (chosen_fun _ _ _ _ _ C N) as (_ & n & [<-|[<-|[]]] & [X|[]]); discriminate. }
      destruct (is_word e "solid" || is_list_of e "solid")%bool eqn:S.
      { apply split_none in S as (b & S). destruct (chosen_fun _ _ _ _ _ C S) as (_ & n & [<-|[<-|[]]] & [X|[]]); discriminate. }
      destruct (split_two e "dash" "dashed" (fun a => stroke_style_read_dash W E a s) Err) as [(b & C' & X)|[C' X]]; cbv zeta in X; rewrite X.
      * destruct (chosen_fun _ _ _ _ _ C C') as (<- & _). apply dash_ok. eauto 7.
      * destruct (C' _ C).
Qed.
Print Assumptions C89_stroke_style.

Lemma hatch_ok W E rd stride width a c ang o st w : (forall x r, rd (x :: r) = rd [x]) ->
  run (hatch_table W E rd) a (black, (Fin (-45), Fin 0, stride, width)) = Ret (c, (ang, o, st, w)) <->
  hatch_means W E rd stride width a (mk_hatch c ang o st w).
Proof.
  intro HD. set (s0 := (black, (Fin (-45), Fin 0, stride, width)) : hatch_opts).
  assert (TL : tells (hatch_table W E rd) (hatch_parameters W E rd)) by (unfold hatch_table, hatch_parameters; tell).
  assert (ND : NoDup (map fst (hatch_table W E rd))) by (unfold hatch_table; distinct).
  assert (FW : forall c ang o st w, run (hatch_table W E rd) a s0 = Ret (c, (ang, o, st, w)) -> hatch_means W E rd stride width a (mk_hatch c ang o st w)).
  { clear c ang o st w. intros c ang o st w H. unfold hatch_means. cbn [fh_color fh_angle fh_offset fh_stride fh_width].
    split; [apply (run_tells _ _ _ TL ND s0); eauto|].
    assert (X : forall T (g : hatch_opts -> T) k rd', projects g (hatch_table W E rd) [(s_ k, fun a (_ : T) => rd' a)] ->
      last_or k a (fun b v => rd' b = Ret v) (g s0) (g (c, (ang, o, st, w)))) by (intros T g k rd' P; exact (run_proj_last g _ k rd' _ _ _ P H)).
    split; [|split; [|split; [|split]]].
    - refine (run_proj (fun h : hatch_opts => fst h) (hatch_table W E rd) (one_of ["color"%string] (rd_color W E)) _ a s0 _ H).
      unfold hatch_table, one_of. cbn [map]. unfold projects. repeat apply Forall_cons; try apply Forall_nil;
        intros b [c1 [[[a1 o1] st1] w1]] s' Q; cbn [fst snd] in *; unfold upd, updf in Q; inv_bind Q; injection Q as <-; try reflexivity.
      cbn [assoc]. exact A.
    - refine (X _ (fun '(c, (a, o, st, w)) => a) _ _ _). unfold hatch_table, projects. repeat apply Forall_cons; try apply Forall_nil;
        intros b [c1 [[[a1 o1] st1] w1]] s' Q; cbn [fst snd] in *; unfold upd, updf in Q; inv_bind Q; injection Q as <-; try reflexivity. cbn [assoc]. exact A.
    - refine (X _ (fun '(c, (a, o, st, w)) => o) _ _ _). unfold hatch_table, projects. repeat apply Forall_cons; try apply Forall_nil;
        intros b [c1 [[[a1 o1] st1] w1]] s' Q; cbn [fst snd] in *; unfold upd, updf in Q; inv_bind Q; injection Q as <-; try reflexivity. cbn [assoc]. exact A.
    - refine (X _ (fun '(c, (a, o, st, w)) => st) _ _ _). unfold hatch_table, projects. repeat apply Forall_cons; try apply Forall_nil;
        intros b [c1 [[[a1 o1] st1] w1]] s' Q; cbn [fst snd] in *; unfold upd, updf in Q; inv_bind Q; injection Q as <-; try reflexivity. cbn [assoc]. exact A.
    - refine (X _ (fun '(c, (a, o, st, w)) => w) _ _ _). unfold hatch_table, projects. repeat apply Forall_cons; try apply Forall_nil;
        intros b [c1 [[[a1 o1] st1] w1]] s' Q; cbn [fst snd] in *; unfold upd, updf in Q; inv_bind Q; injection Q as <-; try reflexivity. cbn [assoc]. exact A. }
  split; [apply FW|]. intros (P & Hc & Ha & Ho & Hs & Hw). cbn [fh_color fh_angle fh_offset fh_stride fh_width] in *.
  apply (run_tells _ _ _ TL ND s0) in P as ((c' & [[[a' o'] s'] w']) & H). rewrite H. f_equal.
  apply FW in H as (_ & Hc' & Ha' & Ho' & Hs' & Hw'). cbn [fh_color fh_angle fh_offset fh_stride fh_width] in *.
  rewrite Hc in Hc'. injection Hc' as <-. repeat f_equal; symmetry; eapply last_or_fun; eauto; intros ? ? ?; congruence.
Qed.
Lemma not_chosen2 e n m p : (forall a, ~ chosen [n] e a) -> (forall a, ~ chosen [m; p] e a) -> forall a, ~ chosen [n; m; p] e a.
Proof.
  intros A B a H. apply chosen_inv in H as (x & I & [[H ->]|H]).
  - destruct I as [<-|I]; [apply (A []); apply chosen_word with n; cbn; auto|]. apply (B []); apply chosen_word with x; auto.
  - destruct I as [<-|I]; [apply (A a); apply chosen_list with n; cbn; auto|]. apply (B a); apply chosen_list with x; auto.
Qed.
Lemma chosen_incl n1 n2 e a : incl n1 n2 -> chosen n1 e a -> chosen n2 e a.
Proof. intros I [n w r J X|n w b r J X]; [apply ch_word with n; auto|apply ch_list with n; auto]. Qed.

(** C89. fill: none, hatch or hatched with parameters, or a colour, and nothing else, is
    accepted. A hatching has by default the colour black, the angle -45, the distance 3pt and
    the width 1pt; of several parameters of the same name the last one counts. *)
Theorem C89_fill : forall W E e s r, fill_style_read W E e s = Ret r <-> fill_style_means W E e s r.
Proof.
  intros W E e s r. unfold fill_style_read.
  assert (HK : forall a r, fill_style_read_hatch W E a s = Ret r <->
    exists h, hatch_means W E (rd_measuren W E) (pt W E 3) (pt W E 1) a h /\ r = mk_fill (Some (fh_color h)) true (fh_angle h) (fh_offset h) (fh_stride h) (fh_width h)).
  { intros a r0. unfold fill_style_read_hatch. split.
    - intro H. inv_bind H. destruct v as [c [[[an o] st] w]]. injection H as <-.
      apply (hatch_ok W E _ _ _ _ _ _ _ _ _ (rd_measuren_head W E)) in A. now exists (mk_hatch c an o st w).
    - intros ([c an o st w] & H & ->). apply (hatch_ok W E _ _ _ _ _ _ _ _ _ (rd_measuren_head W E)) in H. rewrite H. reflexivity. }
  split.
  - destruct (is_word e "none" || is_list_of e "none")%bool eqn:N.
    { intro H. injection H as <-. apply split_none in N as (a & N). now apply fm_none with a. }
    destruct (split_two e "hatch" "hatched" (fun a => fill_style_read_hatch W E a s) (match e with [] => Err | _ => fill_style_read_solid W E e s end))
      as [(a & C & X)|[C X]]; cbv zeta in X; rewrite X.
    + intro H. apply HK in H as (h & H & ->). now apply fm_hatch with a.
    + intro H. destruct e as [|x e]; [discriminate|]. unfold fill_style_read_solid in H. inv_bind H. injection H as <-. apply fm_color; [|exact A].
      apply not_chosen2; [|exact C]. intros a H. rewrite (proj2 (split_none (x :: e) "none")) in N; [discriminate|eauto].
  - intros [a C|a h C H|c C H].
    + rewrite (proj2 (split_none e "none")); [reflexivity|eauto].
    + destruct (is_word e "none" || is_list_of e "none")%bool eqn:N.
      { apply split_none in N as (b & N). destruct (chosen_fun _ _ _ _ _ C N) as (_ & n & [<-|[<-|[]]] & [X|[]]); discriminate. }
      destruct (split_two e "hatch" "hatched" (fun a => fill_style_read_hatch W E a s) (match e with [] => Err | _ => fill_style_read_solid W E e s end))
        as [(b & C' & X)|[C' X]]; cbv zeta in X; rewrite X.
      * destruct (chosen_fun _ _ _ _ _ C C') as (<- & _). apply HK. eauto.
      * destruct (C' _ C).
    + destruct (is_word e "none" || is_list_of e "none")%bool eqn:N.
      { apply split_none in N as (b & N). exfalso. apply (C b). refine (chosen_incl _ _ _ _ _ N). intros x [<-|[]]; cbn; auto. }
      destruct (split_two e "hatch" "hatched" (fun a => fill_style_read_hatch W E a s) (match e with [] => Err | _ => fill_style_read_solid W E e s end))
        as [(b & C' & X)|[C' X]]; cbv zeta in X; rewrite X.
      * exfalso. apply (C b). refine (chosen_incl _ _ _ _ _ C'). intros x [<-|[<-|[]]]; cbn; auto.
      * destruct e as [|x e]; [discriminate H|]. unfold fill_style_read_solid. rewrite H. reflexivity.
Qed.
Print Assumptions C89_fill.

(* ---------------- the styles of drawing programs ---------------- *)
Lemma split_pair {B} e n m (f g : list expr -> B) (other : B) : n <> m ->
  let r := if is_word e n then f [] else match list_of e n with Some a => f a | None =>
           if is_word e m then g [] else match list_of e m with Some a => g a | None => other end end in
  (exists a, chosen [n] e a /\ r = f a) \/ (exists a, chosen [m] e a /\ r = g a) \/ ((forall a, ~ chosen [n; m] e a) /\ r = other).
Proof.
  intros NE r. unfold r.
  destruct (is_word e n) eqn:A; [left; exists []; split; [apply chosen_word with n; cbn; auto|reflexivity]|].
  destruct (list_of e n) as [a|] eqn:C; [left; exists a; split; [apply chosen_list with n; cbn; auto|reflexivity]|].
  destruct (is_word e m) eqn:B0; [right; left; exists []; split; [apply chosen_word with m; cbn; auto|reflexivity]|].
  destruct (list_of e m) as [a|] eqn:D; [right; left; exists a; split; [apply chosen_list with m; cbn; auto|reflexivity]|].
  right; right. split; [|reflexivity]. intros a H. apply chosen_inv in H as (x & [<-|[<-|[]]] & [[H _]|H]); congruence.
Qed.
Lemma stroke_solid_ok W E a c w : run [(s_ "color", updf fst (rd_color W E) (fun c o => (c, snd o))); (s_ "width", upd (rd_size W E) (fun v o => (fst o, v)))] a (black, pt W E 1) = Ret (c, w) ->
  parameters (stroke_parameters W E) a /\ options (one_of ["color"%string] (rd_color W E)) a black = Ret c /\ last_or "width" a (fun b v => rd_size W E b = Ret v) (pt W E 1) w.
Proof.
  set (tbl := [(s_ "color", _); _]). intro H.
  assert (TL : tells tbl (stroke_parameters W E)) by (unfold tbl, stroke_parameters; tell).
  assert (ND : NoDup (map fst tbl)) by (unfold tbl; distinct).
  split; [apply (run_tells _ _ _ TL ND (black, pt W E 1)); eauto|]. split.
  - refine (run_proj fst tbl (one_of ["color"%string] (rd_color W E)) _ a _ _ H). unfold tbl, one_of. cbn [map]. projection.
  - refine (run_proj_last snd tbl "width" (rd_size W E) _ _ _ _ H). unfold tbl. projection.
Qed.
Definition dash_opts := (color * xr * list xr * xr)%type.
Lemma stroke_dash_ok W E a c w p o :
  run ([(s_ "color", updf (fun '(c, w, p, o) => c) (rd_color W E) (fun v '(c, w, p, o) => (v, w, p, o)));
        (s_ "width", upd (rd_size W E) (fun v '(c, w, p, o) => (c, v, p, o)));
        (s_ "pattern", upd (fun e => ended (expr_tov (rd_size W E) e [])) (fun v '(c, w, p, o) => (c, w, v, o)));
        (s_ "offset", upd (rd_size W E) (fun v '(c, w, p, o) => (c, w, p, v)))] : list (str * cmd dash_opts))
    a (black, pt W E 1, [pt W E 4; pt W E 4], Fin 0) = Ret (c, w, p, o) ->
  parameters (stroke_parameters W E ++ [("pattern"%string, fun b => exists l, lengths (rd_size W E) b l); ("offset"%string, can (rd_size W E))]) a /\
  options (one_of ["color"%string] (rd_color W E)) a black = Ret c /\
  last_or "width" a (fun b v => rd_size W E b = Ret v) (pt W E 1) w /\
  last_or "pattern" a (lengths (rd_size W E)) [pt W E 4; pt W E 4] p /\
  last_or "offset" a (fun b v => rd_size W E b = Ret v) (Fin 0) o.
Proof.
  set (tbl := [(s_ "color", _); _; _; _]). intro H. set (s0 := (black, pt W E 1, [pt W E 4; pt W E 4], Fin 0) : dash_opts) in H.
  assert (TL : tells tbl (stroke_parameters W E ++ [("pattern"%string, fun b => exists l, lengths (rd_size W E) b l); ("offset"%string, can (rd_size W E))])).
  { unfold tbl, stroke_parameters, app. tell. rewrite can_upd. unfold can. split; intros (l & Q); exists l; apply (tov_lengths _ _ _ (to_number_head W E)); exact Q. }
  assert (ND : NoDup (map fst tbl)) by (unfold tbl; distinct).
  assert (X : forall T (g : dash_opts -> T) k rd', projects g tbl [(s_ k, fun a (_ : T) => rd' a)] ->
      last_or k a (fun b v => rd' b = Ret v) (g s0) (g (c, w, p, o))) by (intros T g k rd' P; exact (run_proj_last g _ k rd' _ _ _ P H)).
  split; [apply (run_tells _ _ _ TL ND s0); eauto|]. split; [|split; [|split]].
  - refine (run_proj (fun '(c, w, p, o) => c) tbl (one_of ["color"%string] (rd_color W E)) _ a s0 _ H).
    unfold tbl, one_of. cbn [map]. unfold projects. repeat apply Forall_cons; try apply Forall_nil;
        intros b [[[c1 w1] p1] o1] s' Q; cbn [fst snd] in *; unfold upd, updf in Q; inv_bind Q; injection Q as <-; try reflexivity. cbn [assoc]. exact A.
  - refine (X _ (fun '(c, w, p, o) => w) _ _ _). unfold tbl, projects. repeat apply Forall_cons; try apply Forall_nil;
        intros b [[[c1 w1] p1] o1] s' Q; cbn [fst snd] in *; unfold upd, updf in Q; inv_bind Q; injection Q as <-; try reflexivity. cbn [assoc]. exact A.
  - assert (P1 : last_or "pattern" a (fun b v => ended (expr_tov (rd_size W E) b []) = Ret v) [pt W E 4; pt W E 4] p).
    { refine (X _ (fun '(c, w, p, o) => p) _ _ _). unfold tbl, projects. repeat apply Forall_cons; try apply Forall_nil;
        intros b [[[c1 w1] p1] o1] s' Q; cbn [fst snd] in *; unfold upd, updf in Q; inv_bind Q; injection Q as <-; try reflexivity. cbn [assoc]. exact A. }
    revert P1. unfold last_or. destruct (last_args (s_ "pattern") a); [|auto]. apply (tov_lengths _ _ _ (to_number_head W E)).
  - refine (X _ (fun '(c, w, p, o) => o) _ _ _). unfold tbl, projects. repeat apply Forall_cons; try apply Forall_nil;
        intros b [[[c1 w1] p1] o1] s' Q; cbn [fst snd] in *; unfold upd, updf in Q; inv_bind Q; injection Q as <-; try reflexivity. cbn [assoc]. exact A.
Qed.
Lemma solid_adds W E e s r : style_read_fill_solid W E e s = Ret r <-> exists c, rd_color W E e black = Ret c /\ r = style_with s (mk_compound [c] [] [] []).
Proof.
  unfold style_read_fill_solid, style_with. split.
  - intro H. inv_bind H. injection H as <-. exists v. split; [exact A|]. cbn. now rewrite !app_nil_r.
  - intros (c & H & ->). rewrite H. cbn. now rewrite !app_nil_r.
Qed.
Lemma fill_adds W E e s r : style_read_fill W E e s = Ret r -> exists p, style_adds W E (s_ "fill") e p /\ r = style_with s p.
Proof.
  unfold style_read_fill.
  destruct (split_pair e "solid" "hatch" (fun a => style_read_fill_solid W E a s) (fun a => style_read_fill_hatch W E a s) (style_read_fill_solid W E e s) ltac:(discriminate))
    as [(a & C & X)|[(a & C & X)|(C & X)]]; cbv zeta in X; rewrite X; intro H.
  - apply solid_adds in H as (c & Hc & ->). exists (mk_compound [c] [] [] []). split; [apply sa_solid with a; assumption|reflexivity].
  - unfold style_read_fill_hatch in H. inv_bind H. destruct v as [c [[[an o] st] w]]. injection H as <-.
    apply (hatch_ok W E _ _ _ _ _ _ _ _ _ (to_number_head W E)) in A. exists (mk_compound [] [mk_hatch c an o st w] [] []).
    split; [now apply sa_hatch with a|]. unfold style_with. cbn. now rewrite !app_nil_r.
  - apply solid_adds in H as (c & Hc & ->). exists (mk_compound [c] [] [] []). split; [apply sa_fill; assumption|reflexivity].
Qed.
Lemma stroke_adds W E e s r : style_read_stroke W E e s = Ret r -> exists p, style_adds W E (s_ "stroke") e p /\ r = style_with s p.
Proof.
  unfold style_read_stroke.
  destruct (split_pair e "solid" "dash" (fun a => style_read_stroke_solid W E a s) (fun a => style_read_stroke_dash W E a s) (style_read_stroke_solid_short W E e s) ltac:(discriminate))
    as [(a & C & X)|[(a & C & X)|(C & X)]]; cbv zeta in X; rewrite X; intro H.
  - unfold style_read_stroke_solid in H. inv_bind H. destruct v as [c w]. injection H as <-. apply stroke_solid_ok in A as (P & Hc & Hw).
    eexists. split; [eapply sa_stroke; eauto|]. unfold style_with. cbn. now rewrite !app_nil_r.
  - unfold style_read_stroke_dash in H. inv_bind H. destruct v as [[[c w] p] o]. injection H as <-. apply stroke_dash_ok in A as (P & Hc & Hw & Hp & Ho).
    eexists. split; [eapply sa_dash; eauto|]. unfold style_with. cbn. now rewrite !app_nil_r.
  - unfold style_read_stroke_solid_short in H. destruct e as [|x [|y [|]]]; try discriminate. inv_bind H. inv_bind H. injection H as <-.
    eexists. split; [eapply sa_short; eauto|]. unfold style_with. cbn. now rewrite !app_nil_r.
Qed.
Lemma style_with_assoc a b c : style_with (style_with a b) c = style_with a (style_with b c).
Proof. unfold style_with. cbn. now rewrite !app_assoc. Qed.
Lemma style_with_none a : style_with a no_style = a /\ style_with no_style a = a.
Proof. destruct a. unfold style_with, no_style. cbn. now rewrite !app_nil_r. Qed.

(** C89, drawing programs. The style of an element is made of what its options color, fill and
    stroke add, in order; each of them must be of one of the forms that have a meaning. *)
Theorem C89_draw_styles : forall W E e st, options (style_entries W E (fun s => s) (fun v _ => v)) e (no_style) = Ret st ->
  exists parts, Forall2 (fun ka p => style_adds W E (fst ka) (snd ka) p) (style_args e) parts /\ st = fold_left style_with parts no_style.
Proof.
  intros W E e.
  assert (G : forall s st, options (style_entries W E (fun s => s) (fun v _ => v)) e s = Ret st ->
    exists parts, Forall2 (fun ka p => style_adds W E (fst ka) (snd ka) p) (style_args e) parts /\ st = fold_left style_with parts s).
  { induction e as [|x e IH]; intros s st H.
    - injection H as <-. exists []. split; [constructor|reflexivity].
    - rewrite options_cons in H. unfold style_args. cbn [flat_map]. fold (style_args e). destruct (option_of x) as [[k a]|]; [|discriminate].
      unfold style_entries in H at 1. cbn [assoc] in H.
      destruct (str_eqb_spec k (s_ "color")) as [->|N1]; [|destruct (str_eqb_spec k (s_ "fill")) as [->|N2]; [|destruct (str_eqb_spec k (s_ "stroke")) as [->|N3]]].
      + inv_bind H. unfold updf in A. inv_bind A. injection A as <-. apply solid_adds in A0 as (c & Hc & ->).
        apply IH in H as (parts & F & ->). exists (mk_compound [c] [] [] [] :: parts). split; [|reflexivity]. cbn [orb app]. constructor; [|exact F]. now constructor.
      + inv_bind H. unfold updf in A. inv_bind A. injection A as <-. apply fill_adds in A0 as (p & Hc & ->).
        apply IH in H as (parts & F & ->). exists (p :: parts). split; [|reflexivity]. cbn [orb app]. constructor; [exact Hc|exact F].
      + inv_bind H. unfold updf in A. inv_bind A. injection A as <-. apply stroke_adds in A0 as (p & Hc & ->).
        apply IH in H as (parts & F & ->). exists (p :: parts). split; [|reflexivity]. cbn [orb app]. constructor; [exact Hc|exact F].
      + cbn [orb app]. eauto. }
  intros st H. apply G in H. exact H.
Qed.
Print Assumptions C89_draw_styles.
