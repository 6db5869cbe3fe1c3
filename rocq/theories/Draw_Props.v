(** Theorems about drawing programs: C93, and the converse part of C89. *)
From Coq Require Import Reals Lra.
From Verif Require Import Base Num Str_Model Sexpr_Model Dispatch_Model Dispatch_Proofs Data_Model Scale_Model Units_Model Units_Spec Units_Props Color_Model Geo_Model Svg_Model
  Cmd_Model Cmd_Spec Cmd_Proofs Eval_Spec Eval_Legend Style_Model Style_Spec Style_Props Source_Spec Source_Props Draw_Spec.
Local Open Scope R_scope.

(* ---------------- styles ---------------- *)
Lemma stroke_solid_iff W E a c w : run [(s_ "color", updf fst (rd_color W E) (fun c o => (c, snd o))); (s_ "width", upd (rd_size W E) (fun v o => (fst o, v)))] a (black, pt W E 1) = Ret (c, w) <->
  parameters (stroke_parameters W E) a /\ options (one_of ["color"%string] (rd_color W E)) a black = Ret c /\ last_or "width" a (fun b v => rd_size W E b = Ret v) (pt W E 1) w.
Proof.
  split; [apply stroke_solid_ok|]. intros (P & C & D). set (tbl := [(s_ "color", _); _]).
  assert (TL : tells tbl (stroke_parameters W E)) by (unfold tbl, stroke_parameters; tell).
  assert (ND : NoDup (map fst tbl)) by (unfold tbl; distinct).
  apply (run_tells _ _ _ TL ND (black, pt W E 1)) in P as ([c' w'] & R). pose proof R as R'. apply stroke_solid_ok in R' as (_ & C' & D').
  rewrite R. assert (c = c') by congruence. assert (w = w') by (eapply last_or_fun; [|exact D|exact D']; same). congruence.
Qed.
Lemma stroke_dash_iff W E a c w p o :
  run ([(s_ "color", updf (fun '(c, w, p, o) => c) (rd_color W E) (fun v '(c, w, p, o) => (v, w, p, o)));
        (s_ "width", upd (rd_size W E) (fun v '(c, w, p, o) => (c, v, p, o)));
        (s_ "pattern", upd (fun e => ended (expr_tov (rd_size W E) e [])) (fun v '(c, w, p, o) => (c, w, v, o)));
        (s_ "offset", upd (rd_size W E) (fun v '(c, w, p, o) => (c, w, p, v)))] : list (str * cmd dash_opts))
    a (black, pt W E 1, [pt W E 4; pt W E 4], Fin 0) = Ret (c, w, p, o) <->
  parameters (stroke_parameters W E ++ [("pattern"%string, fun b => exists l, lengths (rd_size W E) b l); ("offset"%string, can (rd_size W E))]) a /\
  options (one_of ["color"%string] (rd_color W E)) a black = Ret c /\
  last_or "width" a (fun b v => rd_size W E b = Ret v) (pt W E 1) w /\
  last_or "pattern" a (lengths (rd_size W E)) [pt W E 4; pt W E 4] p /\
  last_or "offset" a (fun b v => rd_size W E b = Ret v) (Fin 0) o.
Proof.
  split; [apply stroke_dash_ok|]. intros (P & C & D & F & G). set (tbl := [(s_ "color", _); _; _; _]). set (s0 := (black, pt W E 1, [pt W E 4; pt W E 4], Fin 0) : dash_opts).
  assert (TL : tells tbl (stroke_parameters W E ++ [("pattern"%string, fun b => exists l, lengths (rd_size W E) b l); ("offset"%string, can (rd_size W E))])).
  { unfold tbl, stroke_parameters, app. tell. rewrite can_upd. unfold can. split; intros (l & Q); exists l; apply (tov_lengths _ _ _ (to_number_head W E)); exact Q. }
  assert (ND : NoDup (map fst tbl)) by (unfold tbl; distinct).
  apply (run_tells _ _ _ TL ND s0) in P as ([[[c' w'] p'] o'] & R). pose proof R as R'. apply stroke_dash_ok in R' as (_ & C' & D' & F' & G').
  refine (eq_trans R _). assert (c = c') by congruence. assert (w = w') by (eapply last_or_fun; [|exact D|exact D']; same).
  assert (p = p') by (eapply last_or_fun; [|exact F|exact F']; same). assert (o = o') by (eapply last_or_fun; [|exact G|exact G']; same). congruence.
Qed.
Definition style_reader W E (k : str) (e : list expr) (s : compound) : outcome compound :=
  match assoc k (style_entries W E (fun s => s) (fun v (_ : compound) => v)) with Some f => f e s | None => Err end.
Lemma updf_id {T} (rd : list expr -> T -> outcome T) e s : updf (fun s => s) rd (fun v _ => v) e s = rd e s.
Proof. unfold updf. destruct (rd e s); reflexivity. Qed.
Lemma style_reader_color W E e s : style_reader W E (s_ "color") e s = style_read_fill_solid W E e s.
Proof. apply updf_id. Qed.
Lemma style_reader_fill W E e s : style_reader W E (s_ "fill") e s = style_read_fill W E e s.
Proof. apply updf_id. Qed.
Lemma style_reader_stroke W E e s : style_reader W E (s_ "stroke") e s = style_read_stroke W E e s.
Proof. apply updf_id. Qed.
Lemma disjoint_choice n m e a b : n <> m -> chosen [n] e a -> ~ chosen [m] e b.
Proof. intros N H G. destruct (chosen_fun _ _ _ _ _ H G) as (_ & x & [<-|[]] & [<-|[]]). congruence. Qed.
Lemma chosen_sub n m k e a : In n m -> chosen [n] e a -> (forall b, ~ chosen m e b) -> k.
Proof. intros I H N. exfalso. apply (N a). destruct H as [x w r [<-|[]] X|x w b r [<-|[]] X]; [now apply ch_word with n|now apply ch_list with n]. Qed.
(** What an option adds is what its reader does. *)
Lemma style_adds_reads W E k e p s : style_adds W E k e p -> style_reader W E k e s = Ret (style_with s p).
Proof.
  intro H. destruct H as [e c H|e c N H|e a c C H|e a h C H|e a c w C P O L|e a c w pa o C P O L1 L2 L3|e x y c w -> N R C].
  - rewrite style_reader_color. apply solid_adds. eauto.
  - rewrite style_reader_fill. unfold style_read_fill.
    destruct (split_pair e "solid" "hatch" (fun a => style_read_fill_solid W E a s) (fun a => style_read_fill_hatch W E a s) (style_read_fill_solid W E e s) ltac:(discriminate))
      as [(a & C & X)|[(a & C & X)|(C & X)]]; cbv zeta in X; rewrite X.
    + refine (chosen_sub "solid" _ _ e a _ C N); cbn; auto.
    + refine (chosen_sub "hatch" _ _ e a _ C N); cbn; auto.
    + apply solid_adds. eauto.
  - rewrite style_reader_fill. unfold style_read_fill.
    destruct (split_pair e "solid" "hatch" (fun a => style_read_fill_solid W E a s) (fun a => style_read_fill_hatch W E a s) (style_read_fill_solid W E e s) ltac:(discriminate))
      as [(b & D & X)|[(b & D & X)|(D & X)]]; cbv zeta in X; rewrite X.
    + destruct (chosen_fun _ _ _ _ _ C D) as (<- & _). apply solid_adds. eauto.
    + destruct (disjoint_choice "solid" "hatch" e a b ltac:(discriminate) C D).
    + refine (chosen_sub "solid" _ _ e a _ C D); cbn; auto.
  - rewrite style_reader_fill. unfold style_read_fill.
    destruct (split_pair e "solid" "hatch" (fun a => style_read_fill_solid W E a s) (fun a => style_read_fill_hatch W E a s) (style_read_fill_solid W E e s) ltac:(discriminate))
      as [(b & D & X)|[(b & D & X)|(D & X)]]; cbv zeta in X; rewrite X.
    + destruct (disjoint_choice "solid" "hatch" e b a ltac:(discriminate) D C).
    + destruct (chosen_fun _ _ _ _ _ C D) as (<- & _). destruct h as [c an o st w].
      apply (hatch_ok W E _ _ _ _ _ _ _ _ _ (to_number_head W E)) in H. unfold style_read_fill_hatch. rewrite H. cbn [bind]. unfold style_with. cbn. now rewrite !app_nil_r.
    + refine (chosen_sub "hatch" _ _ e a _ C D); cbn; auto.
  - rewrite style_reader_stroke. unfold style_read_stroke.
    destruct (split_pair e "solid" "dash" (fun a => style_read_stroke_solid W E a s) (fun a => style_read_stroke_dash W E a s) (style_read_stroke_solid_short W E e s) ltac:(discriminate))
      as [(b & D & X)|[(b & D & X)|(D & X)]]; cbv zeta in X; rewrite X.
    + destruct (chosen_fun _ _ _ _ _ C D) as (<- & _). unfold style_read_stroke_solid. rewrite (proj2 (stroke_solid_iff W E a c w)) by auto. cbn [bind]. unfold style_with. cbn. now rewrite !app_nil_r.
    + destruct (disjoint_choice "solid" "dash" e a b ltac:(discriminate) C D).
    + refine (chosen_sub "solid" _ _ e a _ C D); cbn; auto.
  - rewrite style_reader_stroke. unfold style_read_stroke.
    destruct (split_pair e "solid" "dash" (fun a => style_read_stroke_solid W E a s) (fun a => style_read_stroke_dash W E a s) (style_read_stroke_solid_short W E e s) ltac:(discriminate))
      as [(b & D & X)|[(b & D & X)|(D & X)]]; cbv zeta in X; rewrite X.
    + destruct (disjoint_choice "solid" "dash" e b a ltac:(discriminate) D C).
    + destruct (chosen_fun _ _ _ _ _ C D) as (<- & _). pose proof (proj2 (stroke_dash_iff W E a c w pa o) ltac:(auto)) as Q. unfold dash_opts in Q. unfold style_read_stroke_dash. rewrite Q. cbn [bind]. unfold style_with. cbn. now rewrite !app_nil_r.
    + refine (chosen_sub "dash" _ _ e a _ C D); cbn; auto.
  - rewrite style_reader_stroke. unfold style_read_stroke.
    destruct (split_pair [x; y] "solid" "dash" (fun a => style_read_stroke_solid W E a s) (fun a => style_read_stroke_dash W E a s) (style_read_stroke_solid_short W E [x; y] s) ltac:(discriminate))
      as [(b & D & X)|[(b & D & X)|(D & X)]]; cbv zeta in X; rewrite X.
    + refine (chosen_sub "solid" _ _ _ b _ D N); cbn; auto.
    + refine (chosen_sub "dash" _ _ _ b _ D N); cbn; auto.
    + unfold style_read_stroke_solid_short. rewrite (to_number_head W E x [y]), R. cbn [bind]. rewrite C. cbn [bind]. unfold style_with. cbn. now rewrite !app_nil_r.
Qed.
(** ... and the reader accepts nothing else. *)
Lemma style_reads_adds W E k e s r : style_reader W E k e s = Ret r -> exists p, style_adds W E k e p /\ r = style_with s p.
Proof.
  unfold style_reader, style_entries. cbn [assoc].
  destruct (str_eqb_spec k (s_ "color")) as [->|_]; [|destruct (str_eqb_spec k (s_ "fill")) as [->|_]; [|destruct (str_eqb_spec k (s_ "stroke")) as [->|_]; [|discriminate]]];
    rewrite updf_id; intro H.
  - apply solid_adds in H as (c & Hc & ->). eexists. split; [eapply sa_color; exact Hc|reflexivity].
  - now apply fill_adds.
  - now apply stroke_adds.
Qed.
Lemma style_with_inj s p q : style_with s p = style_with s q -> p = q.
Proof.
  unfold style_with. intro H. injection H as A B C D. apply app_inv_head in A, B, C, D. destruct p, q. cbn in *. congruence.
Qed.
Lemma style_adds_fun W E k e p q : style_adds W E k e p -> style_adds W E k e q -> p = q.
Proof. intros A B. apply (style_adds_reads _ _ _ _ _ no_style) in A, B. apply style_with_inj with no_style; congruence. Qed.
Lemma parts_fun W E l p q : Forall2 (fun ka p => style_adds W E (fst ka) (snd ka) p) l p -> Forall2 (fun ka p => style_adds W E (fst ka) (snd ka) p) l q -> p = q.
Proof. intro H. revert q. induction H as [|ka p l ps A F IH]; intros q G; inversion G; subst; [reflexivity|]. f_equal; [eapply style_adds_fun; eauto|auto]. Qed.
Lemma style_adds_something W E k e p : style_adds W E k e p -> p <> no_style.
Proof. intro H. destruct H; discriminate. Qed.

(** C89. Exactly the forms with a meaning are accepted, and the style is what they add, in order
    (the converse of C89_draw_styles). *)
Theorem C89_draw_styles_accepted : forall W E e st, options (style_entries W E (fun s => s) (fun v _ => v)) e (no_style) = Ret st <->
  Forall (fun x => option_of x <> None) e /\
  exists parts, Forall2 (fun ka p => style_adds W E (fst ka) (snd ka) p) (style_args e) parts /\ st = fold_left style_with parts no_style.
Proof.
  intros W E e st. split.
  - intro H. split; [|now apply C89_draw_styles]. revert H. generalize (no_style). induction e as [|x e IH]; intros s H; [constructor|].
    rewrite options_cons in H. destruct (option_of x) as [[k a]|] eqn:O; [|discriminate]. constructor; [congruence|].
    destruct (assoc k _); [inv_bind H; eauto|eauto].
  - intros (OK & parts & F & ->). revert OK parts F. generalize (no_style). induction e as [|x e IH]; intros s OK parts F.
    + inversion F. reflexivity.
    + apply Forall_cons_iff in OK as [OX OK]. rewrite options_cons. unfold style_args in F. cbn [flat_map] in F. fold (style_args e) in F.
      destruct (option_of x) as [[k a]|]; [|congruence]. unfold style_entries at 1. cbn [assoc].
      assert (Q : forall p, style_adds W E k a p -> style_reader W E k a s = Ret (style_with s p)) by (intro p; apply style_adds_reads).
      unfold style_reader, style_entries in Q. cbn [assoc] in Q.
      destruct (str_eqb k (s_ "color")); [|destruct (str_eqb k (s_ "fill")); [|destruct (str_eqb k (s_ "stroke"))]]; cbn [orb app] in F;
        try (inversion F as [|? p ? ps A F']; subst; cbn [fst snd] in A; rewrite (Q _ A); cbn [bind fold_left]; now apply IH).
      now apply IH.
Qed.
Print Assumptions C89_draw_styles_accepted.

(* ---------------- readers ---------------- *)
Lemma coordinate_ok W conv x v : expr_to_number (Fin 0) (fun v => xeq v (Fin 0)) (w_stod W) unit_parse conv [x] = Ret v <-> coordinate W conv x v.
Proof.
  rewrite number_ok. unfold coordinate, is_text. split.
  - intros (a & r & s & q & n & X & T & R). injection X as <- <-. exists s, q, n. tauto.
  - intros (t & q & n & T & R). exists x, [], t, q, n. tauto.
Qed.
Lemma pair_ok W cx cy b old p : rd_position W cx cy b old = Ret p <-> pair_means W cx cy b p.
Proof.
  unfold rd_position, pair_means. split.
  - intro H. inv_bind H. destruct v as [x y]. injection H as <-. unfold ended in A. cbn [vx vy].
    destruct (expr_to_vec2 _ _ _ _ cx cy b (vx old, vy old)) as [r o] eqn:V. destruct o as [[]| | | |]; try discriminate. cbn in A. injection A as ->.
    apply vec2_ok in V as (a & c & -> & A & B). apply coordinate_ok in A, B. eauto.
  - intros (x & y & -> & A & B). apply coordinate_ok in A, B. destruct p as [px py]. cbn [vx vy] in *.
    rewrite (proj2 (vec2_ok (Fin 0) (fun v => xeq v (Fin 0)) (w_stod W) unit_parse cx cy [x; y] (vx old, vy old) (px, py))) by eauto. reflexivity.
Qed.
Lemma pair_fun W cx cy b p q : pair_means W cx cy b p -> pair_means W cx cy b q -> p = q.
Proof. intros A B. apply (pair_ok W cx cy b (mk_vec2 (Fin 0) (Fin 0))) in A, B. congruence. Qed.
Lemma visible_parts W E l parts s0 : Forall2 (fun ka p => style_adds W E (fst ka) (snd ka) p) l parts ->
  style_is_visible (fold_left style_with parts s0) = true <-> l <> [] \/ style_is_visible s0 = true.
Proof.
  intro F. revert s0. induction F as [|ka p l parts A F IH]; intro s0; cbn [fold_left]; [split; [auto|intros [X|X]; [congruence|exact X]]|].
  rewrite IH. split; [left; discriminate|]. intros _. right. apply style_adds_something in A. unfold style_with, style_is_visible. cbn [fills hatches strokes dashes].
  destruct p as [[|] [|] [|] [|]]; try (destruct A; reflexivity); destruct (fills s0), (hatches s0), (strokes s0), (dashes s0); reflexivity.
Qed.
Lemma style_of_ok W E e st parts : Forall2 (fun ka p => style_adds W E (fst ka) (snd ka) p) (style_args e) parts -> st = fold_left style_with parts no_style ->
  style_of W E e (visible_or_default E st).
Proof.
  intros F ->. unfold visible_or_default. destruct (style_is_visible _) eqn:V.
  - apply so_given with parts; auto. apply (visible_parts W E _ _ _ F) in V as [V|V]; [exact V|discriminate].
  - assert (A : style_args e = []). { destruct (style_args e) eqn:A; [reflexivity|]. rewrite (proj2 (visible_parts W E _ _ no_style F)) in V by (left; congruence). discriminate. }
    now apply so_default.
Qed.
Lemma style_of_fun W E e s t : style_of W E e s -> style_of W E e t -> s = t.
Proof. intros [p s' F -> N|N] [q t' G -> M|M]; try contradiction; [|reflexivity]. now rewrite (parts_fun _ _ _ _ _ F G). Qed.
Lemma can_style {S} W E (get : S -> compound) put k f b s : assoc (s_ k) (style_entries W E get put) = Some f ->
  (exists s', f b s = Ret s') <-> allowed (style_adds W E (s_ k)) b.
Proof.
  intro H.
  assert (X : forall s', f b s = Ret s' <-> exists v, style_reader W E (s_ k) b (get s) = Ret v /\ s' = put v s).
  { intro s'. revert H. unfold style_entries, style_reader, style_entries. cbn [assoc].
    destruct (str_eqb (s_ k) (s_ "color")); [|destruct (str_eqb (s_ k) (s_ "fill")); [|destruct (str_eqb (s_ k) (s_ "stroke")); [|discriminate]]];
      intro H; injection H as <-; rewrite updf_id; unfold updf;
      match goal with |- context [bind ?t _] => destruct t end; cbn [bind]; split; try discriminate; try (intros (v & Q & _); discriminate);
      try (intro Q; injection Q as <-; eauto); intros (v & Q & ->); congruence. }
  unfold allowed. split.
  - intros (s' & Q). apply X in Q as (v & R & _). apply style_reads_adds in R as (p & A & _). eauto.
  - intros (p & A). apply (style_adds_reads _ _ _ _ _ (get s)) in A. exists (put (style_with (get s) p) s). apply X. eauto.
Qed.
Lemma can_pair {S} W cx cy (get : S -> vec2) put b s : (exists s', updf get (rd_position W cx cy) put b s = Ret s') <-> allowed (pair_means W cx cy) b.
Proof.
  unfold allowed, updf. split.
  - intros (s' & H). inv_bind H. apply pair_ok in A. eauto.
  - intros (p & H). apply (pair_ok W cx cy b (get s)) in H. rewrite H. cbn [bind]. eauto.
Qed.

Definition rect_table W E : list (str * cmd (vec2 * vec2 * compound)) :=
  ([(s_ "position", updf (fun '(p, s, st) => p) (page_position W E) (fun v '(p, s, st) => (v, s, st)));
    (s_ "size", updf (fun '(p, s, st) => s) (page_size W E) (fun v '(p, s, st) => (p, v, st)))] ++
   style_entries W E (fun '(p, s, st) => st) (fun v '(p, s, st) => (p, s, v))).
Lemma rect_tells W E : tells (rect_table W E) (rectangle_parameters W E).
Proof.
  unfold rect_table, rectangle_parameters, style_parameters, tells. cbn [app map].
  repeat (apply Forall2_cons; [cbn [fst snd]; split; [reflexivity|]|]); try apply Forall2_nil.
  - intros b s. apply can_pair.
  - intros b s. apply can_pair.
  - intros b s. exact (can_style W E (fun '(p, s, st) => st) (fun v '(p, s, st) => (p, s, v)) "color" _ b s eq_refl).
  - intros b s. exact (can_style W E (fun '(p, s, st) => st) (fun v '(p, s, st) => (p, s, v)) "fill" _ b s eq_refl).
  - intros b s. exact (can_style W E (fun '(p, s, st) => st) (fun v '(p, s, st) => (p, s, v)) "stroke" _ b s eq_refl).
Qed.
Lemma last_pair W cx cy old k e p0 p : options [(s_ k, fun b (_ : vec2) => rd_position W cx cy b old)] e p0 = Ret p -> last_or k e (pair_means W cx cy) p0 p.
Proof. intro H. apply (options_last _ (fun b => rd_position W cx cy b old)) in H. unfold last_or. destruct (last_args (s_ k) e); [now apply pair_ok in H|exact H]. Qed.
Ltac decide_keys := repeat match goal with |- context [str_eqb ?a ?b] => let r := eval vm_compute in (str_eqb a b) in change (str_eqb a b) with r end; cbv beta iota.
Ltac project3 := unfold projects; repeat apply Forall_cons; try apply Forall_nil;
  intros b [[p1 s1] st1] s' Q; cbn [fst snd] in *; unfold upd, updf in Q; inv_bind Q; injection Q as <-; try reflexivity; cbn [assoc]; unfold updf.
Lemma rect_run W E e p s st p0 s0 : run (rect_table W E) e (p0, s0, no_style) = Ret (p, s, st) ->
  parameters (rectangle_parameters W E) e /\ last_or "position" e (position_means W E) p0 p /\ last_or "size" e (size_means W E) s0 s /\
  exists parts, Forall2 (fun ka p => style_adds W E (fst ka) (snd ka) p) (style_args e) parts /\ st = fold_left style_with parts no_style.
Proof.
  intro H. split; [apply (run_tells _ _ _ (rect_tells W E) ltac:(unfold rect_table, style_entries; cbn [app]; distinct) (p0, s0, no_style)); eauto|]. split; [|split].
  - apply (last_pair W _ _ (mk_vec2 (Fin 0) (Fin 0))).
    refine (run_proj (fun '(p, s, st) => p) (rect_table W E) _ _ e (p0, s0, no_style) (p, s, st) H). unfold rect_table, style_entries. cbn [app]. project3.
    apply pair_ok. now apply pair_ok in A.
  - apply (last_pair W _ _ (mk_vec2 (Fin 0) (Fin 0))).
    refine (run_proj (fun '(p, s, st) => s) (rect_table W E) _ _ e (p0, s0, no_style) (p, s, st) H). unfold rect_table, style_entries. cbn [app]. project3.
    apply pair_ok. now apply pair_ok in A.
  - apply C89_draw_styles.
    refine (run_proj (fun '(p, s, st) => st) (rect_table W E) _ _ e (p0, s0, no_style) (p, s, st) H). unfold rect_table, style_entries. cbn [app]. project3. all: decide_keys; rewrite A; reflexivity.
Qed.

(** C93. A rectangle. *)
Theorem C93_rectangle : forall W E e out, eval_rectangle W E e = Ret out <-> rectangle_means W E e out.
Proof.
  intros W E e out. unfold eval_rectangle, rectangle_means. fold (rect_table W E). fold (page_center W E) (whole_page W E). split.
  - intro H. inv_bind H. destruct v as [[p s] st]. injection H as <-. apply rect_run in A as (P & A & B & parts & F & S). split; [exact P|].
    exists p, s, (visible_or_default E st). split; [exact A|]. split; [exact B|]. split; [now apply style_of_ok with parts|]. reflexivity.
  - intros (P & p & s & st & A & B & S & ->).
    apply (run_tells _ _ _ (rect_tells W E) ltac:(unfold rect_table, style_entries; cbn [app]; distinct) (page_center W E, whole_page W E, no_style)) in P as ([[p' s'] st'] & R).
    rewrite R. cbn [bind]. apply rect_run in R as (_ & A' & B' & parts & F & S').
    assert (p = p') by (eapply last_or_fun; [|exact A|exact A']; intros ? ? ?; apply pair_fun). assert (s = s') by (eapply last_or_fun; [|exact B|exact B']; intros ? ? ?; apply pair_fun). subst p' s'.
    unfold op_path. rewrite <- (style_of_fun W E e _ _ S (style_of_ok W E e st' parts F S')). reflexivity.
Qed.
Print Assumptions C93_rectangle.

(* ---------------- text ---------------- *)
Definition with_t_pos v o := mk_text v (t_text o) (t_font o) (t_size o) (t_style o).
Definition text_table W E : list (str * cmd text_opts) :=
  ([(s_ "position", updf t_pos (page_position W E) (fun v o => mk_text v (t_text o) (t_font o) (t_size o) (t_style o)));
    (s_ "text", upd expr_to_string (fun v o => mk_text (t_pos o) v (t_font o) (t_size o) (t_style o)));
    (s_ "font", updf t_font (rd_font W) (fun v o => mk_text (t_pos o) (t_text o) v (t_size o) (t_style o)));
    (s_ "font-size", upd (rd_font_size W E) (fun v o => mk_text (t_pos o) (t_text o) (t_font o) v (t_style o)))] ++
   style_entries W E t_style (fun v o => mk_text (t_pos o) (t_text o) (t_font o) (t_size o) v)).
Lemma string_ok b t : expr_to_string b = Ret t <-> exists x r, b = x :: r /\ is_text x t.
Proof.
  unfold expr_to_string. split.
  - destruct b as [|x r]; [discriminate|]. destruct (value_of (x :: r)) as [v|] eqn:V; [|discriminate]. intro H. injection H as <-. apply is_text_value in V. eauto.
  - intros (x & r & -> & T). apply (is_text_value x r) in T. now rewrite T.
Qed.
(** What each option of a text needs. *)
Lemma text_entry W E k f b o : assoc k (text_table W E) = Some f ->
  (exists o', f b o = Ret o') <->
  (exists k' P, In (k', P) (text_parameters W E) /\ k = s_ k' /\ P b) /\ (k = s_ "font" -> exists v, rd_font W b (t_font o) = Ret v).
Proof.
  intro H. unfold text_table in H. cbn [app assoc] in H. unfold text_parameters, style_parameters. cbn [app map].
  assert (U : forall a b, s_ a = s_ b -> a = b) by (intros a' b' X; apply (f_equal string_of_list_ascii) in X; unfold s_ in X; now rewrite !string_of_list_ascii_of_string in X).
  destruct (str_eqb_spec k (s_ "position")) as [->|N1]; [|destruct (str_eqb_spec k (s_ "text")) as [->|N2]; [|destruct (str_eqb_spec k (s_ "font")) as [->|N3];
    [|destruct (str_eqb_spec k (s_ "font-size")) as [->|N4]]]].
  - injection H as <-. unfold page_position. rewrite can_pair. split.
    + intro A. split; [|discriminate]. exists "position"%string, (allowed (position_means W E)). cbn. auto.
    + intros ((k' & P & I & K & A) & _). apply U in K. subst k'. cbn in I. destruct I as [I|I]; [injection I as <-; exact A|]. intuition discriminate.
  - injection H as <-. rewrite can_upd. split.
    + intros (t & A). split; [|discriminate]. eexists "text"%string, _. split; [cbn; right; left; reflexivity|]. split; [reflexivity|]. exists t. now apply string_ok.
    + intros ((k' & P & I & K & A) & _). apply U in K. subst k'. cbn in I. destruct I as [I|[I|I]]; [discriminate| |intuition discriminate]. injection I as <-.
      destruct A as (t & A). exists t. now apply string_ok.
  - injection H as <-. unfold updf. split.
    + intros (o' & A). inv_bind A. split; [|eauto]. eexists "font"%string, _. split; [cbn; right; right; left; reflexivity|]. split; [reflexivity|].
      unfold rd_font in A0. destruct b as [|x r]; [discriminate|]. destruct (value_of (x :: r)) as [t|] eqn:V; [|discriminate]. apply is_text_value in V. eauto.
    + intros (_ & A). destruct (A eq_refl) as (v & ->). cbn [bind]. eauto.
  - injection H as <-. rewrite can_upd. split.
    + intro A. split; [|discriminate]. eexists "font-size"%string, _. split; [cbn; right; right; right; left; reflexivity|]. split; [reflexivity|]. exact A.
    + intros ((k' & P & I & K & A) & _). apply U in K. subst k'. cbn in I. destruct I as [I|[I|[I|[I|I]]]]; try discriminate; [|intuition discriminate]. injection I as <-. exact A.
  - assert (S : exists n, k = s_ n /\ In n ["color"; "fill"; "stroke"]%string).
    { unfold style_entries in H. cbn [assoc] in H. destruct (str_eqb_spec k (s_ "color")) as [->|]; [|destruct (str_eqb_spec k (s_ "fill")) as [->|]; [|destruct (str_eqb_spec k (s_ "stroke")) as [->|]; [|discriminate]]]; eexists; (split; [reflexivity|cbn; auto]). }
    destruct S as (n & -> & I). rewrite (can_style W E t_style _ n f b o H). split.
    + intro A. split; [|intro X; contradiction]. exists n, (allowed (style_adds W E (s_ n))). split; [|auto]. cbn. cbn in I. destruct I as [<-|[<-|[<-|[]]]]; auto 10.
    + intros ((k' & P & J & K & A) & _). apply U in K. subst k'. cbn in J. cbn in I.
      destruct J as [J|[J|[J|[J|[J|[J|[J|[]]]]]]]]; injection J as <- <-; try exact A; cbn in I; intuition discriminate.
Qed.
Lemma text_keys W E k' P : In (k', P) (text_parameters W E) -> exists f, assoc (s_ k') (text_table W E) = Some f.
Proof.
  unfold text_parameters, style_parameters. cbn [app map In]. intro I.
  repeat match type of I with _ \/ _ => destruct I as [I|I] | False => destruct I end; injection I as <- _; eexists; reflexivity.
Qed.
Lemma text_run_succeeds W E a : forall o f, parameters (text_parameters W E) a -> options (one_of ["font"%string] (rd_font W)) a (t_font o) = Ret f ->
  exists o', run (text_table W E) a o = Ret o'.
Proof.
  induction a as [|x a IH]; intros o f P F; [now exists o|]. apply Forall_cons_iff in P as [(k & Q & b & I & O & R) P].
  rewrite run_cons, O. destruct (text_keys W E k Q I) as (g & G). rewrite G. rewrite options_cons, O in F. unfold one_of in F. cbn [map assoc] in F.
  assert (OK : exists o', g b o = Ret o').
  { apply (text_entry W E _ _ b o G). split; [exists k, Q; auto|]. intro X. rewrite X in F. change (str_eqb (s_ "font") (s_ "font")) with true in F. cbv iota in F. inv_bind F. eauto. }
  destruct OK as (o' & G1). rewrite G1. cbn [bind]. apply (IH o' f P).
  assert (X : projects t_font (text_table W E) (one_of ["font"%string] (rd_font W))).
  { unfold text_table, style_entries, one_of. cbn [app map]. projection. }
  destruct (str_eqb_spec (s_ k) (s_ "font")) as [K|K].
  - rewrite K in G. injection G as <-. inv_bind F. unfold updf in G1. rewrite A in G1. injection G1 as <-. exact F.
  - assert (T : t_font o' = t_font o); [|now rewrite T].
    pose proof (run_proj t_font _ _ X [x] o o') as Y. rewrite run_cons, O, G, G1 in Y. cbn [bind] in Y. rewrite run_nil in Y. specialize (Y eq_refl).
    rewrite options_cons, O in Y. unfold one_of in Y. cbn [map assoc] in Y. destruct (str_eqb_spec (s_ k) (s_ "font")); [contradiction|]. rewrite options_nil in Y. congruence.
Qed.
Lemma text_run W E a o o' : run (text_table W E) a o = Ret o' -> t_style o = no_style ->
  parameters (text_parameters W E) a /\ last_or "position" a (position_means W E) (t_pos o) (t_pos o') /\
  last_or "text" a (fun b t => exists x r, b = x :: r /\ is_text x t) (t_text o) (t_text o') /\
  options (one_of ["font"%string] (rd_font W)) a (t_font o) = Ret (t_font o') /\
  last_or "font-size" a (fun b v => rd_font_size W E b = Ret v) (t_size o) (t_size o') /\
  exists parts, Forall2 (fun ka p => style_adds W E (fst ka) (snd ka) p) (style_args a) parts /\ t_style o' = fold_left style_with parts no_style.
Proof.
  intros H S. split; [|split; [|split; [|split; [|split]]]].
  - clear S. revert o H. induction a as [|x a IH]; intros o H; [constructor|]. rewrite run_cons in H.
    destruct (option_of x) as [[k b]|] eqn:O; [|discriminate]. destruct (assoc k (text_table W E)) as [f|] eqn:F; [|discriminate]. inv_bind H. constructor; [|eapply IH; eauto].
    destruct (proj1 (text_entry W E k f b o F) (ex_intro _ _ A)) as ((k' & P & I & -> & R) & _). exists k', P, b. auto.
  - apply (last_pair W _ _ (mk_vec2 (Fin 0) (Fin 0))). refine (run_proj t_pos (text_table W E) _ _ a o o' H). unfold text_table, style_entries. cbn [app]. projection.
    apply pair_ok. now apply pair_ok in A.
  - assert (X : last_or "text" a (fun b v => expr_to_string b = Ret v) (t_text o) (t_text o')).
    { refine (run_proj_last t_text (text_table W E) "text" expr_to_string _ _ _ _ H). unfold text_table, style_entries. cbn [app]. projection. }
    revert X. unfold last_or. destruct (last_args (s_ "text") a); [|auto]. apply string_ok.
  - refine (run_proj t_font (text_table W E) _ _ a o o' H). unfold text_table, style_entries, one_of. cbn [app map]. projection.
  - refine (run_proj_last t_size (text_table W E) "font-size" (rd_font_size W E) _ _ _ _ H). unfold text_table, style_entries. cbn [app]. projection.
  - apply C89_draw_styles. rewrite <- S. refine (run_proj t_style (text_table W E) _ _ a o o' H). unfold text_table, style_entries. cbn [app]. projection.
Qed.
Lemma glyphs_painted st ps : text_shapes st ps = map (fun g => painted g st) ps.
Proof.
  unfold text_shapes, painted. apply map_ext. intro g. unfold draw_shape. cbn [dc_style dc_fill dc_stroke dc_path dc_aa f_color fill0 s_width stroke0].
  unfold xeq. destruct (Req_EM_T 0 0); [reflexivity|lra].
Qed.
(** C93. A text. *)
Theorem C93_text : forall W E e out, eval_text W E e = Ret out <-> text_means W E e out.
Proof.
  intros W E e out. unfold eval_text, text_means. fold (text_table W E). fold (page_center W E).
  set (o0 := mk_text (page_center W E) [] (e_font E) (page_font_size W E) no_style). split.
  - intro H. inv_bind H. inv_bind H. injection H as <-. rename v into o. apply text_run in A as (P & A & B & C & D & parts & F & S); [|reflexivity]. split; [exact P|].
    exists (t_pos o), (t_text o), (t_font o), (t_size o), (visible_or_default E (t_style o)), v0. split; [exact A|]. split; [exact B|]. split; [exact C|]. split; [exact D|].
    split; [now apply style_of_ok with parts|]. split; [exact A0|]. apply glyphs_painted.
  - intros (P & p & t & f & fs & st & gl & A & B & C & D & S & T & ->).
    destruct (text_run_succeeds W E e o0 f P C) as (o & R). rewrite R. cbn [bind]. apply text_run in R as (_ & A' & B' & C' & D' & parts & F & S'); [|reflexivity].
    assert (p = t_pos o) by (eapply last_or_fun; [|exact A|exact A']; intros ? ? ?; apply pair_fun).
    assert (t = t_text o) by (eapply last_or_fun; [|exact B|exact B']; intros b x y X Y; apply string_ok in X, Y; congruence).
    assert (fs = t_size o) by (eapply last_or_fun; [|exact D|exact D']; same). assert (f = t_font o) by (cbn [t_font o0] in C'; congruence). subst p t fs f.
    change (dpi E) with (l_dpi (e_layer E)). rewrite T. cbn [bind]. rewrite <- (style_of_fun W E e _ _ S (style_of_ok W E e _ parts F S')). now rewrite glyphs_painted.
Qed.
Print Assumptions C93_text.

(** C93. A drawing program draws its elements in the order in which they are written, and is
    accepted exactly if every element has a meaning. *)
Theorem C93_program : forall W E e out, draw_eval W E e = Ret out <->
  exists parts, Forall2 (element_means W E) e parts /\ out = concat parts.
Proof.
  intros W E e out. unfold draw_eval.
  assert (G : forall acc, run [(s_ "text", draws (eval_text W E)); (s_ "rectangle", draws (eval_rectangle W E))] e acc = Ret out <->
    exists parts, Forall2 (element_means W E) e parts /\ out = acc ++ concat parts).
  { induction e as [|x e IH]; intro acc.
    - rewrite run_nil. split; [intro H; injection H as <-; exists []; split; [constructor|now rewrite app_nil_r]|]. intros (parts & F & ->). inversion F. cbn. now rewrite app_nil_r.
    - rewrite run_cons. split.
      + intro H. destruct (option_of x) as [[k a]|] eqn:O; [|discriminate]. cbn [assoc] in H.
        destruct (str_eqb_spec k (s_ "text")) as [->|N1]; [|destruct (str_eqb_spec k (s_ "rectangle")) as [->|N2]; [|discriminate]].
        * inv_bind H. unfold draws in A. inv_bind A. injection A as <-. apply IH in H as (parts & F & ->). exists (v0 :: parts). split; [|cbn [concat]; now rewrite app_assoc].
          constructor; [|exact F]. apply C93_text in A0. now apply em_text with a.
        * inv_bind H. unfold draws in A. inv_bind A. injection A as <-. apply IH in H as (parts & F & ->). exists (v0 :: parts). split; [|cbn [concat]; now rewrite app_assoc].
          constructor; [|exact F]. apply C93_rectangle in A0. now apply em_rectangle with a.
      + intros (parts & F & ->). inversion F as [|? p ? ps M F']; subst. cbn [concat].
        destruct M as [a p O M|a p O M]; rewrite O; cbn [assoc].
        * apply C93_rectangle in M. change (str_eqb (s_ "rectangle") (s_ "text")) with false. change (str_eqb (s_ "rectangle") (s_ "rectangle")) with true. cbv iota.
          unfold draws at 1. rewrite M. cbn [bind]. apply IH. exists ps. split; [exact F'|cbn [concat]; now rewrite app_assoc].
        * apply C93_text in M. change (str_eqb (s_ "text") (s_ "text")) with true. cbv iota.
          unfold draws at 1. rewrite M. cbn [bind]. apply IH. exists ps. split; [exact F'|cbn [concat]; now rewrite app_assoc]. }
  apply (G []).
Qed.
Print Assumptions C93_program.

(** C93. Without rounding, a rectangle of w by h around (x, y) has its corners at x +- w/2 and
    y +- h/2. *)
Theorem C93_corners : forall W x y w h, w_d W = exact -> rectangle_around W (mk_vec2 (Fin x) (Fin y)) (mk_vec2 (Fin w) (Fin h)) =
  [MoveTo (mk_vec2 (Fin (x + w / 2)) (Fin (y + h / 2))); LineTo (mk_vec2 (Fin (x + w / 2)) (Fin (y - h / 2)));
   LineTo (mk_vec2 (Fin (x - w / 2)) (Fin (y - h / 2))); LineTo (mk_vec2 (Fin (x - w / 2)) (Fin (y + h / 2))); Close].
Proof.
  intros W x y w h D. unfold rectangle_around. rewrite D. cbn [vx vy]. unfold xdiv, xadd, xsub, exact. destruct (Req_EM_T 2 0); [lra|]. reflexivity.
Qed.
Print Assumptions C93_corners.
(** C93. Without rounding, on a page of pw by ph pixels: what the numbers of a position are. *)
Theorem C93_position : forall W E pw ph x y t1 u1 v1 n1 r1 t2 u2 v2 n2 r2 dpi, w_d W = exact -> l_dpi (e_layer E) = Fin dpi ->
  page_width W E = Fin pw -> page_height W E = Fin ph ->
  is_text x t1 -> w_stod W t1 = Some (Fin v1, n1) -> skipn n1 t1 = u1 -> In u1 [s_ "px"; s_ "mm"; s_ "pt"; s_ "%"] -> device_length dpi 0 pw u1 v1 = Some r1 ->
  is_text y t2 -> w_stod W t2 = Some (Fin v2, n2) -> skipn n2 t2 = u2 -> In u2 [s_ "px"; s_ "mm"; s_ "pt"; s_ "%"] -> device_length dpi 0 ph u2 v2 = Some r2 ->
  position_means W E [x; y] (mk_vec2 (Fin r1) (Fin r2)).
Proof.
  intros W E pw ph x y t1 u1 v1 n1 r1 t2 u2 v2 n2 r2 dpi D DP PW PH X1 S1 U1 I1 L1 X2 S2 U2 I2 L2.
  apply (pair_ok W _ _ [x; y] (mk_vec2 (Fin 0) (Fin 0))). unfold rd_position. rewrite D.
  unfold page_width, page_height in PW, PH. rewrite D in PW, PH. destruct (e_layer E) as [mw mh dp fs] eqn:L. cbn [l_dpi] in DP. subst dp.
  pose proof (C27_position (w_stod W) mw mh fs dpi pw ph t1 u1 t2 u2 v1 r1 v2 r2 n1 n2 x y (Fin 0, Fin 0)) as H. cbv zeta in H. unfold is_text in *.
  unfold expr_to_position in H. cbn [vx vy]. rewrite H; auto; tauto.
Qed.
Print Assumptions C93_position.
