(** Theorems about styles (C89, what fails) and markers (C90). *)
From Coq Require Import NArith Reals Lra.
From Verif Require Import Base Num Str_Model Utf8_Spec Sexpr_Model Dispatch_Model Dispatch_Proofs Data_Model Scale_Model Units_Model Color_Model Geo_Model Geo_Spec Geo_Proofs Geo_Props Svg_Model
  Cmd_Model Cmd_Spec Cmd_Proofs Plot_Model Plot_Spec Axis_Model Eval_Spec Eval_Legend Style_Model Style_Spec Style_Props Demo.
Local Open Scope R_scope.

(* ------------------------------------------------------------------ C89, what fails *)
Definition opt (k : string) (a : list expr) : expr := EList (EVal (s_ k) :: a).
Definition val (v : string) : expr := EVal (s_ v).

(** C89 is false for the option fill after a hatching: a later colour does not fill the shape,
    it is hatched with that colour. *)
Theorem C89_hatch_then_color_refuted : forall W E c s,
  rd_color W E [c] black = Ret s -> (forall a, ~ chosen ["none"; "hatch"; "hatched"]%string [c] a) ->
  exists r, options (fill_options W E) [opt "fill" [val "hatch"]; opt "fill" [c]] fill0 = Ret r /\ f_color r = Some s /\ f_hatch r = true.
Proof.
  intros W E c s H NC.
  assert (A : fill_style_read W E [val "hatch"] fill0 = Ret (mk_fill (Some black) true (Fin (-45)) (Fin 0) (pt W E 3) (pt W E 1))) by reflexivity.
  assert (B : fill_style_read W E [c] (mk_fill (Some black) true (Fin (-45)) (Fin 0) (pt W E 3) (pt W E 1)) = Ret (mk_fill (Some s) true (Fin (-45)) (Fin 0) (pt W E 3) (pt W E 1))).
  { apply C89_fill. exact (fm_color W E [c] (mk_fill (Some black) true (Fin (-45)) (Fin 0) (pt W E 3) (pt W E 1)) s NC H). }
  exists (mk_fill (Some s) true (Fin (-45)) (Fin 0) (pt W E 3) (pt W E 1)). split; [|split; reflexivity].
  rewrite options_cons. cbn [option_of opt fill_options assoc].
  change (str_eqb (s_ "fill") (s_ "fill")) with true. cbv iota. rewrite A. cbn [bind]. rewrite options_cons. cbn [option_of opt fill_options assoc].
  change (str_eqb (s_ "fill") (s_ "fill")) with true. cbv iota. rewrite B. reflexivity.
Qed.
Print Assumptions C89_hatch_then_color_refuted.
(** ... and a hatching after a colour is black: it does not take the colour of the element,
    while a colour after the hatching is taken. *)
Theorem C89_color_then_hatch_refuted : forall W E c s, rd_color W E [c] black = Ret s ->
  options (fill_options W E) [opt "color" [c]; opt "fill" [val "hatch"]] fill0 = Ret (mk_fill (Some black) true (Fin (-45)) (Fin 0) (pt W E 3) (pt W E 1)) /\
  options (fill_options W E) [opt "fill" [val "hatch"]; opt "color" [c]] fill0 = Ret (mk_fill (Some s) true (Fin (-45)) (Fin 0) (pt W E 3) (pt W E 1)).
Proof.
  intros W E c s H.
  assert (A : forall f, fill_style_read W E [val "hatch"] f = Ret (mk_fill (Some black) true (Fin (-45)) (Fin 0) (pt W E 3) (pt W E 1))) by reflexivity.
  split; rewrite options_cons; cbn [option_of opt fill_options assoc].
  - change (str_eqb (s_ "color") (s_ "fill")) with false. change (str_eqb (s_ "color") (s_ "color")) with true. cbv iota.
    unfold fill_style_read_solid. rewrite H. cbn [bind]. rewrite options_cons. cbn [option_of opt fill_options assoc].
    change (str_eqb (s_ "fill") (s_ "fill")) with true. cbv iota. rewrite A. reflexivity.
  - change (str_eqb (s_ "fill") (s_ "fill")) with true. cbv iota. rewrite A. cbn [bind]. rewrite options_cons. cbn [option_of opt fill_options assoc].
    change (str_eqb (s_ "color") (s_ "fill")) with false. change (str_eqb (s_ "color") (s_ "color")) with true. cbv iota.
    unfold fill_style_read_solid. rewrite H. reflexivity.
Qed.
Print Assumptions C89_color_then_hatch_refuted.
(** C89 is false for stroke-style after none: a later solid or dash draws nothing, because the
    width stays zero; and a later width draws the line although the last style is none. *)
Theorem C89_none_refuted : forall W E s,
  (exists r, options (stroke_options W E) [opt "stroke-style" [val "none"]; opt "stroke-style" [val "solid"]] s = Ret r /\
     forall p fl, shape_of p r fl None = shape_of p (mk_stroke_style (Fin 0) (s_color s) false (s_offset s) (s_pattern s)) fl None /\ strokes (dc_style (shape_of p r fl None)) = []) /\
  (forall x w, rd_size W E [x] = Ret (Fin w) -> w <> 0 ->
   exists r, options (stroke_options W E) [opt "stroke-style" [val "none"]; opt "stroke-width" [x]] s = Ret r /\
     forall p, dc_style (shape_of p r fill0 None) <> no_style).
Proof.
  intros W E s. split.
  - exists (mk_stroke_style (Fin 0) (s_color s) false (s_offset s) (s_pattern s)). split; [reflexivity|]. intros p fl. split; [reflexivity|].
    unfold shape_of, draw_shape. cbn [dc_fill dc_style dc_stroke dc_path dc_aa s_width]. destruct (f_color fl); unfold xeq; destruct (Req_EM_T 0 0); try congruence; try destruct (f_hatch fl); reflexivity.
  - intros x w H N. exists (mk_stroke_style (Fin w) (s_color s) (s_dashed s) (s_offset s) (s_pattern s)). split.
    + rewrite options_cons. cbn [option_of opt]. change (assoc (s_ "stroke-style") (stroke_options W E)) with (Some (stroke_style_read W E)). cbv iota.
      change (stroke_style_read W E [val "none"] s) with (Ret (ss_with_width (Fin 0) s)). cbn [bind]. rewrite options_cons. cbn [option_of opt].
      change (assoc (s_ "stroke-width") (stroke_options W E)) with (Some (upd (rd_size W E) ss_with_width)). cbv iota. unfold upd. rewrite H. reflexivity.
    + intro p. unfold shape_of, draw_shape. cbn [dc_fill dc_style dc_stroke dc_path dc_aa s_width f_color fill0 s_dashed]. unfold xeq. destruct (Req_EM_T w 0); [congruence|].
      destruct (s_dashed s); discriminate.
Qed.
Print Assumptions C89_none_refuted.
(** C89 is false for the fill option of a drawing program: (fill solid) is an error, although
    (stroke solid) and (fill hatch) have defaults. *)
Theorem C89_fill_solid_refuted : forall W E s r,
  style_read_fill W E (val "solid" :: r) s = Err /\
  style_read_stroke W E (val "solid" :: r) s = Ret (style_with s (mk_compound [] [] [mk_stroke black (pt W E 1)] [])) /\
  style_read_fill W E (val "hatch" :: r) s = Ret (style_with s (mk_compound [] [mk_hatch black (Fin (-45)) (Fin 0) (pt W E 6) (pt W E 2)] [] [])).
Proof. intros W E s r. unfold style_with. cbn [fills hatches strokes dashes]. rewrite !app_nil_r. repeat split. Qed.
Print Assumptions C89_fill_solid_refuted.
(** C89 is false for the borders of axes and legends: every argument is accepted, and only none
    has an effect. *)
Theorem C89_border_style_refuted : forall e s, (forall w r, e = w :: r -> ~ word "none" w) -> border_style_read e s = Ret s.
Proof.
  intros e s H. unfold border_style_read. destruct (is_word e "none") eqn:N; [|reflexivity]. apply is_word_spec in N as (w & r & -> & N). destruct (H w r eq_refl N).
Qed.
Print Assumptions C89_border_style_refuted.

(** Concrete cases: (stroke-style (dashed (pattern 3 4) (offset 1))) in a world that reads whole
    numbers, and (stroke-style dotted), which is an error. *)
Example C89_dashed_case : exists r,
  stroke_style_read demo demo_env [EList [val "dashed"; opt "pattern" [val "3"; val "4"]; opt "offset" [val "1"]]] stroke0 = Ret r /\ s_dashed r = true /\ length (s_pattern r) = 2%nat.
Proof. eexists. split; [reflexivity|]. split; reflexivity. Qed.
Example C89_dotted_case : stroke_style_read demo demo_env [val "dotted"] stroke0 = Err.
Proof. reflexivity. Qed.
Example C89_fill_case : exists r, fill_style_read demo demo_env [EList [val "hatch"; opt "angle" [val "30"]]] fill0 = Ret r /\ f_angle r = Fin 30 /\ f_hatch r = true.
Proof. eexists. split; [reflexivity|]. split; reflexivity. Qed.
Example C89_draw_case : exists st, options (style_entries demo demo_env (fun s => s) (fun v _ => v))
  [opt "fill" [val "hatch"]; opt "stroke" [val "dash"]; opt "color" [EList [val "rgb"; val "1"; val "0"; val "0"]]] no_style = Ret st /\
  length (fills st) = 1%nat /\ length (hatches st) = 1%nat /\ length (dashes st) = 1%nat.
Proof. eexists. split; [reflexivity|]. repeat split. Qed.

(* ------------------------------------------------------------------ C90 *)
Lemma s_inj a b : s_ a = s_ b -> a = b.
Proof. intro X. apply (f_equal string_of_list_ascii) in X. unfold s_ in X. now rewrite !string_of_list_ascii_of_string in X. Qed.
Definition shape_glyph (p : string * N) : str * str := (s_ (fst p), character (if (fst p =? "triangle-left-o")%string then 0x25B3%N else snd p)).
Lemma unicode_is : unicode_markers = map shape_glyph marker_shapes.
Proof. vm_compute. reflexivity. Qed.
Lemma shapes_nodup : NoDup (map fst marker_shapes).
Proof.
  set (f := fix f (l : list string) : bool := match l with [] => true | x :: r => negb (existsb (String.eqb x) r) && f r end).
  assert (G : forall l, f l = true -> NoDup l).
  { induction l as [|x l IH]; cbn [f]; [constructor|]. intro H. apply andb_true_iff in H as [A B]. constructor; [|auto].
    intro I. apply negb_true_iff in A. rewrite (proj2 (existsb_exists _ _)) in A; [discriminate|]. exists x. split; [exact I|apply String.eqb_refl]. }
  apply G. vm_compute. reflexivity.
Qed.
Lemma assoc_shapes v u : assoc v unicode_markers = Some u <-> exists n c, In (n, c) marker_shapes /\ v = s_ n /\ u = character (if (n =? "triangle-left-o")%string then 0x25B3%N else c).
Proof.
  rewrite unicode_is. generalize shapes_nodup. generalize marker_shapes. intro l. induction l as [|[n c] l IH]; cbn [map fst]; intro ND.
  - cbn. split; [discriminate|]. now intros (? & ? & [] & _).
  - apply NoDup_cons_iff in ND as [NI ND]. cbn [assoc shape_glyph fst snd]. change (shape_glyph (n, c)) with (s_ n, character (if (n =? "triangle-left-o")%string then 0x25B3%N else c)). cbn [assoc].
    destruct (str_eqb_spec v (s_ n)) as [->|NE].
    + split; [intro X; injection X as <-; exists n, c; cbn; auto|]. intros (n' & c' & [I|I] & X & ->).
      * injection I as -> ->. reflexivity.
      * apply s_inj in X as ->. exfalso. apply NI. apply (in_map fst) in I. exact I.
    + rewrite (IH ND). split.
      * intros (n' & c' & I & X). exists n', c'. cbn. tauto.
      * intros (n' & c' & [I|I] & X & Y); [injection I as -> ->; congruence|]. exists n', c'. tauto.
Qed.
Lemma word_value n w r : word n w <-> value_of (w :: r) = Some (s_ n).
Proof.
  unfold word. destruct w as [l|v|v]; cbn [value_of]; split; intro H.
  - destruct H; discriminate.
  - discriminate.
  - destruct H as [H|H]; congruence.
  - right. congruence.
  - destruct H as [H|H]; congruence.
  - left. congruence.
Qed.
Lemma names_others n c : In (n, c) marker_shapes -> n <> "circle"%string /\ n <> "circle-o"%string /\ n <> "custom"%string.
Proof.
  intro I. assert (F : forallb (fun p => negb (fst p =? "circle")%string && negb (fst p =? "circle-o")%string && negb (fst p =? "custom")%string) marker_shapes = true) by (vm_compute; reflexivity).
  rewrite forallb_forall in F. specialize (F _ I). cbn [fst] in F. apply andb_true_iff in F as [F C]. apply andb_true_iff in F as [A B].
  apply negb_true_iff in A, B, C. repeat split; now apply String.eqb_neq.
Qed.
Lemma is_word_head w r n : is_word (w :: r) n = true <-> word n w.
Proof. rewrite is_word_spec. split; [intros (w' & r' & X & Y); injection X as <- <-; exact Y|eauto]. Qed.
Lemma is_word_other w r n m : n <> m -> word n w -> is_word (w :: r) m = false.
Proof. intros N H. destruct (is_word (w :: r) m) eqn:M; [|reflexivity]. apply is_word_head in M. destruct N. now apply word_inj with w. Qed.
Lemma value_word (w : expr) r v : value_of (w :: r) = Some v -> w = EVal v \/ w = ELit v.
Proof. destruct w; cbn; intro H; try discriminate; injection H as ->; auto. Qed.

(** C90. The marker shapes that can be named, what each name gives, and that everything else is
    an error. (The name triangle-left-o gives a wrong shape, see below.) *)
Theorem C90_names : forall W e m, marker_configure W e = Ret m <-> marker_means W e m.
Proof.
  intros W e m. unfold marker_configure. split.
  - destruct e as [|w r]; [discriminate|].
    destruct (is_word (w :: r) "circle") eqn:A. { apply is_word_head in A. intro H. injection H as <-. now constructor. }
    destruct (is_word (w :: r) "circle-o") eqn:B.
    { apply is_word_head in B. cbn [tl]. destruct r as [|x r]; intro H; [injection H as <-; now constructor|]. inv_bind H. injection H as <-.
      apply mm_circle; [exact B|]. exact A0. }
    destruct (is_word (w :: r) "custom") eqn:C.
    { apply is_word_head in C. cbn [tl]. destruct r as [|x r]; [discriminate|]. destruct (value_of (x :: r)) as [t|] eqn:V; [|discriminate]. intro H. injection H as <-.
      apply mm_custom; [exact C|]. now apply value_word in V. }
    destruct (value_of (w :: r)) as [v|] eqn:V; [|discriminate]. destruct (assoc v unicode_markers) as [u|] eqn:U; [|discriminate]. intro H. injection H as <-.
    apply assoc_shapes in U as (n & c & I & -> & ->). apply word_value in V. destruct (String.eqb_spec n "triangle-left-o") as [->|N].
    + now constructor.
    + now apply mm_name with n.
  - intros [w r H|w H|w x r v H R|w x r t H X|n c w r I N H|w r H].
    + rewrite (proj2 (is_word_head w r "circle") H). reflexivity.
    + rewrite (is_word_other w [] "circle-o" "circle") by (discriminate || exact H). rewrite (proj2 (is_word_head w [] "circle-o") H). reflexivity.
    + rewrite (is_word_other w _ "circle-o" "circle") by (discriminate || exact H). rewrite (proj2 (is_word_head w _ "circle-o") H). cbn [tl].
      change (rd_float W (x :: r)) with (rd_float W [x]). rewrite R. reflexivity.
    + rewrite (is_word_other w _ "custom" "circle") by (discriminate || exact H). rewrite (is_word_other w _ "custom" "circle-o") by (discriminate || exact H).
      rewrite (proj2 (is_word_head w _ "custom") H). destruct X as [->| ->]; reflexivity.
    + destruct (names_others _ _ I) as (N1 & N2 & N3). rewrite (is_word_other w _ n "circle" N1 H), (is_word_other w _ n "circle-o" N2 H), (is_word_other w _ n "custom" N3 H).
      rewrite (proj1 (word_value n w r) H). rewrite (proj2 (assoc_shapes (s_ n) (character c))); [reflexivity|]. exists n, c. split; [exact I|]. split; [reflexivity|].
      destruct (String.eqb_spec n "triangle-left-o"); [congruence|reflexivity].
    + rewrite (is_word_other w _ "triangle-left-o" "circle") by (discriminate || exact H). rewrite (is_word_other w _ "triangle-left-o" "circle-o") by (discriminate || exact H).
      rewrite (is_word_other w _ "triangle-left-o" "custom") by (discriminate || exact H). rewrite (proj1 (word_value _ w r) H). reflexivity.
Qed.
Print Assumptions C90_names.

(** C90. Different names give different shapes, with one exception. *)
Theorem C90_distinct : forall W n1 n2 m, n1 <> n2 -> marker_configure W [val n1] = Ret m -> marker_configure W [val n2] = Ret m ->
  (n1 = "triangle-left-o" /\ n2 = "triangle-top-o" \/ n1 = "triangle-top-o" /\ n2 = "triangle-left-o")%string.
Proof.
  intros W n1 n2 m N H1 H2. apply C90_names in H1, H2.
  assert (WV : forall a b, word a (val b) -> a = b) by (intros a b [X|X]; [injection X as X; now apply s_inj in X|discriminate]).
  set (pairs := list_prod marker_shapes marker_shapes).
  assert (F : forallb (fun pq => let '(p, q) := pq in ((fst p =? fst q) || negb (str_eqb (character (snd p)) (character (snd q))))%string) pairs = true) by (vm_compute; reflexivity).
  assert (L : forallb (fun p => ((fst p =? "triangle-left-o") || (fst p =? "triangle-top-o"))%string || negb (str_eqb (character (snd p)) (character 0x25B3)))%bool marker_shapes = true) by (vm_compute; reflexivity).
  rewrite forallb_forall in F, L.
  assert (LL : forall n c, In (n, c) marker_shapes -> n <> "triangle-left-o"%string -> character c = character 0x25B3 -> n = "triangle-top-o"%string).
  { intros n c I NE Q. specialize (L _ I). cbn [fst snd] in L. rewrite Q, str_eqb_refl in L. cbn in L. rewrite orb_false_r in L. apply orb_true_iff in L as [L|L]; apply String.eqb_eq in L; congruence. }
  inversion H1 as [w r X E0|w X E0|w x r v X R E0|w x r t X T E0|n c w r I NE X E0|w r X E0]; subst;
  inversion H2 as [w' r' X' E0'|w' X' E0'|w' x' r' v' X' R' E0'|w' x' r' t' X' T' E0'|n' c' w' r' I' NE' X' E0'|w' r' X' E0']; subst;
    apply WV in X; apply WV in X'; subst; try congruence.
  - exfalso. match goal with Q : character _ = character _ |- _ => rename Q into CE end. specialize (F _ (proj2 (in_prod_iff _ _ _ _) (conj I I'))). cbn [fst snd] in F.
    rewrite CE, str_eqb_refl in F. cbn in F. rewrite orb_false_r in F. apply String.eqb_eq in F. congruence.
  - right. split; [|reflexivity]. eapply LL; eauto.
  - left. split; [reflexivity|]. eapply LL; eauto.
Qed.
Print Assumptions C90_distinct.
Theorem C90_triangle_refuted : forall W, marker_configure W [val "triangle-left-o"] = marker_configure W [val "triangle-top-o"] /\
  marker_configure W [val "triangle-left-o"] = Ret (Glyph (character 0x25B3)).
Proof. intro W. split; reflexivity. Qed.
Print Assumptions C90_triangle_refuted.
(** C90 is false for the syntax of the documentation: a marker in parentheses, such as (hexagon)
    or (custom "x"), and combined markers are errors. *)
Theorem C90_parentheses_refuted : forall W l r, marker_configure W (EList l :: r) = Err /\ marker_configure W (val "combine" :: r) = Err.
Proof. intros. split; reflexivity. Qed.
Print Assumptions C90_parentheses_refuted.

(** C90. A disk is one filled circle of the size of the marker around the point; a ring is one
    stroked circle of the same size, its border a fraction of the radius wide. *)
Theorem C90_round : forall W E m x y size c, exact_world W -> 0 <= size ->
  match m with Disk => True | Circle (Fin b) => size * b <> 0 | _ => False end ->
  exists top curves, let outline := MoveTo (P top) :: curves ++ [Close] in
    (forall q, Geo_Props.drawn top (curves ++ [Close]) q ->
       size / 2 * (size / 2) <= dist2 q (x, y) <= (1000273 / 1000000 * (size / 2)) * (1000273 / 1000000 * (size / 2))) /\
    draw_marker W E m (P (x, y)) (Fin size) c = Ret [mk_cmd outline
      (match m with
       | Circle (Fin b) => mk_compound [] [] [mk_stroke c (Fin (size / 2 * b))] []
       | _ => mk_compound [c] [] [] []
       end) stroke0 fill0 None].
Proof.
  intros W E m x y size c [D F] S M.
  destruct (C60_circle [] x y (size / 2) ltac:(lra)) as (top & curves & Q & _ & _ & _ & R). cbn [app] in Q.
  exists top, curves. cbv zeta. split; [exact R|].
  destruct m as [|b|u]; [| |destruct M]; unfold draw_marker; rewrite D; change (xmul exact (Fin size) (Fin (1 / 2))) with (Fin (size * (1 / 2)));
    replace (size * (1 / 2)) with (size / 2) by lra; rewrite Q.
  - unfold draw_path_, shape_of, draw_shape. cbn. unfold xeq. destruct (Req_EM_T 0 0); [reflexivity|lra].
  - destruct b as [b| | |]; [|destruct M|destruct M|destruct M]. unfold draw_path_, shape_of, draw_shape. cbn [dc_fill dc_style dc_stroke dc_path dc_aa f_color fill0 ss_with_width ss_with_color s_width s_dashed s_color stroke0].
    change (xmul exact (xmul exact (Fin size) (Fin b)) (Fin (1 / 2))) with (Fin (size * b * (1 / 2))). replace (size * b * (1 / 2)) with (size / 2 * b) by lra.
    unfold xeq. destruct (Req_EM_T (size / 2 * b) 0) as [Z|Z]; [exfalso; apply M; lra|]. reflexivity.
Qed.
Print Assumptions C90_round.
(** C90. The other markers are the text of the shape in the font of the page, 1.2 times the size of
    the marker, in the colour of the marker, centred at the point (what centred text is, C69). *)
Theorem C90_glyph : forall W E u p size c out, draw_marker W E (Glyph u) p size c = Ret out <->
  exists glyphs, w_text W (e_font E) (xmul (w_d W) size (Fin (w_d W (12 / 10)))) (dpi E) u p HCenter VCenter (Fin 0) = Ret glyphs /\
    out = map (fun g => mk_cmd g (mk_compound [c] [] [] []) stroke0 fill0 None) glyphs.
Proof.
  intros W E u p size c out. unfold draw_marker, draw_text_. split.
  - intro H. inv_bind H. injection H as <-. exists v. split; [exact A|]. unfold text_shapes. apply map_ext. intro g. unfold draw_shape. cbn. unfold xeq. destruct (Req_EM_T 0 0); [reflexivity|lra].
  - intros (g & A & ->). unfold k. rewrite A. cbn [bind]. f_equal. unfold text_shapes. apply map_ext. intro x. unfold draw_shape. cbn. unfold xeq. destruct (Req_EM_T 0 0); [reflexivity|lra].
Qed.
Print Assumptions C90_glyph.
Example C90_round_case : exists top curves st, draw_marker demo demo_env (Circle (Fin (1 / 5))) (P (100, 50)) (Fin 20) black = Ret [mk_cmd (MoveTo (P top) :: curves ++ [Close]) st stroke0 fill0 None] /\
  st = mk_compound [] [] [mk_stroke black (Fin (20 / 2 * (1 / 5)))] [].
Proof.
  destruct (C90_round demo demo_env (Circle (Fin (1 / 5))) 100 50 20 black demo_exact ltac:(lra) ltac:(lra)) as (top & curves & _ & H). eauto 6.
Qed.
Example C90_names_case : marker_configure demo [val "square-bullet"] = Ret (Glyph (character 0x25A3)) /\ marker_configure demo [val "star"] = Err /\
  marker_configure demo [val "custom"; val "x"] = Ret (Glyph (s_ "x")).
Proof. repeat split. Qed.
