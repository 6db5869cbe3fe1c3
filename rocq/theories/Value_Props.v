(** Theorems about the arguments of options: C95. *)
From Coq Require Import Reals Lra.
From Verif Require Import Base Num Str_Model Sexpr_Model Dispatch_Model Dispatch_Proofs Data_Model Units_Model Units_Spec Units_Proofs Units_Props
  Color_Model Color_Spec Color_Proofs Color_Props Scale_Model Cmd_Model Cmd_Proofs Style_Model Style_Spec Style_Props Source_Spec Source_Props Plot_Model Plot_Spec Value_Spec Demo.
Local Open Scope R_scope.

Lemma first_value args t : first_text args t <-> value_of args = Some t.
Proof.
  split.
  - intros (e & r & -> & T). now apply is_text_value.
  - intro V. destruct args as [|e r]; [discriminate|]. exists e, r. split; [reflexivity|]. now apply (is_text_value e r).
Qed.

(** C95, numbers: the beginning of the text, as std::stod reads it; anything else is an error. *)
Theorem C95_number : forall W args x, rd_float W args = Ret x <-> number_at W args x.
Proof.
  intros W args x. unfold rd_float, expr_to_float64, number_at. destruct (value_of args) as [t|] eqn:V.
  - split.
    + intro H. exists t. destruct (w_stod W t) as [[y n]|] eqn:S; [|discriminate]. injection H as <-. exists n.
      split; [now apply first_value|reflexivity].
    + intros (t' & n & F & S). apply first_value in F. rewrite V in F. injection F as <-. now rewrite S.
  - split; [discriminate|]. intros (t & n & F & _). apply first_value in F. congruence.
Qed.
Print Assumptions C95_number.
Theorem C95_number_error : forall W args, (forall x, ~ number_at W args x) -> rd_float W args = Err.
Proof.
  intros W args N. destruct (rd_float W args) as [x| | | |] eqn:R; [|reflexivity| | |].
  - apply C95_number in R. destruct (N x R).
  - exfalso. revert R. unfold rd_float, expr_to_float64. destruct (value_of args); [destruct (w_stod W _) as [[? ?]|]|]; discriminate.
  - exfalso. revert R. unfold rd_float, expr_to_float64. destruct (value_of args); [destruct (w_stod W _) as [[? ?]|]|]; discriminate.
  - exfalso. revert R. unfold rd_float, expr_to_float64. destruct (value_of args); [destruct (w_stod W _) as [[? ?]|]|]; discriminate.
Qed.
Print Assumptions C95_number_error.

(** C95, lengths: exactly 0 and the numbers with one of the units, in pixels. *)
Lemma page_font_exact E dpi font : page_font E dpi font -> layer_get_font_size exact (e_layer E) = Fin font.
Proof.
  intros (D & u & v & F & L). unfold layer_get_font_size, device_size. rewrite F, D. cbn [m_unit m_value].
  destruct u; try discriminate L; injection L as <-; rewrite ?from_mm_exact, ?from_pt_exact; reflexivity.
Qed.
Lemma exact_fin v : exact v = v. Proof. reflexivity. Qed.
Theorem C95_length : forall W E dpi font args r, exact_world W -> page_font E dpi font ->
  (rd_size W E args = Ret (Fin r) <-> length_at W dpi font args r) /\
  (rd_font_size W E args = Ret (Fin r) <-> length_at W dpi font args r).
Proof.
  intros W E dpi font args r [WD _] PF.
  cut (rd_size W E args = Ret (Fin r) <-> length_at W dpi font args r); [split; assumption|].
  pose proof (page_font_exact E dpi font PF) as FS. destruct PF as (D & _).
  unfold rd_size, expr_to_size, to_number. rewrite WD, number_ok. unfold length_at.
  split.
  - intros (a & rest & t & q & n & -> & T & S & H).
    assert (F : first_text (a :: rest) t) by (exists a, rest; split; [reflexivity|]; unfold is_text; tauto).
    destruct H as [(N & Z & X)|(N & u & f & U & C & X)].
    + exists t, 0, n. injection X as ->. unfold xeq in Z. destruct q as [q| | |]; try discriminate. destruct (Req_EM_T q 0) as [->|]; [|discriminate].
      split; [exact F|]. split; [exact S|]. left. auto.
    + unfold unit_parse in U. cbn [assoc] in U. remember (skipn n t) as u0 eqn:EU.
      assert (Q : exists v, q = Fin v).
      { destruct q as [v| | |]; [eauto| | |]; exfalso; revert U;
          repeat (destruct str_eqb; [intro U; injection U as <-; cbn in C; try discriminate; injection C as <-; cbn in X;
            unfold unit_from_mm, unit_from_pt, unit_from_px, unit_from_em in X; rewrite ?D, ?FS in X; cbn in X;
            repeat (destruct Rle_dec; cbn in X); unfold xsign_inf in X; repeat (destruct Rlt_dec; cbn in X); discriminate|]); discriminate. }
      destruct Q as (v & ->). exists t, v, n. split; [exact F|]. split; [exact S|]. right. exists u0. split; [now symmetry|]. clear EU.
      clear - U C X D FS.
      repeat match type of U with context [str_eqb ?a ?s] => let Q := fresh "Q" in destruct (str_eqb_spec a s) as [Q|Q] end; try discriminate;
        injection U as <-; cbn in C; try discriminate; injection C as <-; rewrite ?D, ?FS, ?from_mm_exact, ?from_pt_exact in X;
        try (unfold unit_from_em, unit_from_px in X; cbn in X; unfold exact in X); injection X as X; subst r; rewrite Q || rewrite Q0 || rewrite Q1 || rewrite Q2 || rewrite Q3;
        (split; [cbn; auto 8|cbn; f_equal; ring]).
  - intros (t & v & n & (a & rest & -> & T) & S & H). exists a, rest, t, (Fin v), n. split; [reflexivity|]. split; [unfold is_text in T; tauto|]. split; [exact S|].
    destruct H as [(N & -> & ->)|(u & U & I & L)].
    + left. split; [exact N|]. split; [|reflexivity]. unfold xeq. destruct (Req_EM_T 0 0); [reflexivity|congruence].
    + right. assert (NL : n <> length t). { intros ->. rewrite skipn_all in U. subst u. cbn in I. intuition discriminate. }
      split; [exact NL|]. rewrite U. cbn in I. destruct I as [<-|[<-|[<-|[<-|[<-|[]]]]]]; cbn in L; injection L as <-;
        eexists _, _; (split; [reflexivity|]); (split; [reflexivity|]); cbn; rewrite ?D, ?FS, ?from_mm_exact, ?from_pt_exact; try reflexivity; unfold unit_from_em; cbn; f_equal; unfold exact; ring.
Qed.
Print Assumptions C95_length.

(** C95, colours (in binary32): every form; whatever the earlier value. *)
Lemma color_lit f stod p v rest old : expr_to_color f stod p (ELit v :: rest) old = expr_to_color f stod p (EVal v :: rest) old.
Proof. reflexivity. Qed.
Lemma color_text f stod p args t old : first_text args t -> exists rest, expr_to_color f stod p args old = expr_to_color f stod p (EVal t :: rest) old.
Proof. intros (e & rest & -> & [-> | ->]); exists rest; reflexivity. Qed.
Theorem C95_color : forall W E args c old, w_f W = rnd32 -> color_at W E args c -> rd_color W E args old = Ret c.
Proof.
  intros W E args c old F H. unfold rd_color. rewrite F.
  assert (X : forall t q, first_text args t -> begins_with t (s_ "#") = true -> parse rnd32 t old = Ret (true, q) ->
    expr_to_color rnd32 (w_stod W) (e_palette E) args old = Ret q).
  { intros t q T B P. destruct (color_text rnd32 (w_stod W) (e_palette E) args t old T) as [rest ->].
    destruct (C59_hex rnd32 (w_stod W) (e_palette E) t rest old (true, q) B P) as (-> & _). reflexivity. }
  destruct H as [args a b c n1 n2 n3 T A1 A2 A3|args a1 a2 b1 b2 c1 c2 n1 n2 n3 n4 n5 n6 T A1 A2 A3 A4 A5 A6
    |args a1 a2 b1 b2 c1 c2 d1 d2 n1 n2 n3 n4 n5 n6 n7 n8 T A1 A2 A3 A4 A5 A6 A7 A8|l rest c L|args t c T D R N Q].
  - apply (X _ _ T); [reflexivity|]. now apply C39_short.
  - apply (X _ _ T); [reflexivity|]. now apply C39_round_trip.
  - apply (X _ _ T); [reflexivity|]. now apply C39_round_trip_alpha.
  - now apply C59_lists.
  - destruct (color_text rnd32 (w_stod W) (e_palette E) args t old T) as [rest ->].
    destruct (C41_cyclic_partial rnd32 (w_stod W) (e_palette E) t rest old D N R) as (c' & -> & Q'). congruence.
Qed.
Print Assumptions C95_color.
(** ... and other texts and lists are errors. *)
Theorem C95_color_error : forall W E args old,
  args = [] \/ (exists t, first_text args t /\ (forall r, t <> "#"%char :: r) /\ ~ all_digits t) \/
  (exists l rest, args = EList l :: rest /\ forall c, ~ color_list (w_stod W) l c) -> rd_color W E args old = Err.
Proof.
  intros W E args old [-> |[(t & T & N & D)|(l & rest & -> & N)]]; unfold rd_color.
  - reflexivity.
  - destruct (color_text (w_f W) (w_stod W) (e_palette E) args t old T) as [rest ->].
    assert (B : begins_with t (s_ "#") = false).
    { destruct (begins_with t (s_ "#")) eqn:B; [|reflexivity]. exfalso. unfold begins_with in B. destruct t as [|x t]; [discriminate|].
      cbn [length s_ list_ascii_of_string Nat.ltb Nat.leb firstn] in B. destruct (str_eqb_spec [x] ["#"%char]) as [Q|Q]; [|discriminate]. injection Q as ->. now apply (N t). }
    now destruct (C59_other_texts (w_f W) (w_stod W) (e_palette E) t rest old B D) as [-> _].
  - now apply C59_lists.
Qed.
Print Assumptions C95_color_error.

(** C95, limits: two numbers, the lower and the upper end; nothing else of the scale changes. *)
Theorem C95_limits : forall W args s r,
  rd_limits W args s = Ret r <->
  exists a b x y, args = [a; b] /\ number_at W [a] x /\ number_at W [b] y /\
    r = mk_scale (s_kind s) (Some x) (Some y) (s_log_base s) (s_inverted s) (s_padding s) (h_min s) (h_max s) (s_categories s) (s_cmap s).
Proof.
  intros W args s r. unfold rd_limits, expr_to_float64_opt_pair.
  assert (One : forall a rest x, number_at W [a] x <-> expr_to_float64 (w_stod W) (a :: rest) = Ret x).
  { intros a rest x. rewrite <- (C95_number W [a] x). unfold rd_float, expr_to_float64. destruct a; reflexivity. }
  split.
  - intro H. destruct args as [|a [|b [|c args]]]; try discriminate.
    destruct (expr_to_float64 (w_stod W) [a; b]) as [x| | | |] eqn:A; try discriminate.
    destruct (expr_to_float64 (w_stod W) [b]) as [y| | | |] eqn:B; try discriminate.
    injection H as <-. exists a, b, x, y. split; [reflexivity|]. split; [now apply (One a [b])|]. split; [now apply (One b [])|reflexivity].
  - intros (a & b & x & y & -> & A & B & ->). apply (One a [b]) in A. apply (One b []) in B. rewrite A, B. reflexivity.
Qed.
Print Assumptions C95_limits.

(** C95, the ends given one by one, and the padding. *)
Theorem C95_limit_min_max_padding : forall W args s r,
  ((let* v := rd_float W args in Ret (with_min v s)) = Ret r <-> exists x, number_at W args x /\
     r = mk_scale (s_kind s) (Some x) (s_max s) (s_log_base s) (s_inverted s) (s_padding s) (h_min s) (h_max s) (s_categories s) (s_cmap s)) /\
  ((let* v := rd_float W args in Ret (with_max v s)) = Ret r <-> exists x, number_at W args x /\
     r = mk_scale (s_kind s) (s_min s) (Some x) (s_log_base s) (s_inverted s) (s_padding s) (h_min s) (h_max s) (s_categories s) (s_cmap s)) /\
  ((let* v := rd_float W args in Ret (with_padding v s)) = Ret r <-> exists x, number_at W args x /\
     r = mk_scale (s_kind s) (s_min s) (s_max s) (s_log_base s) (s_inverted s) x (h_min s) (h_max s) (s_categories s) (s_cmap s)).
Proof.
  intros W args s r. repeat split; intro H.
  1, 3, 5: inv_bind H; injection H as <-; eexists; (split; [apply C95_number; eassumption|reflexivity]).
  all: destruct H as (x & N & ->); apply C95_number in N; rewrite N; reflexivity.
Qed.
Print Assumptions C95_limit_min_max_padding.

(** C95, the kind of a scale: the words and lists of [kind_step], in the order written; anything
    else is an error. *)
Lemma is_val_word e rest n : is_val (e :: rest) (s_ n) = true <-> word n e.
Proof.
  unfold is_val, word. destruct e as [l|v|v]; cbn [value_of]; (split; [intro H|intros [H|H]]); try discriminate;
    try (destruct (str_eqb_spec v (s_ n)) as [->|]; [auto|discriminate]); injection H as ->; apply str_eqb_refl.
Qed.
Lemma numbering cs i m : number_categories cs i m = rev (combine cs (seq i (length cs))) ++ m.
Proof.
  revert i m. induction cs as [|c cs IH]; intros i m; cbn [number_categories length seq combine rev]; [reflexivity|].
  rewrite IH, <- app_assoc. reflexivity.
Qed.
Lemma word_differs n m e : n <> m -> word n e -> word m e -> False.
Proof.
  intros N A B. apply N. assert (Q : s_ n = s_ m) by (unfold word in A, B; destruct A as [->| ->], B as [B|B]; congruence).
  unfold s_ in Q. apply (f_equal string_of_list_ascii) in Q. now rewrite !string_of_list_ascii_of_string in Q.
Qed.
Lemma not_val e rest n : ~ word n e -> is_val (e :: rest) (s_ n) = false.
Proof. intro N. destruct (is_val (e :: rest) (s_ n)) eqn:V; [|reflexivity]. apply is_val_word in V. contradiction. Qed.
Lemma not_headed w a rest n : ~ word n w -> list_headed (EList (w :: a) :: rest) (s_ n) = None.
Proof.
  intro N. destruct (list_headed (EList (w :: a) :: rest) (s_ n)) as [b|] eqn:V; [|reflexivity].
  apply headed_spec in V as (w' & r' & Q & H). injection Q as -> _ _. contradiction.
Qed.
Lemma is_headed w a rest n : word n w -> list_headed (EList (w :: a) :: rest) (s_ n) = Some a.
Proof. intro H. apply headed_spec. eauto. Qed.
Lemma word_list n l : ~ word n (EList l).
Proof. intros [H|H]; discriminate. Qed.
Lemma word_headed n e rest m : word n e -> list_headed (e :: rest) (s_ m) = None.
Proof. intros [->| ->]; reflexivity. Qed.

Lemma configure_step W e rest s r : plain_files W ->
  configure_kind (w_stod W) (w_read_file W) (e :: rest) s = (r, Ret tt) <->
  exists s1, kind_step W e s s1 /\ configure_kind (w_stod W) (w_read_file W) rest s1 = (r, Ret tt).
Proof.
  intro PF. cbn [configure_kind]. split.
  - intro H.
    destruct (is_val (e :: rest) (s_ "linear")) eqn:E1.
    { apply is_val_word in E1. eexists. split; [apply step_linear; exact E1|exact H]. }
    destruct (is_val (e :: rest) (s_ "log") || is_val (e :: rest) (s_ "logarithmic"))%bool eqn:E2.
    { apply orb_true_iff in E2. rewrite !is_val_word in E2. eexists. split; [apply step_log; exact E2|exact H]. }
    cbv zeta in H.
    destruct (match list_headed (e :: rest) (s_ "log") with Some a => Some a | None => list_headed (e :: rest) (s_ "logarithmic") end) as [a|] eqn:E3.
    { assert (L : exists w, e = EList (w :: a) /\ (word "log" w \/ word "logarithmic" w)).
      { destruct (list_headed (e :: rest) (s_ "log")) as [a'|] eqn:E4.
        - injection E3 as ->. apply headed_spec in E4 as (w & r' & Q & Hw). injection Q as -> _. eauto.
        - apply headed_spec in E3 as (w & r' & Q & Hw). injection Q as -> _. eauto. }
      destruct L as (w & -> & Hw). destruct (expr_to_float64 (w_stod W) a) as [b| | | |] eqn:B; try discriminate.
      eexists. split; [apply step_log_base; [exact Hw|]; apply C95_number; exact B|exact H]. }
    destruct (is_val (e :: rest) (s_ "invert") || is_val (e :: rest) (s_ "inverted"))%bool eqn:E4.
    { apply orb_true_iff in E4. rewrite !is_val_word in E4. eexists. split; [apply step_invert; exact E4|exact H]. }
    destruct (is_val (e :: rest) (s_ "categorical")) eqn:E5.
    { apply is_val_word in E5. eexists. split; [apply step_categorical; exact E5|exact H]. }
    destruct (list_headed (e :: rest) (s_ "categorical")) as [a|] eqn:E6; [|discriminate].
    apply headed_spec in E6 as (w & r' & Q & Hw). injection Q as -> <-.
    destruct (data_load_strings (w_read_file W) a (s_categories (set_categorical s))) as [cs o] eqn:D. destruct o as [[]| | | |]; try discriminate.
    eexists. split; [apply (step_categories W w a s cs Hw)|].
    + apply (C91_strings W a (s_categories s) cs PF). unfold rd_strings. change (s_categories (set_categorical s)) with (s_categories s) in D. rewrite D. reflexivity.
    + rewrite <- (numbering cs 0). exact H.
  - intros (s1 & K & H).
    destruct K as [e s Hw|e s Hw|w a s b Hw Hb|e s Hw|e s Hw|w a s cs Hw Hc].
    + apply (is_val_word e rest) in Hw. rewrite Hw. exact H.
    + rewrite (not_val e rest "linear") by (intro X; destruct Hw as [Hw|Hw]; eapply (fun N => word_differs _ _ e N Hw X); discriminate).
      assert (Q : (is_val (e :: rest) (s_ "log") || is_val (e :: rest) (s_ "logarithmic"))%bool = true) by (apply orb_true_iff; rewrite !is_val_word; exact Hw).
      rewrite Q. exact H.
    + rewrite !not_val by apply word_list. cbn [orb]. cbv zeta.
      assert (Q : match list_headed (EList (w :: a) :: rest) (s_ "log") with Some a => Some a | None => list_headed (EList (w :: a) :: rest) (s_ "logarithmic") end = Some a).
      { destruct Hw as [Hw|Hw]; [now rewrite (is_headed w a rest "log" Hw)|].
        rewrite (not_headed w a rest "log") by (intro X; eapply (fun N => word_differs _ _ w N Hw X); discriminate). now apply is_headed. }
      rewrite Q. apply C95_number in Hb. unfold rd_float in Hb. rewrite Hb. exact H.
    + assert (N : ~ word "linear" e /\ ~ word "log" e /\ ~ word "logarithmic" e).
      { repeat split; intro X; destruct Hw as [Hw|Hw]; eapply (fun N => word_differs _ _ e N Hw X); discriminate. }
      destruct N as (N1 & N2 & N3). rewrite !not_val by assumption. cbn [orb]. cbv zeta.
      assert (Q : match list_headed (e :: rest) (s_ "log") with Some a => Some a | None => list_headed (e :: rest) (s_ "logarithmic") end = None).
      { destruct Hw as [Hw|Hw]; rewrite (word_headed _ e rest "log" Hw); apply (word_headed _ e rest "logarithmic" Hw). }
      rewrite Q. assert (Q' : (is_val (e :: rest) (s_ "invert") || is_val (e :: rest) (s_ "inverted"))%bool = true) by (apply orb_true_iff; rewrite !is_val_word; exact Hw).
      rewrite Q'. exact H.
    + assert (N : ~ word "linear" e /\ ~ word "log" e /\ ~ word "logarithmic" e /\ ~ word "invert" e /\ ~ word "inverted" e).
      { repeat split; intro X; eapply (fun N => word_differs _ _ e N Hw X); discriminate. }
      destruct N as (N1 & N2 & N3 & N4 & N5). rewrite (not_val e rest _ N1), (not_val e rest _ N2), (not_val e rest _ N3). cbn [orb]. cbv zeta.
      rewrite (word_headed _ e rest "log" Hw), (word_headed _ e rest "logarithmic" Hw), (not_val e rest _ N4), (not_val e rest _ N5). cbn [orb].
      apply (is_val_word e rest) in Hw. rewrite Hw. exact H.
    + assert (N : ~ word "log" w /\ ~ word "logarithmic" w).
      { split; intro X; eapply (fun N => word_differs _ _ w N Hw X); discriminate. }
      destruct N as (N1 & N2). rewrite !not_val by apply word_list. cbn [orb]. cbv zeta.
      rewrite (not_headed w a rest _ N1), (not_headed w a rest _ N2), (is_headed w a rest _ Hw).
      apply (C91_strings W a (s_categories s) cs PF) in Hc. unfold rd_strings in Hc. change (s_categories (set_categorical s)) with (s_categories s).
      destruct (data_load_strings (w_read_file W) a (s_categories s)) as [cs' o]. apply ended_ok in Hc as [-> ->].
      rewrite <- (numbering cs 0) in H. exact H.
Qed.
Theorem C95_kind : forall W args s r, plain_files W -> (rd_kind W args s = Ret r <-> kind_at W args s r).
Proof.
  intros W args s r PF. unfold rd_kind. destruct (configure_kind (w_stod W) (w_read_file W) args s) as [r0 o] eqn:C. rewrite ended_ok.
  assert (X : (o = Ret tt /\ r0 = r) <-> configure_kind (w_stod W) (w_read_file W) args s = (r, Ret tt)).
  { rewrite C. split; [intros [-> ->]; reflexivity|]. intro Q. injection Q as -> ->. auto. }
  assert (Y : configure_kind (w_stod W) (w_read_file W) args s = (r, Ret tt) <-> kind_at W args s r); [|tauto].
  clear C X. revert s. induction args as [|e args IH]; intro s.
  - cbn. split; [intro H; injection H as ->; constructor|]. intro H. inversion H. reflexivity.
  - rewrite configure_step by assumption. split.
    + intros (s1 & K & H). econstructor; [exact K|]. now apply IH.
    + intro H. inversion H as [|? ? ? s1 ? K H']; subst. exists s1. split; [exact K|]. now apply IH.
Qed.
Print Assumptions C95_kind.

(** C95, fonts: the name is looked up, nothing else is accepted. *)
Theorem C95_font : forall W args old,
  (forall name, first_text args name -> rd_font W args old = w_font_load W name old) /\
  ((forall name, ~ first_text args name) -> rd_font W args old = Err).
Proof.
  intros W args old. unfold rd_font. split.
  - intros name T. apply first_value in T. now rewrite T.
  - intro N. destruct (value_of args) as [v|] eqn:V; [|reflexivity]. apply first_value in V. destruct (N v V).
Qed.
Print Assumptions C95_font.

(** C95, dash lengths and label paddings: px, pt and em. *)
Theorem C95_dash : forall W E dpi font args t v n u r, exact_world W -> page_font E dpi font ->
  first_text args t -> w_stod W t = Some (Fin v, n) -> skipn n t = u -> (u = s_ "px" \/ u = s_ "pt" \/ u = s_ "em") ->
  device_length dpi font 0 u v = Some r -> rd_measuren W E args = Ret (Fin r).
Proof.
  intros W E dpi font args t v n u r [WD _] PF (e & rest & -> & T) S K U L. pose proof (page_font_exact E dpi font PF) as FS. destruct PF as (D & _).
  unfold rd_measuren. rewrite WD. destruct (e_layer E) as [w h dpi' fs] eqn:EL. cbn [l_dpi] in D. subst dpi'.
  rewrite (C27_dash_partial (w_stod W) w h fs dpi font 0 v r t u n e rest); try assumption; [reflexivity|]. unfold is_text in T. tauto.
Qed.
Print Assumptions C95_dash.

(** C95, maps from data to colours. [sort] is std::map: the stops in the order of their places. *)
Theorem C95_color_map : forall W E h l rest cs kind, w_d W = exact -> w_f W = rnd32 ->
  (text h (s_ "gradient") /\ kind = Gradient \/ text h (s_ "steps") /\ kind = Steps) ->
  Forall2 (fun a s => num (w_stod W) (fst a) (Fin (fst s)) /\ color_at W E [snd a] (col (snd s))) l cs ->
  sorted_of (to_stops cs) (w_sort_stops W (to_stops cs)) ->
  exists m, rd_color_map W E (EList (h :: flat_map (fun p => [fst p; snd p]) l) :: rest) = Ret m /\
    (kind = Gradient -> forall l1 l2 k0 c0 k1 c1 value v n, w_sort_stops W (to_stops cs) = to_stops (l1 ++ (k0, c0) :: (k1, c1) :: l2) ->
       w_stod W value = Some (Fin v, n) -> k0 < Color_Spec.limited v <= k1 ->
       exists c, m value = Ret (col c) /\ each (on_line k0 k1 (Color_Spec.limited v)) c0 c1 c) /\
    (kind = Steps -> forall l1 l2 k c value v n, w_sort_stops W (to_stops cs) = to_stops (l1 ++ (k, c) :: l2) ->
       w_stod W value = Some (Fin v, n) -> k <= Color_Spec.limited v -> (forall p, In p l2 -> Color_Spec.limited v < fst p) -> m value = Ret (col c)).
Proof.
  intros W E h l rest cs kind WD WF K F S. unfold rd_color_map. rewrite WF.
  assert (R : color_map_read rnd32 (w_stod W) (e_palette E) (EList (h :: flat_map (fun p => [fst p; snd p]) l) :: rest) = Ret (kind, to_stops cs)).
  { apply (C59_maps rnd32 (w_stod W) (e_palette E) h l (to_stops cs) kind rest); [|exact K].
    clear - F WF. induction F as [|a s l cs [A B] F IH]; cbn [to_stops map]; constructor; [|exact IH]. cbn [fst snd]. split; [exact A|].
    apply (C95_color W E _ _ black WF) in B. unfold rd_color in B. now rewrite WF in B. }
  rewrite R. cbn [bind]. eexists. split; [reflexivity|]. split; intros ->; cbv iota.
  - intros l1 l2 k0 c0 k1 c1 value v n L V I. rewrite WD. exact (C40_gradient_partial (w_stod W) cs _ l1 l2 k0 c0 k1 c1 value v n S L V I).
  - intros l1 l2 k c value v n L V I1 I2. destruct (C40_steps (w_stod W) cs _ value v n S V) as [H _]. exact (H l1 k c l2 L I1 I2).
Qed.
Print Assumptions C95_color_map.

(** C95, maps from data to sizes: (linear A B), from A for 0 to B for 1. *)
Theorem C95_size_map : forall W E dpi font h a b rest ta tb va vb na nb ua ub ra rb, exact_world W -> page_font E dpi font ->
  word "linear" h -> is_text a ta -> is_text b tb ->
  w_stod W ta = Some (Fin va, na) -> skipn na ta = ua -> (ua = s_ "px" \/ ua = s_ "pt" \/ ua = s_ "em") -> device_length dpi font 0 ua va = Some ra ->
  w_stod W tb = Some (Fin vb, nb) -> skipn nb tb = ub -> (ub = s_ "px" \/ ub = s_ "pt" \/ ub = s_ "em") -> device_length dpi font 0 ub vb = Some rb ->
  exists m, rd_size_map W E (EList [h; a; b] :: rest) = Ret m /\
    forall value v n, w_stod W value = Some (Fin v, n) -> exists s, m value = Ret s /\ m_value s = Fin (ra + (rb - ra) * Color_Spec.limited v).
Proof.
  intros W E dpi font h a b rest ta tb va vb na nb ua ub ra rb [WD _] PF Hh Ta Tb Sa Ka Ua La Sb Kb Ub Lb.
  pose proof (page_font_exact E dpi font PF) as FS. destruct PF as (D & _). unfold rd_size_map. rewrite WD.
  destruct (e_layer E) as [w hh dpi' fs] eqn:EL. cbn [l_dpi] in D. subst dpi'.
  assert (A : measure_readn exact (w_stod W) (mk_layer w hh (Fin dpi) fs) [EVal ta] = Ret (from_unit (Fin ra)))
    by (apply (C27_dash_partial (w_stod W) w hh fs dpi font 0 va ra ta ua na); auto).
  assert (B : measure_readn exact (w_stod W) (mk_layer w hh (Fin dpi) fs) [EVal tb] = Ret (from_unit (Fin rb)))
    by (apply (C27_dash_partial (w_stod W) w hh fs dpi font 0 vb rb tb ub nb); auto).
  eexists. split; [eapply C55_reader; [unfold word in Hh; tauto|unfold is_text in Ta; apply or_comm; exact Ta|apply or_comm; exact Tb|exact A|exact B]|].
  intros value v n V. eexists. split; [unfold from_unit; eapply C55_size_map; exact V|]. reflexivity.
Qed.
Print Assumptions C95_size_map.

(** A world in which a few texts are numbers; the page is the default one. *)
Definition few (t : str) : option (xr * nat) :=
  if str_eqb t (s_ "2pt") then Some (Fin 2, 1%nat) else if str_eqb t (s_ "0") then Some (Fin 0, 1%nat)
  else if str_eqb t (s_ "10") then Some (Fin 10, 2%nat) else if str_eqb t (s_ "1") then Some (Fin 1, 1%nat) else None.
Definition few_world (f : R -> R) : world :=
  mk_world exact f few (fun _ => []) (fun _ => false) (fun _ => None) (fun _ _ => []) (fun l => l) (fun l => l)
    (fun _ f => Ret f) (fun _ _ _ _ pos _ _ _ => Ret []) (fun _ _ _ _ => Err) 1000.
Example C95_length_example : page_font demo_env 192 (11 / 72 * 192) /\
  rd_size (few_world exact) demo_env [EVal (s_ "2pt")] = Ret (Fin (2 / 72 * 192)) /\
  (forall x, rd_size (few_world exact) demo_env [EVal (s_ "10")] <> Ret (Fin x)).
Proof.
  assert (P : page_font demo_env 192 (11 / 72 * 192)).
  { split; [reflexivity|]. exists PT, 11. split; reflexivity. }
  split; [exact P|]. assert (X : exact_world (few_world exact)) by (split; reflexivity). split.
  - apply (C95_length _ _ 192 (11 / 72 * 192) _ _ X P). exists (s_ "2pt"), 2, 1%nat. split; [|split; [reflexivity|]].
    + exists (EVal (s_ "2pt")), []. split; [reflexivity|now left].
    + right. exists (s_ "pt"). split; [reflexivity|]. split; [cbn; auto|reflexivity].
  - intros x H. apply (C95_length _ _ 192 (11 / 72 * 192) _ _ X P) in H as (t & v & n & (e & r & Q & T) & S & C).
    injection Q as <- <-. destruct T as [T|T]; [injection T as <-|discriminate]. cbn in S. injection S as <- <-.
    destruct C as [(_ & C & _)|(u & <- & I & _)]; [lra|]. cbn in I. intuition discriminate.
Qed.
Example C95_kind_example : exists r, rd_kind (few_world exact) [EVal (s_ "linear"); EList [EVal (s_ "log"); EVal (s_ "2pt")]; EVal (s_ "inverted")] scale0 = Ret r /\
  s_kind r = Logarithmic /\ s_log_base r = Fin 2 /\ s_inverted r = true.
Proof. eexists. split; [reflexivity|]. repeat split. Qed.
Example C95_categories_example : kind_at (few_world exact) [EList [EVal (s_ "categorical"); EVal (s_ "a"); EVal (s_ "b")]] scale0
  (mk_scale Categorical None None (Fin 10) false (Fin (1 / 2)) None None [s_ "a"; s_ "b"] [(s_ "b", 1%nat); (s_ "a", 0%nat)]).
Proof.
  eapply kind_more; [|apply kind_end]. apply (step_categories (few_world exact) _ _ scale0 [s_ "a"; s_ "b"]); [now left|].
  right. split; [|repeat (constructor; [now left|]); constructor]. intros (w & a & r & Q & _). discriminate.
Qed.
Example C95_color_example : rd_color (few_world rnd32) demo_env [EVal (s_ "#f80")] black = Ret (mk_color (part 15 15) (part 8 15) (part 0 15) (Fin 1)) /\
  rd_color (few_world rnd32) demo_env [EList [ELit (s_ "rgb"); EVal (s_ "1"); EVal (s_ "0"); EVal (s_ "1")]] black = Ret (mk_color (Fin 1) (Fin 0) (Fin 1) (Fin 1)).
Proof.
  split; (apply C95_color; [reflexivity|]).
  - eapply color_short; [eexists _, _; split; [reflexivity|now left]| | |]; vm_compute; auto.
  - apply color_written. apply cl_rgb; [vm_compute; auto|..]; (eexists _, _; split; [right; reflexivity|reflexivity] || (eexists _, _; split; [left; reflexivity|reflexivity])).
Qed.
Example C95_map_example : exists m, rd_color_map (few_world rnd32) demo_env
    [EList [EVal (s_ "steps"); EVal (s_ "0"); EList [ELit (s_ "rgb"); EVal (s_ "1"); EVal (s_ "0"); EVal (s_ "1")]]] = Ret m /\
  m (s_ "10") = Ret (col (mk_rgba 1 0 1 1)).
Proof.
  destruct (C95_color_map (few_world rnd32) demo_env (EVal (s_ "steps"))
    [(EVal (s_ "0"), EList [ELit (s_ "rgb"); EVal (s_ "1"); EVal (s_ "0"); EVal (s_ "1")])] [] [(0, mk_rgba 1 0 1 1)] Steps eq_refl eq_refl) as (m & R & _ & H).
  - right. split; [vm_compute; auto|reflexivity].
  - constructor; [|constructor]. cbn [fst snd]. split.
    + eexists _, _. split; [vm_compute; auto|reflexivity].
    + apply color_written. apply cl_rgb; [vm_compute; auto|..]; (eexists _, _; split; [vm_compute; auto|reflexivity]).
  - split; [constructor; constructor|]. constructor; constructor.
  - exists m. split; [exact R|]. apply (H eq_refl [] [] 0 (mk_rgba 1 0 1 1) (s_ "10") 10 2%nat); [reflexivity|reflexivity| |intros p []].
    unfold Color_Spec.limited. apply Rmax_l.
Qed.
