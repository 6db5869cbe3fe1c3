(** C105: the options of a scale. *)
From Coq Require Import Reals Lra.
From Verif Require Import Base Sexpr_Model Dispatch_Model Data_Model Data_Spec Dispatch_Proofs Num Scale_Model Scale_Spec Scale_Proofs2 Scale_Proofs3 ScaleOpt_Spec.
#[local] Open Scope R_scope.

Lemma word_val e w rest : is_val (e :: rest) (s_ w) = true <-> word e w.
Proof.
  unfold is_val, value_of, word. destruct e as [l|v|v]; [split; [discriminate|intros [E|E]; discriminate]| |];
    destruct (str_eqb_spec v (s_ w)) as [->|N]; split; auto; try discriminate; intros [E|E]; try discriminate E; injection E as E; contradiction.
Qed.
Lemma word_list e w rest a : list_headed (e :: rest) (s_ w) = Some a <-> exists h, e = EList (h :: a) /\ word h w.
Proof.
  unfold list_headed, word. destruct e as [l|v|v]; [|split; [discriminate|intros (h & E & _); discriminate]..].
  destruct l as [|h l]; cbn [value_of tl]; [split; [discriminate|intros (x & E & _); discriminate]|].
  assert (D : forall x : expr, (exists h0, EList (h :: l) = EList (h0 :: a) /\ (h0 = EVal (s_ w) \/ h0 = ELit (s_ w))) <-> l = a /\ (h = EVal (s_ w) \/ h = ELit (s_ w))).
  { intros _. split; [intros (y & E & X); injection E as <- ->; auto|intros [-> X]; eauto]. }
  rewrite (D h). clear D. destruct h as [k|v|v]; cbn [value_of].
  - split; [discriminate|]. intros [_ [X|X]]; discriminate.
  - destruct (str_eqb_spec v (s_ w)) as [->|N]; split; intro H; [injection H as <-; auto|now destruct H as [-> _]|discriminate|].
    destruct H as [_ [X|X]]; try discriminate X; injection X as X; contradiction.
  - destruct (str_eqb_spec v (s_ w)) as [->|N]; split; intro H; [injection H as <-; auto|now destruct H as [-> _]|discriminate|].
    destruct H as [_ [X|X]]; try discriminate X; injection X as X; contradiction.
Qed.

(** Reading one option, as a function. *)
Definition classify (stod : str -> option (xr * nat)) (e : expr) : option said :=
  if is_val [e] (s_ "linear") then Some SaysLinear
  else if is_val [e] (s_ "log") || is_val [e] (s_ "logarithmic") then Some SaysLog
  else match (match list_headed [e] (s_ "log") with Some a => Some a | None => list_headed [e] (s_ "logarithmic") end) with
       | Some args => match expr_to_float64 stod args with Ret b => Some (SaysLogBase b) | _ => None end
       | None =>
           if is_val [e] (s_ "invert") || is_val [e] (s_ "inverted") then Some SaysInvert
           else if is_val [e] (s_ "categorical") then Some SaysCategorical
           else match list_headed [e] (s_ "categorical") with Some a => Some (SaysCategories a) | None => None end
       end.
Lemma classify_says stod e o : says stod e o <-> classify stod e = Some o.
Proof.
  split.
  - intro H. destruct H as [e [->| ->]|e [[->| ->]|[->| ->]]|w x rest v b n [[->| ->]|[->| ->]] [->| ->] V|e [[->| ->]|[->| ->]]|e [->| ->]|w a [->| ->]]; try reflexivity;
      (transitivity (match expr_to_float64 stod [EVal v] with Ret b0 => Some (SaysLogBase b0) | _ => None end); [reflexivity|]; unfold expr_to_float64; cbn [value_of]; rewrite V; reflexivity).
  - unfold classify. destruct (is_val [e] (s_ "linear")) eqn:A1; [intro E; injection E as <-; apply word_val in A1; now constructor|].
    destruct (is_val [e] (s_ "log")) eqn:A2; [intro E; injection E as <-; apply word_val in A2; constructor; now left|].
    destruct (is_val [e] (s_ "logarithmic")) eqn:A3; [intro E; injection E as <-; apply word_val in A3; constructor; now right|]. cbn [orb].
    assert (LB : forall w args, (w = "log" \/ w = "logarithmic")%string -> list_headed [e] (s_ w) = Some args ->
                 match expr_to_float64 stod args with Ret b => Some (SaysLogBase b) | _ => None end = Some o -> says stod e o).
    { intros w args W L E. apply word_list in L as (h & -> & Wh). unfold expr_to_float64 in E. destruct args as [|x args]; [discriminate|].
      assert (WW : word h "log" \/ word h "logarithmic") by (destruct W; subst; auto).
      destruct x as [l|v|v]; cbn [value_of] in E; try discriminate; destruct (stod v) as [[b n]|] eqn:V; try discriminate; injection E as <-; eapply says_base; eauto. }
    destruct (list_headed [e] (s_ "log")) as [args|] eqn:A4; [apply (LB "log"%string); auto|].
    destruct (list_headed [e] (s_ "logarithmic")) as [args|] eqn:A5; [apply (LB "logarithmic"%string); auto|].
    destruct (is_val [e] (s_ "invert")) eqn:A6; [intro E; injection E as <-; apply word_val in A6; constructor; now left|].
    destruct (is_val [e] (s_ "inverted")) eqn:A7; [intro E; injection E as <-; apply word_val in A7; constructor; now right|]. cbn [orb].
    destruct (is_val [e] (s_ "categorical")) eqn:A8; [intro E; injection E as <-; apply word_val in A8; now constructor|].
    destruct (list_headed [e] (s_ "categorical")) as [a|] eqn:A9; [|discriminate]. intro E. injection E as <-. apply word_list in A9 as (h & -> & Wh). now constructor.
Qed.
(** What an option does to the scale. *)
Definition applied (read_file : str -> option str) (o : said) (s : scale) : option scale :=
  match o with
  | SaysLinear => Some (set_kind s Linear)
  | SaysLog => Some (set_kind s Logarithmic)
  | SaysLogBase b => Some (set_log_base (set_kind s Logarithmic) b)
  | SaysInvert => Some (set_inverted s)
  | SaysCategorical => Some (set_categorical s)
  | SaysCategories a => match data_load_strings read_file a (s_categories s) with
                        | (c, Ret _) => Some (index_categories (set_categories (set_categorical s) c))
                        | _ => None
                        end
  end.
Lemma configure_step stod read_file e rest s s' : configure_kind stod read_file (e :: rest) s = (s', Ret tt) <->
  exists o s1, says stod e o /\ applied read_file o s = Some s1 /\ configure_kind stod read_file rest s1 = (s', Ret tt).
Proof.
  assert (G : configure_kind stod read_file (e :: rest) s = (s', Ret tt) <->
    match classify stod e with Some o => match applied read_file o s with Some s1 => configure_kind stod read_file rest s1 = (s', Ret tt) | None => False end | None => False end).
  { cbn [configure_kind]. unfold classify.
    change (is_val (e :: rest) ?x) with (is_val [e] x). change (list_headed (e :: rest) ?x) with (list_headed [e] x).
    destruct (is_val [e] (s_ "linear")); [reflexivity|]. destruct (is_val [e] (s_ "log") || is_val [e] (s_ "logarithmic")); [reflexivity|].
    destruct (match list_headed [e] (s_ "log") with Some a => Some a | None => list_headed [e] (s_ "logarithmic") end) as [args|].
    { destruct (expr_to_float64 stod args); [reflexivity| | | |]; split; try discriminate; intros []. }
    destruct (is_val [e] (s_ "invert") || is_val [e] (s_ "inverted")); [reflexivity|]. destruct (is_val [e] (s_ "categorical")); [reflexivity|].
    destruct (list_headed [e] (s_ "categorical")) as [a|]; [|split; [discriminate|intros []]]. cbn [applied].
    change (s_categories (set_categorical s)) with (s_categories s). destruct (data_load_strings read_file a (s_categories s)) as [c [u| | | |]]; [reflexivity| | | |]; split; try discriminate; intros []. }
  rewrite G. split.
  - intro H. destruct (classify stod e) as [o|] eqn:C; [|destruct H]. destruct (applied read_file o s) as [s1|] eqn:A; [|destruct H]. exists o, s1. split; [now apply classify_says|auto].
  - intros (o & s1 & S & A & H). apply classify_says in S. now rewrite S, A.
Qed.

(** C105. The options of a scale are understood exactly when each says one of the known things, and
    its lists of categories can be read; then the kind, the base, the direction and the padding are what
    was said last, or else what they were; the categories are those left by reading the lists given, in
    order (words replace what was there, C105_words; a column of a file is added to it); the limits and the fitted data are not touched. *)
Theorem C105_options : forall (stod : str -> option (xr * nat)) (read_file : str -> option str) (e : list expr) (s s' : scale),
  configure_kind stod read_file e s = (s', Ret tt) ->
  exists os, Forall2 (says stod) e os /\
    s_kind s' = last_said kind_said os (s_kind s) /\ s_log_base s' = last_said base_said os (s_log_base s) /\
    s_inverted s' = last_said invert_said os (s_inverted s) /\ s_padding s' = last_said padding_said os (s_padding s) /\
    loaded (data_load_strings read_file) (sources os) (s_categories s) (s_categories s') /\
    s_min s' = s_min s /\ s_max s' = s_max s /\ h_min s' = h_min s /\ h_max s' = h_max s.
Proof.
  intros stod rf e. induction e as [|x e IH]; intros s s' E.
  - cbn in E. injection E as <-. exists []. split; [constructor|]. repeat split. constructor.
  - apply configure_step in E as (o & s1 & S & A & E). destruct (IH _ _ E) as (os & F & K & B & I & P & L & M1 & M2 & M3 & M4). exists (o :: os).
    split; [now constructor|].
    destruct o; cbn [applied] in A;
      try (injection A as <-; cbn [set_kind set_log_base set_inverted set_categorical set_categories index_categories s_kind s_log_base s_inverted s_padding s_categories s_min s_max h_min h_max] in *;
           unfold last_said in *; cbn [fold_left kind_said base_said invert_said padding_said]; repeat split; assumption).
    destruct (data_load_strings rf source (s_categories s)) as [c [u| | | |]] eqn:D; try discriminate. destruct u.
    injection A as <-; cbn [set_kind set_log_base set_inverted set_categorical set_categories index_categories s_kind s_log_base s_inverted s_padding s_categories s_min s_max h_min h_max] in *.
    unfold last_said in *; cbn [fold_left kind_said base_said invert_said padding_said]. repeat split; try assumption. cbn [sources flat_map app]. econstructor; [exact D|exact L].
Qed.
Print Assumptions C105_options.
Theorem C105_accepted : forall (stod : str -> option (xr * nat)) (read_file : str -> option str) (e : list expr) (s : scale),
  (exists s', configure_kind stod read_file e s = (s', Ret tt)) <->
  exists os c, Forall2 (says stod) e os /\ loaded (data_load_strings read_file) (sources os) (s_categories s) c.
Proof.
  intros stod rf e s. split.
  - intros (s' & E). apply C105_options in E as (os & F & _ & _ & _ & _ & L & _). eauto.
  - intros (os & c & F & L). revert s L. induction F as [|x o e os S F IH]; intros s L; [eexists; reflexivity|].
    assert (A : exists s1, applied rf o s = Some s1 /\ loaded (data_load_strings rf) (sources os) (s_categories s1) c).
    { destruct o; try (eexists; split; [reflexivity|exact L]). cbn [sources flat_map app] in L. inversion L as [|a r c0 c' c'' D L']; subst. cbn [applied]. rewrite D.
      eexists. split; [reflexivity|]. exact L'. }
    destruct A as (s1 & A & L1). destruct (IH s1 L1) as (s' & E). exists s'. apply configure_step. eauto.
Qed.
Print Assumptions C105_accepted.
(** C105. Without options a scale is linear, with base 10, from the smallest to the largest value. *)
Theorem C105_default : s_kind scale0 = Linear /\ s_log_base scale0 = Fin 10 /\ s_inverted scale0 = false /\ s_padding scale0 = Fin 0 /\
  s_min scale0 = None /\ s_max scale0 = None /\ h_min scale0 = None /\ h_max scale0 = None /\ s_categories scale0 = [].
Proof. repeat split. Qed.
Print Assumptions C105_default.
(** C105. The limits of a scale: each is the one given, or that of the data, widened by the padding, or
    without data 0 and 1. *)
Theorem C105_limits : forall (s : scale) (p : R), s_padding s = Fin p ->
  (forall m, s_min s = Some m -> scale_min exact exact s = m) /\ (forall m, s_max s = Some m -> scale_max exact exact s = m) /\
  (forall lo, s_min s = None -> h_min s = Some (Fin lo) -> scale_min exact exact s = Fin (lo - p)) /\
  (forall hi, s_max s = None -> h_max s = Some (Fin hi) -> scale_max exact exact s = Fin (hi + p)) /\
  (s_min s = None -> h_min s = None -> scale_min exact exact s = Fin 0) /\
  (s_max s = None -> h_max s = None -> scale_max exact exact s = Fin 1).
Proof.
  intros s p P. unfold scale_min, scale_max. rewrite P. repeat split.
  - now intros m ->.
  - now intros m ->.
  - now intros lo -> ->.
  - now intros hi -> ->.
  - now intros -> ->.
  - now intros -> ->.
Qed.
Print Assumptions C105_limits.

(** C105. Lengths on a scale: a part of the range, or a whole unit on a categorical scale, whatever
    the direction. *)
Theorem C105_lengths : forall (s : scale) (lo hi v : R),
  (s_kind s = Categorical -> translate_magnitude exact exact s (Fin v) = Fin 1) /\
  (s_kind s <> Categorical -> scale_min exact exact s = Fin lo -> scale_max exact exact s = Fin hi -> lo <> hi ->
   translate_magnitude exact exact s (Fin v) = Fin (v / (hi - lo))).
Proof.
  intros s lo hi v. unfold translate_magnitude. split.
  - now intros ->.
  - intros K A B N. rewrite A, B. replace (xsub exact (Fin hi) (Fin lo)) with (Fin (hi - lo)) by reflexivity.
    destruct (s_kind s); try contradiction; unfold xdiv, exact; destruct (Req_EM_T (hi - lo) 0); try lra; reflexivity.
Qed.
Print Assumptions C105_lengths.
(** C105. Categories given as words are the categories, in order, whatever they were before. *)
Theorem C105_words : forall (stod : str -> option (xr * nat)) (read_file : str -> option str) (words : list str) (e : list expr) (s : scale),
  Forall2 (fun v x => x = ELit v \/ x = EVal v) words e ->
  exists s', configure_kind stod read_file [EList (EVal (s_ "categorical") :: e)] s = (s', Ret tt) /\
    s_kind s' = Categorical /\ s_categories s' = words /\
    (forall i w, NoDup words -> nth_error words i = Some w -> assoc w (s_cmap s') = Some i).
Proof.
  intros stod rf words e s V.
  assert (D : data_load_strings rf e (s_categories s) = (words, Ret tt)).
  { unfold data_load_strings. assert (list_headed e (s_ "csv") = None) as -> by (destruct V as [|v x vs e [->| ->] F]; reflexivity). now apply strings_ok. }
  eexists. split; [apply configure_step|].
  - exists (SaysCategories e). eexists. split; [constructor; now left|]. cbn [applied]. rewrite D. split; reflexivity.
  - split; [reflexivity|]. split; [reflexivity|]. intros i w N I. cbn. apply (assoc_number_last words 0); auto. now apply nodup_last.
Qed.
Print Assumptions C105_words.
(** C105. Two lists of words: the categories of the first are forgotten by the number of cells but not
    by the lookup, so that a value that is no category any more is placed upon the last category instead
    of being an error (C23_unknown_value). *)
Theorem C105_replaced_refuted : forall (f : R -> R) show stod is_number read_file, exists s,
  configure_kind stod read_file
    [EList [EVal (s_ "categorical"); EVal (s_ "a"); EVal (s_ "b")]; EList [EVal (s_ "categorical"); EVal (s_ "d")]] scale0 = (s, Ret tt) /\
  s_categories s = [s_ "d"] /\
  translatev_buf exact f show stod is_number s (databuf_add_text xr (empty_buf xr) (s_ "b")) = Ret [Fin (cell_centre 1 0)] /\
  translatev_buf exact f show stod is_number s (databuf_add_text xr (empty_buf xr) (s_ "d")) = Ret [Fin (cell_centre 1 0)].
Proof.
  intros f show stod isn rf. eexists. split; [reflexivity|]. split; [reflexivity|]. split.
  - unfold translatev_buf. cbn [s_kind index_categories set_categories set_categorical].
    match goal with |- context[map_categories exact show ?s _ _] =>
      transitivity (translatev exact f s [Fin (INR 1)]); [reflexivity|];
      cbn [translatev]; unfold scale_translate; change (s_kind s) with Categorical; cbn iota;
      assert (U : to_unsigned 64 (Fin (INR 1)) = Ret 1%nat) by (apply (to_unsigned_INR 1 2); [reflexivity|lia]);
      rewrite U; cbn [bind]; rewrite (translate_categorical_clamped s 1) by (auto; lia); reflexivity end.
  - unfold translatev_buf. cbn [s_kind index_categories set_categories set_categorical].
    match goal with |- context[map_categories exact show ?s _ _] =>
      transitivity (translatev exact f s [Fin (INR 0)]); [reflexivity|];
      cbn [translatev]; unfold scale_translate; change (s_kind s) with Categorical; cbn iota;
      assert (U : to_unsigned 64 (Fin (INR 0)) = Ret 0%nat) by (apply (to_unsigned_INR 0 2); [reflexivity|lia]);
      rewrite U; cbn [bind]; rewrite (translate_categorical_ok s 1 0) by (auto; lia); reflexivity end.
Qed.
Print Assumptions C105_replaced_refuted.
Example C105_case : forall read_file, exists s',
  configure_kind (fun v => if str_eqb v (s_ "2") then Some (Fin 2, 1%nat) else None) read_file
    [EVal (s_ "linear"); EVal (s_ "invert"); EList [EVal (s_ "log"); EVal (s_ "2")]] scale0 = (s', Ret tt) /\
  s_kind s' = Logarithmic /\ s_inverted s' = true /\ s_log_base s' = Fin 2.
Proof. intro rf. eexists. repeat split. Qed.
