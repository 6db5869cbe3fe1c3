(** C107, continued: the values that messages name, numbers of arguments, and stderr. *)
From Coq Require Import Reals ZArith Lia Permutation.
From Verif Require Import Base Dec Num Sexpr_Model Dispatch_Model Dispatch_Spec Data_Model Scale_Model Units_Model Color_Model Geo_Model Svg_Model Format_Model Cmd_Model Style_Model
  Plist_Model Plist_Spec Plist_Proofs Plist_Props Plot_Model Eval_Model Eval_Spec TimeText_Spec Eval_Proofs Eval_Props4 Say_Model Say_Model2 Say_Spec Say_Proofs Say_Props.

(** C107. Palettes: the names in the message are those that are accepted. *)
Theorem C107_palettes : forall (f32 : R -> R) (names : list str) (name m : str) (t : list expr),
  Permutation names (map fst palettes) -> color_palette_default_said f32 names name = Says m t ->
  (exists lines, line_list names lines /\ m = s_ "invalid value to <color-palette-name>; got '" ++ name ++ s_ "' but expected one of:" ++ [c_nl] ++ lines) /\
  forall n, In n names <-> exists colors, color_palette_default f32 n = Ret colors.
Proof.
  intros f32 names name m t P H.
  assert (A : forall n, In n names <-> exists colors, color_palette_default f32 n = Ret colors).
  { intro n. rewrite (in_perm _ _ P). split.
    - change (map fst palettes) with [s_ "fnord"; s_ "zhang"]. intros [<-|[<-|[]]]; eexists; reflexivity.
    - intros [c Q]. apply assoc_in. unfold color_palette_default in Q. now destruct (assoc n palettes). }
  split; [|exact A]. unfold color_palette_default_said in H. destruct (assoc name palettes) as [l|] eqn:L.
  - exfalso. destruct (proj1 (A name)) as [c C]; [apply (in_perm _ _ P), assoc_in; congruence|]. unfold color_palette_default in C. rewrite L in C. rewrite C in H. discriminate.
  - injection H as <- <-. exists (concat (map bullet names)). split; [apply lines_concat|reflexivity].
Qed.
Print Assumptions C107_palettes.

Definition units_listed : list str := map s_ ["mm"; "px"; "pt"; "em"; "rem"; "rel"; "%"]%string.
(** C107. Units: after a number, exactly the units that the message lists are accepted. *)
Theorem C107_units : forall (d : R -> R) (stod : str -> option (xr * nat)) (t : str) (v : xr) (n : nat),
  stod t = Some (v, n) -> (n < length t)%nat ->
  ((exists x, parse_measure_said d stod t = Good x) <-> In (skipn n t) units_listed) /\
  (~ In (skipn n t) units_listed ->
   parse_measure_said d stod t = Says (s_ "invalid unit: '" ++ skipn n t ++ s_ "', expected one of 'mm', 'px', 'pt', 'em', 'rem', 'rel' or '%'") []).
Proof.
  intros d stod t v n S L. unfold parse_measure_said. rewrite S. destruct (Nat.eqb_spec n (length t)) as [E|_]; [lia|]. cbv zeta. set (u := skipn n t).
  change units_listed with [s_ "mm"; s_ "px"; s_ "pt"; s_ "em"; s_ "rem"; s_ "rel"; s_ "%"]. cbn [In].
  destruct (str_eqb_spec u (s_ "mm")) as [->|N1]; [split; [split; [now left|eauto]|intro Q; destruct Q; now left]|].
  destruct (str_eqb_spec u (s_ "px")) as [->|N2]; [split; [split; [tauto|eauto]|intro Q; destruct Q; tauto]|].
  destruct (str_eqb_spec u (s_ "pt")) as [->|N3]; [split; [split; [tauto|eauto]|intro Q; destruct Q; tauto]|].
  destruct (str_eqb_spec u (s_ "em")) as [->|N4]; [split; [split; [tauto|cbn [orb]; eauto]|intro Q; destruct Q; tauto]|].
  destruct (str_eqb_spec u (s_ "rem")) as [->|N5]; [split; [split; [tauto|cbn [orb]; eauto]|intro Q; destruct Q; tauto]|]. cbn [orb].
  destruct (str_eqb_spec u (s_ "%")) as [->|N6]; [split; [split; [tauto|eauto]|intro Q; destruct Q; tauto]|].
  destruct (str_eqb_spec u (s_ "rel")) as [->|N7]; [split; [split; [tauto|eauto]|intro Q; destruct Q; tauto]|].
  split; [|reflexivity]. split; [intros [x Q]; discriminate|]. intros Q. exfalso. decompose [or] Q; try congruence; contradiction.
Qed.
Print Assumptions C107_units.
Example C107_units_case : parse_measure_said exact (fun _ => Some (Fin 5, 1%nat)) (s_ "5ft") =
  Says (s_ "invalid unit: 'ft', expected one of 'mm', 'px', 'pt', 'em', 'rem', 'rel' or '%'") [].
Proof. reflexivity. Qed.

Lemma is_val_word w x r : is_val (w :: r) x = match word_of w with Some v => str_eqb v x | None => false end.
Proof. now destruct w. Qed.
Lemma headed_word w r x : word_of w <> None -> list_headed (w :: r) x = None.
Proof. now destruct w. Qed.
(** C107. Kinds of a scale: the words that the message lists are those that are accepted, and the
    message shows the word that is not. *)
Theorem C107_kinds : forall (stod : str -> option (xr * nat)) (read_file : str -> option str) (strings_said : list expr -> str) (w : expr) (v : str) (s : scale),
  word_of w = Some v ->
  ((exists s', configure_kind_said stod read_file strings_said [w] s = (s', Good tt)) <-> In v kinds) /\
  (~ In v kinds -> exists m, configure_kind_said stod read_file strings_said [w] s = (s, Says m []) /\ names_values m v kinds).
Proof.
  intros stod rf ss w v s Hw. cbn [configure_kind_said]. rewrite !is_val_word, !headed_word, Hw by congruence. cbv zeta.
  change kinds with [s_ "linear"; s_ "log"; s_ "logarithmic"; s_ "invert"; s_ "inverted"; s_ "categorical"]. cbn [In].
  destruct (str_eqb_spec v (s_ "linear")) as [->|N1]; [split; [split; [tauto|eauto]|intro Q; destruct Q; tauto]|].
  destruct (str_eqb_spec v (s_ "log")) as [->|N2]; [split; [split; [tauto|cbn [orb]; eauto]|intro Q; destruct Q; tauto]|].
  destruct (str_eqb_spec v (s_ "logarithmic")) as [->|N3]; [split; [split; [tauto|cbn [orb]; eauto]|intro Q; destruct Q; tauto]|]. cbn [orb].
  destruct (str_eqb_spec v (s_ "invert")) as [->|N4]; [split; [split; [tauto|cbn [orb]; eauto]|intro Q; destruct Q; tauto]|].
  destruct (str_eqb_spec v (s_ "inverted")) as [->|N5]; [split; [split; [tauto|cbn [orb]; eauto]|intro Q; destruct Q; tauto]|]. cbn [orb].
  destruct (str_eqb_spec v (s_ "categorical")) as [->|N6]; [split; [split; [tauto|eauto]|intro Q; destruct Q; tauto]|].
  split.
  - split; [intros [x Q]; discriminate|]. intros Q. exfalso. decompose [or] Q; try congruence; contradiction.
  - intros _. eexists. split; [reflexivity|]. replace v with (inspect_ptr [w]) by (destruct w; cbn in Hw |- *; congruence).
    refine (invalid_value_says (A := unit) _ _ _ _ _ eq_refl _). reflexivity.
Qed.
Print Assumptions C107_kinds.

(** The form in which an option is given: the word, or a list that begins with it. *)
Definition headed_by (v : str) (e : expr) : Prop := word_of e = Some v \/ exists w args, e = EList (w :: args) /\ word_of w = Some v.
(** C107. Placements of ticks and labels: the message comes exactly when the form of the option is
    not that of one of the placements that are listed: the three last as a word, the others as a
    list. *)
Theorem C107_layouts_partial : forall (stod : str -> option (xr * nat)) (e : expr) (v : str), headed_by v e ->
  (forall a, configure_layout_said stod [e] = Good a -> In v layouts) /\
  (~ In v layouts -> exists lines, line_list layouts lines /\
     configure_layout_said stod [e] = Says (s_ "invalid argument: '" ++ inspect e ++ s_ "'; expected one of: " ++ [c_nl] ++ lines) []).
Proof.
  intros stod e v H.
  assert (Z : ~ In v layouts -> configure_layout_said stod [e] = error_ (s_ "invalid argument: '" ++ inspect e ++ s_ "'; expected one of: " ++ [c_nl] ++ concat (map bullet layouts))).
  { intro N. assert (N' : forall x, In x layouts -> str_eqb v x = false) by (intros x I; destruct (str_eqb_spec v x) as [->|]; [contradiction|reflexivity]).
    unfold configure_layout_said. destruct H as [H|(w & args & -> & H)].
    - rewrite !headed_word by congruence. rewrite !is_val_word, H. rewrite !N' by (cbn; tauto). reflexivity.
    - cbn [list_headed]. rewrite value_word, H. rewrite !N' by (cbn; tauto). reflexivity. }
  split.
  - intros a G. destruct (in_dec (list_eq_dec ascii_dec) v layouts) as [I|N]; [exact I|]. rewrite (Z N) in G. discriminate.
  - intro N. exists (concat (map bullet layouts)). split; [apply lines_concat|]. now rewrite (Z N).
Qed.
Print Assumptions C107_layouts_partial.
(** C107, refuted: a value that the message lists can be the one it complains about. *)
Theorem C107_listed_refuted : forall stod : str -> option (xr * nat), exists lines, line_list layouts lines /\ In (s_ "linear") layouts /\
  configure_layout_said stod [ELit (s_ "linear")] = Says (s_ "invalid argument: 'linear'; expected one of: " ++ [c_nl] ++ lines) [].
Proof. intro stod. exists (concat (map bullet layouts)). split; [apply lines_concat|]. split; [now left|reflexivity]. Qed.
Print Assumptions C107_listed_refuted.
(** C107, refuted: points from a CSV file by name are refused with the message that csv is one of the
    formats. *)
Theorem C107_csv_refuted : forall (num : Type) lm gm (ll : list expr -> @databuf num -> @databuf num * outcome unit) lp (path : str) (bx by_ : @databuf num),
  path <> [] -> exists m, data_load_points2_said lm gm ll lp path (s_ "csv") [] [] bx by_ = ((bx, by_), Says m []) /\ names_values m (s_ "csv") [s_ "csv"; s_ "geojson"].
Proof.
  intros num lm gm ll lp path bx by_ N. destruct path as [|c p]; [congruence|]. eexists. split; [reflexivity|].
  refine (invalid_value_says (A := unit) _ _ _ _ _ eq_refl _). reflexivity.
Qed.
Print Assumptions C107_csv_refuted.
(** C107, refuted: a stroke style that is accepted is missing from the message. *)
Theorem C107_stroke_refuted : forall (W : world) (E : env) (s : stroke_style),
  stroke_style_read_said W E [ELit (s_ "wavy")] s = Says (s_ "invalid <stroke-style>; expected one of (none, solid), but got: 'wavy'") [] /\
  exists s', stroke_style_read_said W E [ELit (s_ "dashed")] s = Good s'.
Proof. intros W E s. split; [reflexivity|]. eexists. reflexivity. Qed.
Print Assumptions C107_stroke_refuted.
(** C107, refuted: an odd list of steps is reported as one of a gradient. *)
Theorem C107_steps_refuted : forall f32 stod said p,
  color_map_read_said f32 stod said p [EList [ELit (s_ "steps"); ELit (s_ "1")]] = Says (s_ "invalid argument to 'gradient'; not a list of pairs: '1'") [].
Proof. reflexivity. Qed.
Print Assumptions C107_steps_refuted.
(** C107, refuted: an error can have no message at all. *)
Theorem C107_silent_refuted : forall d stod sf rf said, stod (s_ "x") = None ->
  format_configure_said d stod sf rf said [EList [ELit (s_ "fixed"); ELit (s_ "x")]] = Says [] [].
Proof.
  intros d stod sf rf said H. unfold format_configure_said. cbn [list_headed value_of Format_Model.is_word]. change (str_eqb (s_ "fixed") (s_ "fixed")) with true. cbn [tl precision_args].
  unfold number_arg. cbn [raw_value]. now rewrite H.
Qed.
Print Assumptions C107_silent_refuted.

(* ---------------- numbers of arguments ---------------- *)
Definition nargs_message (got expected : nat) (m : str) : Prop :=
  exists g e, plain (Z.of_nat got) g /\ plain (Z.of_nat expected) e /\ m = s_ "invalid number of arguments; got " ++ g ++ s_ " but expected " ++ e.
Lemma nargs_says {A} n k m t : @err_invalid_nargs A n k = Says m t -> nargs_message n k m.
Proof.
  intro H. injection H as <- _. exists (dec (Z.of_nat n)), (dec (Z.of_nat k)).
  assert (P : forall z, plain (Z.of_nat z) (dec (Z.of_nat z))).
  { intro z. destruct (dec_ok (Z.of_nat z) ltac:(lia)) as (V & D & N & L). repeat split; assumption. }
  split; [apply P|]. split; [apply P|reflexivity].
Qed.
(** C107. The resolution and the font size take one argument: with any other number the message
    gives that number and one, and with one it is about something else. *)
Theorem C107_one_argument : forall (d : R -> R) (stod : str -> option (xr * nat)) (l : layer) (args : list expr),
  (length args <> 1%nat ->
    (exists m, layer_set_dpi_cmd_said stod l args = (l, Says m []) /\ nargs_message (length args) 1 m) /\
    (exists m, layer_set_font_size_cmd_said d stod l args = (l, Says m []) /\ nargs_message (length args) 1 m)) /\
  (forall l', layer_set_dpi_cmd_said stod l args = (l', Good tt) -> length args = 1%nat) /\
  (forall l', layer_set_font_size_cmd_said d stod l args = (l', Good tt) -> length args = 1%nat).
Proof.
  intros d stod l args. destruct args as [|a [|b r]].
  - split; [|split; intros; discriminate]. intros _. split; (eexists; split; [reflexivity|]; exact (@nargs_says unit 0 1 _ _ eq_refl)).
  - split; [intro N; now destruct N|]. split; reflexivity.
  - split; [|split; intros; discriminate]. intros _. split; (eexists; split; [reflexivity|]; exact (@nargs_says unit (length (a :: b :: r)) 1 _ _ eq_refl)).
Qed.
Print Assumptions C107_one_argument.
(** C107, refuted: the message for the size of the page asks for two arguments, but one is accepted;
    that for subdivide asks for one or two, but two are refused and none is accepted. *)
Theorem C107_nargs_refuted : forall (d : R -> R) (stod : str -> option (xr * nat)) (sizes : list str) (l : layer),
  (exists m, layer_resize_cmd_said d stod sizes l [] = (l, Says m []) /\ nargs_message 0 2 m) /\
  (exists l', layer_resize_cmd_said d stod sizes l [ELit (s_ "A4")] = (l', Good tt)) /\
  (forall a b, configure_layout_said stod [EList [ELit (s_ "subdivide"); a; b]] = Says (s_ "invalid number of arguments for 'subdivide'; expected one or two") []) /\
  exists p, configure_layout_said stod [EList [ELit (s_ "subdivide")]] = Good p.
Proof.
  intros d stod sizes l. split; [|split; [eexists; reflexivity|split; [reflexivity|eexists; reflexivity]]].
  eexists. split; [reflexivity|]. exact (@nargs_says unit 0 2 _ _ eq_refl).
Qed.
Print Assumptions C107_nargs_refuted.

(* ---------------- stderr ---------------- *)
(** A text on stderr that says what is wrong. *)
Definition complains (err : str) : Prop := exists m, err = s_ "ERROR: " ++ m.
Lemma step_status {A} U (r : reply A) k res err (Q : result -> str -> Prop) : step U r k = Ret (res, err) ->
  (forall m, Q failure (error_print m)) -> Q failure (crash_text U) -> (forall a, r = Good a -> k a = Ret (res, err) -> Q res err) -> Q res err.
Proof. intros H Q1 Q2 Q3. destruct r; cbn [step] in H; try discriminate; [now apply (Q3 a)| |]; injection H as <- <-; auto. Qed.
(** C107. A run that fails says so on stderr in a text that begins with ERROR: (after the line of
    the C library when an option is wrong), and has written nothing to stdout; a run that succeeds
    prints nothing on stderr unless the version or the help was to be printed. *)
Theorem C107_stderr : forall (W : world) (U : unsaid) (version : str) (defaults : outcome font) (stdin : str) (o : os) (opts : list opt) (args : list str) (r : result) (err : str),
  main_said W U version defaults stdin o opts args = Ret (r, err) ->
  (exit_code r <> 0%nat -> stdout r = [] /\
     if forallb known_opt opts then complains err else exists text, err = u_getopt U ++ text /\ complains text) /\
  (exit_code r = 0%nat -> err = [] \/ existsb is_version opts = true \/ existsb is_help opts = true \/ length args <> 1%nat).
Proof.
  intros W U version defaults stdin o opts args r err H. unfold main_said in H. rewrite flags0_ok in H. destruct (forallb known_opt opts).
  2:{ injection H as <- <-. split; [|discriminate]. intros _. split; [reflexivity|]. eexists. split; [reflexivity|]. eexists. reflexivity. }
  pose (Q := fun (r : result) (err : str) => (exit_code r <> 0%nat -> stdout r = [] /\ complains err) /\
     (exit_code r = 0%nat -> err = [] \/ existsb is_version opts = true \/ existsb is_help opts = true \/ length args <> 1%nat)).
  change (Q r err).
  assert (Q1 : forall m, Q failure (error_print m)) by (intro m; split; [intros _; split; [reflexivity|eexists; reflexivity]|discriminate]).
  assert (Q2 : Q failure (crash_text U)) by (split; [intros _; split; [reflexivity|eexists; reflexivity]|discriminate]).
  assert (Q3 : forall m e, complains e -> Q (mk_result 1 [] m) e) by (intros m e C; split; [intros _; now split|discriminate]).
  assert (Q4 : forall t w, Q (mk_result 0 t w) []) by (intros t w; split; [intro N; now destruct N|intros _; now left]).
  unfold cli_run_said, flags_of in H. cbn [fl_version fl_help fl_export fl_fonts] in H.
  destruct (existsb is_version opts) eqn:Ev. { injection H as <- <-. split; [intro N; now destruct N|]. intros _. right. now left. }
  destruct (existsb is_help opts) eqn:Eh. { injection H as <- <-. split; [intro N; now destruct N|]. intros _. right. right. now left. }
  destruct args as [|path [|q r0]].
  1,3: injection H as <- <-; (split; [intro N; now destruct N|]); intros _; right; right; right; discriminate.
  match type of H with match ?c with _ => _ end = _ => destruct c as [fmt| | | |] end; try (injection H as <- <-; apply Q3; eexists; reflexivity).
  refine (step_status U _ _ r err Q H Q1 Q2 _). clear H. intros E _ H.
  destruct (if str_eqb path (s_ "-") then Some stdin else w_read_file W path) as [input|]; [|injection H as <- <-; apply Q3; eexists; reflexivity].
  refine (step_status U _ _ r err Q H Q1 Q2 _). clear H. intros [E1 l] _ H.
  destruct (or_else (last_opt is_export opts) []) as [|c t] eqn:X; [injection H as <- <-; apply Q4|].
  refine (step_status U _ _ r err Q H Q1 Q2 _). clear H. intros text _ H.
  destruct (str_eqb (c :: t) (s_ "-")); [injection H as <- <-; apply Q4|]. injection H as <- <-.
  unfold file_write. destruct (os_open o (c :: t)); [|exact Q2]. destruct (os_write o (c :: t) (length text)) as [n|]; [|apply Q3; eexists; reflexivity].
  destruct (Nat.eqb n (length text)); [apply Q4|apply Q3; eexists; reflexivity].
Qed.
Print Assumptions C107_stderr.
