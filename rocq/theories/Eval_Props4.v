(** Theorems about the command line tool and the C interface: C87 and C88. *)
From Coq Require Import Reals Lra.
From Verif Require Import Base Num Sexpr_Model Dispatch_Model Dispatch_Spec Str_Model Data_Model Scale_Model Units_Model Color_Model
  Geo_Model Svg_Model Legend_Model Plist_Model Cmd_Model Cmd_Spec Cmd_Proofs Style_Model Plot_Model Plot_Spec Axis_Model Eval_Model Eval_Spec Eval_Proofs.
Local Open Scope R_scope.

(** The flags of a command line. *)
Definition flags_of (l : list opt) : flags :=
  mk_flags (or_else (last_opt is_export l) []) (or_else (last_opt is_format l) []) (map opt_arg (filter is_font_load l))
    (existsb is_help l) (existsb is_version l).
Lemma flag_cases o : match find_flag o with
  | Some cb => exists i, (i < 6)%nat /\ option_map snd (nth_error flag_list i) = Some cb /\
      is_export o = (0 =? i)%nat /\ is_format o = (1 =? i)%nat /\ is_font_load o = (2 =? i)%nat /\ is_debug o = (3 =? i)%nat /\ is_help o = (4 =? i)%nat /\ is_version o = (5 =? i)%nat
  | None => known_opt o = false
  end.
Proof.
  unfold known_opt, is_export, is_format, is_font_load, is_debug, is_help, is_version, is_opt. destruct o as [i a|c a|]; cbn [find_flag]; [| |reflexivity].
  - destruct i as [|i]; [exists 0%nat; repeat split; cbn; try reflexivity; lia|].
    destruct i as [|i]; [exists 1%nat; repeat split; cbn; try reflexivity; lia|].
    destruct i as [|i]; [exists 2%nat; repeat split; cbn; try reflexivity; lia|].
    destruct i as [|i]; [exists 3%nat; repeat split; cbn; try reflexivity; lia|].
    destruct i as [|i]; [exists 4%nat; repeat split; cbn; try reflexivity; lia|].
    destruct i as [|i]; [exists 5%nat; repeat split; cbn; try reflexivity; lia|].
    destruct i; reflexivity.
  - unfold flag_list. cbn [find fst].
    destruct (Ascii.eqb_spec c "e") as [->|]; [exists 0%nat; repeat split; cbn; try reflexivity; lia|].
    destruct (Ascii.eqb_spec c "f") as [->|]; [exists 1%nat; repeat split; cbn; try reflexivity; lia|].
    destruct (Ascii.eqb_spec c "d") as [->|]; [exists 3%nat; repeat split; cbn; try reflexivity; lia|].
    destruct (Ascii.eqb_spec c "h") as [->|]; [exists 4%nat; repeat split; cbn; try reflexivity; lia|].
    destruct (Ascii.eqb_spec c "v") as [->|]; [exists 5%nat; repeat split; cbn; try reflexivity; lia|].
    reflexivity.
Qed.
Lemma flags_ok l : forall f,
  flags_parse l f = if forallb known_opt l then
    Ret (mk_flags (or_else (last_opt is_export l) (fl_export f)) (or_else (last_opt is_format l) (fl_format f))
           (fl_fonts f ++ map opt_arg (filter is_font_load l)) (fl_help f || existsb is_help l) (fl_version f || existsb is_version l))
  else Err.
Proof.
  induction l as [|o l IH]; intro f; cbn [flags_parse forallb last_opt filter map existsb or_else].
  - rewrite app_nil_r, !orb_false_r. now destruct f.
  - pose proof (flag_cases o) as C. destruct (find_flag o) as [cb|]; [|now rewrite C].
    destruct C as (i & L & Q & E0 & E1 & E2 & E3 & E4 & E5).
    replace (known_opt o) with true; [cbn [andb]|unfold known_opt; rewrite E0, E1, E2, E3, E4, E5; do 6 (destruct i as [|i]; [reflexivity|]); lia].
    rewrite IH, E0, E1, E2, E4, E5. destruct (forallb known_opt l); [|reflexivity].
    do 6 (destruct i as [|i]; [cbn in Q; injection Q as <-; cbn; destruct (last_opt is_export l), (last_opt is_format l); cbn; rewrite ?orb_false_r, ?orb_true_r, <- ?app_assoc; reflexivity|]). lia.
Qed.
Lemma flags0_ok l : flags_parse l flags0 = if forallb known_opt l then Ret (flags_of l) else Err.
Proof. exact (flags_ok l flags0). Qed.
Lemma format_ok l fmt : choose_format (flags_of l) = Ret fmt -> wants l (match fmt with PNG => true | SVG => false end).
Proof.
  unfold choose_format, flags_of, wants. cbn [fl_format fl_export]. destruct (last_opt is_format l) as [[|c f]|]; cbn [or_else].
  - intro H. injection H as <-. destruct (ends_with _ _); reflexivity.
  - destruct (str_eqb_spec (c :: f) (s_ "svg")) as [->|]; [intro H; injection H as <-; reflexivity|].
    destruct (str_eqb_spec (c :: f) (s_ "png")) as [->|]; [intro H; injection H as <-; reflexivity|discriminate].
  - intro H. injection H as <-. destruct (ends_with _ _); reflexivity.
Qed.

Section Main.
  Variables (W : world) (version : str) (defaults : outcome font) (stdin : str) (o : os).
  Notation run_main := (main_ W version defaults stdin o).
  Notation picture_of opts path := (picture W version defaults stdin (map opt_arg (filter is_font_load opts)) path).

  (** C87. Status 0, SVG, one argument, a file as the target: all options are known and the file
      holds the complete picture. *)
  Lemma C87_main opts path c t r :
    last_opt is_export opts = Some (c :: t) -> (c :: t) <> s_ "-" -> wants opts false -> existsb is_help opts = false -> existsb is_version opts = false ->
    run_main opts [path] = Ret r ->
    (forallb known_opt opts = true /\ exists text, picture_of opts path = Ret text /\ r = file_write o (c :: t) text) \/
    (r = failure /\ ((exists k, In k opts /\ known_opt k = false) \/ picture_of opts path = Err \/ picture_of opts path = Throw)).
  Proof.
    intros X NE F Hh Hv H. unfold main_ in H. rewrite flags0_ok in H. destruct (forallb known_opt opts) eqn:K; cbn [bind] in H.
    2:{ right. injection H as <-. split; [reflexivity|]. left. clear - K. induction opts as [|x l IH]; [discriminate|]. cbn [forallb] in K.
        destruct (known_opt x) eqn:Q; [destruct (IH K) as (k & I & U); exists k; split; [now right|exact U]|exists x; split; [now left|exact Q]]. }
    assert (N : forall fmt, choose_format (flags_of opts) = Ret fmt -> fmt = SVG).
    { intros [] C; [reflexivity|]. apply format_ok in C. unfold wants in *. destruct (last_opt is_format opts) as [[|? ?]|]; cbn in *; congruence. }
    assert (C : choose_format (flags_of opts) = Ret SVG).
    { destruct (choose_format (flags_of opts)) as [fmt| | | |] eqn:C; [now rewrite (N fmt eq_refl)|..]; exfalso; unfold choose_format, flags_of, wants in *; cbn [fl_format] in C;
        destruct (last_opt is_format opts) as [[|c0 f]|]; cbn [or_else] in C; try discriminate; rewrite F in C; discriminate. }
    unfold cli_run, flags_of in H. unfold flags_of in C. rewrite C in H. cbn [fl_version fl_help fl_export fl_fonts bind] in H. rewrite Hh, Hv, X in H. cbn [or_else] in H.
    unfold picture.
    destruct (layer_create W defaults (map opt_arg (filter is_font_load opts))) as [E| | | |]; cbn [bind] in *; try discriminate; [|injection H as <-; right; auto..].
    destruct (if str_eqb path (s_ "-") then Ret stdin else match w_read_file W path with Some t0 => Ret t0 | None => Err end) as [input| | | |]; cbn [bind] in *; try discriminate; [|injection H as <-; right; auto..].
    destruct (eval_text W E input) as [[E' l]| | | |]; cbn [bind] in *; try discriminate; [|injection H as <-; right; auto..].
    destruct (svg_of W version E' l) as [text| | | |]; cbn [bind] in *; try discriminate; [|injection H as <-; right; auto..].
    destruct (str_eqb_spec (c :: t) (s_ "-")) as [E0|_]; [congruence|]. injection H as <-. left. split; [reflexivity|]. eauto.
  Qed.
End Main.

Theorem C87_complete : forall (W : world) (version : str) (defaults : outcome font) (stdin : str) (o : os) (opts : list opt) (path target : str) (r : result),
  main_ W version defaults stdin o opts [path] = Ret r ->
  last_opt is_export opts = Some target -> target <> [] -> target <> s_ "-" -> wants opts false ->
  existsb is_help opts = false -> existsb is_version opts = false ->
  exit_code r = 0%nat ->
  exists text, picture W version defaults stdin (map opt_arg (filter is_font_load opts)) path = Ret text /\ written r = Some (target, text).
Proof.
  intros W version defaults stdin o opts path target r H X N1 N2 F Hh Hv Z. destruct target as [|c t]; [congruence|].
  destruct (C87_main W version defaults stdin o opts path c t r X N2 F Hh Hv H) as [(_ & text & P & ->)|(-> & _)]; [|discriminate].
  exists text. split; [exact P|]. unfold file_write in *. destruct (os_open o (c :: t)); [|discriminate].
  destruct (os_write o (c :: t) (length text)) as [n|]; [|discriminate]. cbn [exit_code written] in *.
  destruct (Nat.eqb_spec n (length text)) as [Q|]; [|discriminate]. rewrite Q. now rewrite firstn_all.
Qed.
Print Assumptions C87_complete.

(** C87. Any other status is 1; then nothing has been written, or else the picture was complete
    but the operating system refused to take all of it. *)
Theorem C87_failure_partial : forall (W : world) (version : str) (defaults : outcome font) (stdin : str) (o : os) (opts : list opt) (path target : str) (r : result),
  main_ W version defaults stdin o opts [path] = Ret r ->
  last_opt is_export opts = Some target -> target <> [] -> target <> s_ "-" -> wants opts false ->
  existsb is_help opts = false -> existsb is_version opts = false ->
  exit_code r <> 0%nat ->
  exit_code r = 1%nat /\
  (written r = None \/
   exists text, picture W version defaults stdin (map opt_arg (filter is_font_load opts)) path = Ret text /\
     os_open o target = true /\ os_write o target (length text) <> Some (length text)).
Proof.
  intros W version defaults stdin o opts path target r H X N1 N2 F Hh Hv Z. destruct target as [|c t]; [congruence|].
  destruct (C87_main W version defaults stdin o opts path c t r X N2 F Hh Hv H) as [(_ & text & P & ->)|(-> & _)]; [|auto].
  unfold file_write in *. destruct (os_open o (c :: t)) eqn:O; [|auto].
  destruct (os_write o (c :: t) (length text)) as [n|] eqn:Q; cbn [exit_code written] in *.
  - destruct (Nat.eqb_spec n (length text)) as [Q'|Ne]; [congruence|]. split; [reflexivity|]. right. exists text. repeat split; auto. congruence.
  - split; [reflexivity|]. right. exists text. repeat split; auto. congruence.
Qed.
Print Assumptions C87_failure_partial.

(** C87. A program that cannot be read or evaluated, or an unknown option, ends with status 1 and
    leaves the target as it was. *)
Theorem C87_errors : forall (W : world) (version : str) (defaults : outcome font) (stdin : str) (o : os) (opts : list opt) (path target : str),
  last_opt is_export opts = Some target -> target <> [] -> target <> s_ "-" -> wants opts false ->
  existsb is_help opts = false -> existsb is_version opts = false ->
  (exists k, In k opts /\ known_opt k = false) \/
  (forallb known_opt opts = true /\ (picture W version defaults stdin (map opt_arg (filter is_font_load opts)) path = Err \/
   picture W version defaults stdin (map opt_arg (filter is_font_load opts)) path = Throw)) ->
  main_ W version defaults stdin o opts [path] = Ret failure.
Proof.
  intros W version defaults stdin o opts path target X N1 N2 F Hh Hv [(k & I & U)|(K & P)].
  - unfold main_. rewrite flags0_ok. replace (forallb known_opt opts) with false; [reflexivity|]. symmetry. apply not_true_is_false. rewrite forallb_forall. intro Q. rewrite (Q k I) in U. discriminate.
  - unfold main_. rewrite flags0_ok, K. cbn [bind].
    assert (C : choose_format (flags_of opts) = Ret SVG).
    { unfold choose_format, flags_of, wants in *. cbn [fl_format fl_export]. destruct (last_opt is_format opts) as [[|c f]|]; cbn [or_else]; [now rewrite F|now rewrite F|now rewrite F]. }
    unfold cli_run. rewrite C. unfold flags_of. cbn [bind fl_version fl_help fl_export fl_fonts]. rewrite Hh, Hv. unfold picture in P. rewrite X. cbn [or_else]. destruct target as [|c t]; [congruence|].
    destruct (layer_create W defaults _) as [E| | | |]; cbn [bind] in *; try reflexivity; try (destruct P; discriminate).
    destruct (if str_eqb path (s_ "-") then Ret stdin else match w_read_file W path with Some t0 => Ret t0 | None => Err end) as [input| | | |]; cbn [bind] in *; try reflexivity; try (destruct P; discriminate).
    destruct (eval_text W E input) as [[E' l]| | | |]; cbn [bind] in *; try reflexivity; try (destruct P; discriminate).
    destruct (svg_of W version E' l) as [text| | | |]; cbn [bind] in *; try reflexivity; try (destruct P; discriminate).
Qed.
Print Assumptions C87_errors.

(** C87. Where it fails. A write that is cut short leaves a partial file, and one that fails
    leaves an empty file, where there may have been a picture before. *)
Theorem C87_short_write_refuted : forall (W : world) (version : str) (defaults : outcome font) (stdin : str) (o : os) (path target text : str) (n : nat),
  target <> [] -> target <> s_ "-" -> ends_with target (s_ ".png") = false ->
  picture W version defaults stdin [] path = Ret text -> os_open o target = true -> os_write o target (length text) = Some n -> (n < length text)%nat ->
  main_ W version defaults stdin o [Short "e" target] [path] = Ret (mk_result 1 [] (Some (target, firstn n text))).
Proof.
  intros W version defaults stdin o path target text n N1 N2 N3 P O Wr L. destruct target as [|c t]; [congruence|].
  unfold main_. cbn [flags_parse find_flag flag_list find fst snd option_map opt_arg bind]. change (Ascii.eqb "e" "e") with true. cbn [option_map snd bind].
  unfold cli_run. cbn [fl_version fl_help flags0 fl_export fl_format fl_fonts]. unfold choose_format. cbn [fl_format fl_export]. rewrite N3. cbn [bind].
  unfold picture in P. inv_bind P. cbn [fl_version fl_help flags0 fl_export fl_format fl_fonts]. rewrite A. cbn [bind]. inv_bind P. rewrite A0. cbn [bind]. inv_bind P. rewrite A1. cbn [bind]. destruct v1 as [E' l]. rewrite P. cbn [bind].
  destruct (str_eqb_spec (c :: t) (s_ "-")) as [|_]; [congruence|]. unfold file_write. rewrite O, Wr.
  destruct (Nat.eqb_spec n (length text)); [lia|reflexivity].
Qed.
Print Assumptions C87_short_write_refuted.
(** C87. With PNG, chosen by the name or by -f, the status is 0 and the file is empty. *)
Theorem C87_png_refuted : forall (W : world) (version : str) (defaults : outcome font) (stdin : str) (o : os) (opts : list opt) (path target : str) (r : result),
  last_opt is_export opts = Some target -> target <> [] -> target <> s_ "-" -> wants opts true ->
  existsb is_help opts = false -> existsb is_version opts = false ->
  main_ W version defaults stdin o opts [path] = Ret r -> exit_code r = 0%nat -> written r = Some (target, []).
Proof.
  intros W version defaults stdin o opts path target r X N1 N2 F Hh Hv H Z. destruct target as [|c t]; [congruence|]. unfold main_ in H. rewrite flags0_ok in H.
  destruct (forallb known_opt opts); cbn [bind] in H; [|injection H as <-; discriminate].
  assert (C : choose_format (flags_of opts) = Ret PNG).
  { unfold choose_format, flags_of, wants in *. cbn [fl_format fl_export]. destruct (last_opt is_format opts) as [[|c0 f]|]; cbn [or_else]; [now rewrite F|now rewrite F|now rewrite F]. }
  unfold cli_run in H. rewrite C in H. unfold flags_of in H. cbn [bind fl_version fl_help fl_export fl_fonts] in H. rewrite Hh, Hv, X in H. cbn [or_else] in H.
  destruct (layer_create W defaults _) as [E| | | |]; cbn [bind] in *; try discriminate; try (injection H as <-; discriminate).
  destruct (if str_eqb path (s_ "-") then Ret stdin else match w_read_file W path with Some t0 => Ret t0 | None => Err end) as [input| | | |]; cbn [bind] in *; try discriminate; try (injection H as <-; discriminate).
  destruct (eval_text W E input) as [[E' l]| | | |]; cbn [bind] in *; try discriminate; try (injection H as <-; discriminate).
  destruct (str_eqb_spec (c :: t) (s_ "-")) as [E0|_]; [congruence|]. injection H as <-. unfold file_write in *. destruct (os_open o (c :: t)); [|discriminate].
  cbn [length] in *. destruct (os_write o (c :: t) 0) as [n|]; [|discriminate]. cbn [written]. now destruct n.
Qed.
Print Assumptions C87_png_refuted.
(** C87. On stdout the picture may be cut, with status 0. *)
Theorem C87_stdout_refuted : forall (W : world) (version : str) (defaults : outcome font) (stdin : str) (o : os) (path text : str),
  picture W version defaults stdin [] path = Ret text ->
  main_ W version defaults stdin o [Short "e" (s_ "-")] [path] = Ret (mk_result 0 (firstn (os_stdout o (length text)) text) None).
Proof.
  intros W version defaults stdin o path text P.
  unfold main_. cbn [flags_parse find_flag flag_list find fst snd option_map opt_arg bind]. change (Ascii.eqb "e" "e") with true. cbn [option_map snd bind].
  unfold cli_run. cbn [fl_version fl_help flags0 fl_export fl_format fl_fonts]. unfold choose_format. cbn [fl_format fl_export]. change (ends_with (s_ "-") (s_ ".png")) with false. cbn [bind].
  unfold picture in P. inv_bind P. cbn [fl_version fl_help flags0 fl_export fl_format fl_fonts]. rewrite A. cbn [bind]. inv_bind P. rewrite A0. cbn [bind]. inv_bind P. rewrite A1. cbn [bind]. destruct v1 as [E' l]. rewrite P. reflexivity.
Qed.
Print Assumptions C87_stdout_refuted.
(** C87. Without a name for the input, or with two, the status is 0 and nothing is written. *)
Theorem C87_arguments_refuted : forall (W : world) (version : str) (defaults : outcome font) (stdin : str) (o : os) (opts : list opt) (args : list str),
  forallb known_opt opts = true -> length args <> 1%nat ->
  main_ W version defaults stdin o opts args = Ret (mk_result 0 [] None).
Proof.
  intros W version defaults stdin o opts args K L. unfold main_. rewrite flags0_ok, K. cbn [bind]. unfold cli_run.
  destruct (fl_version (flags_of opts)); [reflexivity|]. destruct (fl_help (flags_of opts)); [reflexivity|].
  destruct args as [|a [|b r]]; [reflexivity|exfalso; now apply L|reflexivity].
Qed.
Print Assumptions C87_arguments_refuted.

(* ------------------------------------------------------------------ C88 *)
(** C88 fails: clip_eval reports success for every text and does nothing, so that the result is
    always empty. *)
Inductive reached : handle -> Prop :=
| r_init : reached clip_init
| r_eval h t : reached h -> reached (fst (clip_eval h t))
| r_format h f : reached h -> reached (fst (clip_set_output_format h f)).
Theorem C88_eval_refuted : forall (h : handle) (text : str),
  reached h -> snd (clip_eval h text) = true /\ clip_get_result (fst (clip_eval h text)) = [].
Proof.
  intros h text R. split; [reflexivity|]. cbn [clip_eval fst]. induction R as [|h t R IH|h f R IH]; [reflexivity|exact IH|].
  unfold clip_set_output_format. destruct (str_eqb f (s_ "svg")); [exact IH|]. destruct (str_eqb f (s_ "png")); exact IH.
Qed.
Print Assumptions C88_eval_refuted.
(** C88. The format is set to svg or png; any other word is an error, described in the message,
    and changes nothing else. *)
Theorem C88_format : forall (h h' : handle) (fmt : str) (ok : bool),
  clip_set_output_format h fmt = (h', ok) ->
  (ok = true <-> fmt = s_ "svg" \/ fmt = s_ "png") /\
  (fmt = s_ "svg" -> h_format h' = SVG) /\ (fmt = s_ "png" -> h_format h' = PNG) /\
  h_buffer h' = h_buffer h /\
  (ok = true -> h_error h' = h_error h) /\
  (ok = false -> h_format h' = h_format h /\ h_error h' = s_ "invalid output format: " ++ fmt).
Proof.
  intros h h' fmt ok. unfold clip_set_output_format.
  destruct (str_eqb_spec fmt (s_ "svg")) as [->|N1]; [intro Q; injection Q as <- <-; cbn; repeat split; auto; discriminate|].
  destruct (str_eqb_spec fmt (s_ "png")) as [->|N2]; intro Q; injection Q as <- <-; cbn [h_format h_buffer h_error]; repeat split; auto; try discriminate; try congruence.
  intros [X|X]; congruence.
Qed.
Print Assumptions C88_format.
