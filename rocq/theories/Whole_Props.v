(** C106: from the text of a program to the file. *)
From Coq Require Import Reals Lra.
From Verif Require Import Base Num Sexpr_Model Dispatch_Model Dispatch_Spec Str_Model Data_Model Scale_Model Units_Model Color_Model Geo_Model Svg_Model Svg_Spec
  Plist_Model Plist_Spec Plist_Proofs Plist_Props Cmd_Model Cmd_Spec Cmd_Proofs Style_Model Plot_Model Plot_Spec Axis_Model Eval_Model Eval_Spec Eval_Proofs Eval_Props4
  Scale_Spec Range_Spec Range_Props2 Page_Props Demo Eval_Examples Whole_Spec Whole_Svg Whole_Proofs.
Local Open Scope R_scope.

(** How a program begins: with nothing, or with the size of the page. *)
Inductive page_setting (W : world) : list ptree -> R -> R -> Prop :=
| pg_default : page_setting W [] 1600 800
| pg_size wt ht w h : pixels W wt w -> pixels W ht h -> page_setting W [Prop_ (s_ "size") [VLit wt; VLit ht]] w h.
(** The text of the program: standard input for -, or else a file. *)
Definition program_text (W : world) (stdin path text : str) : Prop :=
  (path = s_ "-" /\ text = stdin) \/ (path <> s_ "-" /\ w_read_file W path = Some text).
(** A target that takes all bytes. *)
Definition takes (o : os) (target : str) : Prop := os_open o target = true /\ forall n, os_write o target n = Some n.

Lemma measure_px W t v : pixels W t v -> parse_measure (w_d W) (w_stod W) t = Ret (from_px (Fin v)).
Proof.
  intros (n & S & U). unfold parse_measure. rewrite S.
  destruct (Nat.eqb_spec n (length t)) as [E|_]; [rewrite E, skipn_all in U; discriminate|]. rewrite U. reflexivity.
Qed.
Lemma pixels_is64 W t v : binary W -> pixels W t v -> is64 v.
Proof. intros (_ & _ & B) (n & S & _). eauto. Qed.
(** The page of a new layer after the setting. *)
Lemma eval_plot W E a l : plot_eval W E [EList (ELit (s_ "lines") :: a)] = Ret l -> eval_exprs W E [EList (ELit (s_ "lines") :: a)] = Ret (E, l).
Proof.
  intro P. unfold eval_exprs. change (run_collect (eval_table W) [EList (ELit (s_ "lines") :: a)] (E, s_ "plot")) with
    (@Ret (env * str * list expr) ((E, s_ "plot"), [EList (ELit (s_ "lines") :: a)])). cbn [bind].
  change (assoc (s_ "plot") (modules W)) with (Some (plot_eval W)). change (s_ "plot") with ("p"%char :: s_ "lot"). cbv iota. rewrite P. reflexivity.
Qed.
Lemma eval_sized W E x a l L : layer_resize_cmd (w_d W) (w_stod W) (e_layer E) x = (L, Ret tt) ->
  plot_eval W (with_layer L E) [EList (ELit (s_ "lines") :: a)] = Ret l ->
  eval_exprs W E [EList (ELit (s_ "size") :: x); EList (ELit (s_ "lines") :: a)] = Ret (with_layer L E, l).
Proof.
  intros R P. unfold eval_exprs.
  assert (C : run_collect (eval_table W) [EList (ELit (s_ "size") :: x); EList (ELit (s_ "lines") :: a)] (E, s_ "plot") =
    Ret ((with_layer L E, s_ "plot"), [EList (ELit (s_ "lines") :: a)])).
  { change (run_collect (eval_table W) [EList (ELit (s_ "size") :: x); EList (ELit (s_ "lines") :: a)] (E, s_ "plot")) with
      (let* s := updf (fun s : env * str => e_layer (fst s)) (fun e l0 => ended (layer_resize_cmd (w_d W) (w_stod W) l0 e)) (fun v s => (with_layer v (fst s), snd s)) x (E, s_ "plot") in
       @Ret (env * str * list expr) (s, [EList (ELit (s_ "lines") :: a)])).
    unfold updf. cbn [fst snd]. rewrite R. reflexivity. }
  rewrite C. cbn [bind]. change (assoc (s_ "plot") (modules W)) with (Some (plot_eval W)). change (s_ "plot") with ("p"%char :: s_ "lot"). cbv iota. rewrite P. reflexivity.
Qed.
Lemma setting_page W pre w h E a : binary W -> page_setting W pre w h -> e_layer E = layer0 -> e_bg E = opaque_white -> e_fg E = opaque_black ->
  is64 w /\ is64 h /\ exists E', usual_page W E' w h /\
    forall l, plot_eval W E' [EList (ELit (s_ "lines") :: a)] = Ret l -> eval_exprs W E (map tree_expr pre ++ [EList (ELit (s_ "lines") :: a)]) = Ret (E', l).
Proof.
  intros B S L Bg Fg. destruct S as [|wt ht w h Pw Ph].
  - split; [apply (Svg_Props.is64_int 1600); lia|]. split; [apply (Svg_Props.is64_int 800); lia|]. exists E. split.
    + unfold usual_page, page_width, page_height. rewrite L. repeat split; assumption.
    + apply eval_plot.
  - split; [now apply (pixels_is64 W wt)|]. split; [now apply (pixels_is64 W ht)|].
    assert (R : layer_resize_cmd (w_d W) (w_stod W) (e_layer E) [ELit wt; ELit ht] = (with_size (e_layer E) (from_px (Fin w)) (from_px (Fin h)), Ret tt)).
    { unfold layer_resize_cmd, measure_read. cbn [value_of]. now rewrite (measure_px W _ _ Pw), (measure_px W _ _ Ph). }
    exists (with_layer (with_size (e_layer E) (from_px (Fin w)) (from_px (Fin h))) E). split.
    + unfold usual_page, page_width, page_height. cbn [e_layer with_layer e_bg e_fg]. rewrite L. repeat split; assumption.
    + intros l P. exact (eval_sized W E [ELit wt; ELit ht] a l _ R P).
Qed.

(** C106. The tool, asked to draw a program with one line chart (written with any white space, the
    data as numbers in the program) to an SVG file, ends with status 0, and the file is exactly
    this picture: a white page of the size of the program, or 1600 by 800, and one black line of
    1.5pt (4 pixels) through the points in their order, the least and the greatest numbers of
    both axes on the borders; all numbers right to a thousandth. The limits of the axes are
    single precision numbers (see C20), the calculation is in double precision. *)
Theorem C106_line_chart : forall (W : world) (version : str) (fonts : font) (stdin : str) (o : os) (opts : list opt) (path target text : str)
    (pre : list ptree) (w h : R) (tx ty : list str) (xs ys : list R) (lx ux ly uy : R),
  binary W -> ~ In "-"%char version ->
  (* the command line *)
  last_opt is_export opts = Some target -> target <> [] -> target <> s_ "-" -> wants opts false ->
  existsb is_help opts = false -> existsb is_version opts = false -> existsb is_font_load opts = false -> forallb known_opt opts = true ->
  takes o target ->
  (* the program *)
  program_text W stdin path text -> trees_text (pre ++ [line_chart tx ty]) text ->
  page_setting W pre w h -> 0 < w <= 65536 -> 0 < h <= 65536 ->
  Forall2 (reads W) tx xs -> Forall2 (reads W) ty ys -> length xs = length ys ->
  least lx xs -> greatest ux xs -> least ly ys -> greatest uy ys -> lx < ux -> ly < uy -> is32 lx -> is32 ux -> is32 ly -> is32 uy ->
  exists file, main_ W version (Ret fonts) stdin o opts [path] = Ret (mk_result 0 [] (Some (target, file))) /\
    shows_picture file w h (line_picture w h 4 (map (in_file lx ux ly uy w h) (combine xs ys))).
Proof.
  intros W version fonts stdin o opts path target text pre w h tx ty xs ys lx ux ly uy B V X N1 N2 F Hh Hv Hf K [T1 T2] PT TT PS Bw Bh Fx Fy L Lx Ux Ly Uy Dx Dy I1 I2 I3 I4.
  assert (LC : exists E, layer_create W (Ret fonts) [] = Ret E) by (eexists; reflexivity). destruct LC as [E LC].
  destruct (C99_new_page W _ _ E LC) as (E1 & E2 & E3 & E4 & Bg & Fg & _).
  assert (EL : e_layer E = layer0).
  { destruct (e_layer E) as [a b c e]. cbn in E1, E2, E3, E4. now subst. }
  destruct (setting_page W pre w h E [inline "data-x" tx; inline "data-y" ty] B PS EL Bg Fg) as (Iw & Ih & E' & UP & EV).
  destruct (file64 W E' version tx ty xs ys lx ux ly uy w h B Fx Fy L Lx Ux Ly Uy Dx Dy I1 I2 I3 I4 V UP Iw Ih Bw Bh) as (l & file & PE & SV & SP).
  exists file. split; [|exact SP]. specialize (EV l PE).
  assert (ET : eval_text W E text = Ret (E', l)).
  { unfold eval_text. rewrite (C16_reads_tree _ _ TT), map_app. cbn [bind map]. rewrite tree_inline. exact EV. }
  assert (FL : map opt_arg (filter is_font_load opts) = []).
  { clear - Hf. induction opts as [|x r IH]; [reflexivity|]. cbn [existsb] in Hf. apply orb_false_iff in Hf as [Hx Hr]. cbn [filter]. rewrite Hx. now apply IH. }
  assert (PI : picture W version (Ret fonts) stdin (map opt_arg (filter is_font_load opts)) path = Ret file).
  { unfold picture. rewrite FL, LC. cbn [bind]. destruct PT as [[-> <-]|[NP RF]].
    - cbn [bind]. change (str_eqb (s_ "-") (s_ "-")) with true. cbn [bind]. now rewrite ET.
    - destruct (str_eqb_spec path (s_ "-")) as [Q|_]; [congruence|]. rewrite RF. cbn [bind]. now rewrite ET. }
  destruct target as [|c t]; [congruence|].
  assert (M : exists r, main_ W version (Ret fonts) stdin o opts [path] = Ret r /\ r = file_write o (c :: t) file).
  { unfold main_. rewrite flags0_ok, K. cbn [bind].
    assert (C : choose_format (flags_of opts) = Ret SVG).
    { unfold choose_format, flags_of. cbn [fl_format fl_export]. unfold wants in F. destruct (last_opt is_format opts) as [[|c0 f]|]; cbn [or_else].
      - rewrite X in F. rewrite X. cbn [or_else] in F |- *. now rewrite F.
      - rewrite F. reflexivity.
      - rewrite X in F. rewrite X. cbn [or_else] in F |- *. now rewrite F. }
    unfold cli_run, flags_of in *. cbn [fl_version fl_help fl_export fl_fonts]. rewrite C, Hh, Hv, X. cbn [or_else bind].
    unfold picture in PI. destruct (layer_create W (Ret fonts) (map opt_arg (filter is_font_load opts))) as [E0| | | |]; try discriminate. cbn [bind] in PI |- *.
    destruct (if str_eqb path (s_ "-") then Ret stdin else match w_read_file W path with Some t0 => Ret t0 | None => Err end) as [input| | | |]; try discriminate. cbn [bind] in PI |- *.
    destruct (eval_text W E0 input) as [[E1' l1]| | | |]; try discriminate. cbn [bind] in PI |- *. rewrite PI. cbn [bind].
    destruct (str_eqb_spec (c :: t) (s_ "-")) as [Q|_]; [congruence|]. eexists. split; reflexivity. }
  destruct M as (r & M & ->). rewrite M. unfold file_write. rewrite T1, T2, Nat.eqb_refl, firstn_all. reflexivity.
Qed.
Print Assumptions C106_line_chart.

(** A world in double precision that reads numbers without sign. *)
Fixpoint number_prefix (s : str) : str :=
  match s with c :: r => match digit c with Some _ => c :: number_prefix r | None => [] end | [] => [] end.
Definition prefix_stod (t : str) : option (xr * nat) :=
  match number_prefix t with
  | [] => None
  | p => option_map (fun z => (Fin (rnd64 (IZR z)), length p)) (digits 0 p)
  end.
Definition chart : str := s_ "size: 1024px 512px;" ++ [c_nl] ++ s_ "lines { data-x: list(1 2 4); data-y: list(3, 1, 5); }".
Definition chart_world : world :=
  mk_world rnd64 rnd32 prefix_stod (fun _ => []) (fun t => match prefix_stod t with Some (_, n) => (n =? length t)%nat | None => false end)
    (fun p => if str_eqb p (s_ "in.clp") then Some chart else None) (fun _ _ => []) (fun l => l) (fun l => l)
    (fun _ f => Ret f) (fun _ _ _ _ pos _ _ _ => Ret [[MoveTo pos]]) (fun _ _ _ _ => Ret (rect 0 0 10 10)) 1000.
Lemma chart_binary : binary chart_world.
Proof.
  split; [reflexivity|]. split; [reflexivity|]. cbn [w_stod chart_world]. intros t v n H. unfold prefix_stod in H.
  destruct (number_prefix t) as [|c p]; [discriminate|]. destruct (digits 0 (c :: p)); [|discriminate]. cbn [option_map] in H. injection H as <- _. apply rnd64_is.
Qed.
Lemma prefix_int t z p : number_prefix t = p -> p <> [] -> digits 0 p = Some z -> (Z.abs z < 2 ^ 53)%Z -> prefix_stod t = Some (Fin (IZR z), length p).
Proof.
  intros P N D B. unfold prefix_stod. rewrite P. destruct p; [congruence|]. rewrite D. cbn [option_map]. now rewrite (rnd64_id _ (Svg_Props.is64_int z B)).
Qed.
Lemma chart_reads t z : number_prefix t = t -> t <> [] -> digits 0 t = Some z -> (Z.abs z < 2 ^ 53)%Z -> reads chart_world t (IZR z).
Proof.
  intros P N D B. unfold reads. cbn [w_stod w_is_number chart_world]. rewrite (prefix_int t z t P N D B). split; [eauto|apply Nat.eqb_refl].
Qed.
Lemma is32_int z : (Z.abs z < 2 ^ 24)%Z -> is32 (IZR z).
Proof.
  intro H. unfold is32. apply Flocq.Core.FLT.generic_format_FLT. exists (Flocq.Core.Defs.Float Flocq.Core.Zaux.radix2 z 0); [unfold Flocq.Core.Defs.F2R; cbn; lra|exact H|cbn; lia].
Qed.
Ltac chart_number := apply chart_reads; [reflexivity|discriminate|reflexivity|reflexivity].
Lemma a_word (s : str) : s <> [] -> forallb (fun c => negb (word_stop c)) s = true -> val_text (VLit s) s.
Proof. intros. constructor. now apply word_check. Qed.
Lemma chart_text : trees_text ([Prop_ (s_ "size") [VLit (s_ "1024px"); VLit (s_ "512px")]] ++ [line_chart [s_ "1"; s_ "2"; s_ "4"] [s_ "3"; s_ "1"; s_ "5"]]) chart.
Proof.
  unfold chart. cbn [app].
  apply (ts_cons _ (s_ "size: 1024px 512px;") _ ([c_nl] ++ s_ "lines { data-x: list(1 2 4); data-y: list(3, 1, 5); }") []); [constructor| |].
  - apply (tt_prop (s_ "size") (s_ "size") [] _ (s_ " 1024px 512px")); [constructor; apply word_check; [discriminate|reflexivity]|constructor|].
    apply (at_space _ (s_ "1024px") _ (s_ "512px") (s_ " ") (s_ " ")); [repeat constructor|repeat constructor|discriminate|now apply a_word|discriminate|].
    apply (at_one _ (s_ "512px") [] []); [constructor|constructor|now apply a_word].
  - apply (ts_cons _ (s_ "lines { data-x: list(1 2 4); data-y: list(3, 1, 5); }") [] [] [c_nl]); [constructor; [right; now left|constructor]| |repeat constructor].
    apply (tt_block (s_ "lines") (s_ "lines") (s_ " ") _ (s_ " data-x: list(1 2 4); data-y: list(3, 1, 5); ")); [constructor; apply word_check; [discriminate|reflexivity]|repeat constructor|].
    apply (ts_cons _ (s_ "data-x: list(1 2 4);") _ (s_ " data-y: list(3, 1, 5); ") (s_ " ")); [repeat constructor| |].
    + apply (tt_prop (s_ "data-x") (s_ "data-x") [] _ (s_ " list(1 2 4)")); [constructor; apply word_check; [discriminate|reflexivity]|constructor|].
      apply (at_one _ (s_ "list(1 2 4)") (s_ " ") []); [repeat constructor|constructor|].
      apply (xt_fn (s_ "list") _ [] (s_ "1 2 4")); [apply word_check; [discriminate|reflexivity]|constructor|].
      apply (at_space _ (s_ "1") _ (s_ "2 4") [] (s_ " ")); [constructor|repeat constructor|discriminate|now apply a_word|discriminate|].
      apply (at_space _ (s_ "2") _ (s_ "4") [] (s_ " ")); [constructor|repeat constructor|discriminate|now apply a_word|discriminate|].
      apply (at_one _ (s_ "4") [] []); [constructor|constructor|now apply a_word].
    + apply (ts_cons _ (s_ "data-y: list(3, 1, 5);") [] (s_ " ") (s_ " ")); [repeat constructor| |repeat constructor].
      apply (tt_prop (s_ "data-y") (s_ "data-y") [] _ (s_ " list(3, 1, 5)")); [constructor; apply word_check; [discriminate|reflexivity]|constructor|].
      apply (at_one _ (s_ "list(3, 1, 5)") (s_ " ") []); [repeat constructor|constructor|].
      apply (xt_fn (s_ "list") _ [] (s_ "3, 1, 5")); [apply word_check; [discriminate|reflexivity]|constructor|].
      apply (at_cons _ (s_ "3") _ (s_ " 1, 5") [] []); [constructor|constructor|now apply a_word|discriminate|].
      apply (at_cons _ (s_ "1") _ (s_ " 5") (s_ " ") []); [repeat constructor|constructor|now apply a_word|discriminate|].
      apply (at_one _ (s_ "5") (s_ " ") []); [repeat constructor|constructor|now apply a_word].
Qed.
(** clip -e out.svg in.clp, with this program in in.clp. *)
Example C106_case : exists file,
  main_ chart_world (s_ "1") (Ret []) [] (mk_os (fun _ => true) (fun _ n => Some n) (fun n => n)) [Short "e" (s_ "out.svg")] [s_ "in.clp"] =
    Ret (mk_result 0 [] (Some (s_ "out.svg", file))) /\
  shows_picture file 1024 512 (line_picture 1024 512 4 [(0, 256); (1024 / 3, 512); (1024, 0)]).
Proof.
  destruct (C106_line_chart chart_world (s_ "1") [] [] (mk_os (fun _ => true) (fun _ n => Some n) (fun n => n)) [Short "e" (s_ "out.svg")] (s_ "in.clp") (s_ "out.svg") chart
    [Prop_ (s_ "size") [VLit (s_ "1024px"); VLit (s_ "512px")]] 1024 512 [s_ "1"; s_ "2"; s_ "4"] [s_ "3"; s_ "1"; s_ "5"] [1; 2; 4] [3; 1; 5] 1 4 1 5) as (file & M & P); try reflexivity; try discriminate; try lra.
  - exact chart_binary.
  - cbn. intuition discriminate.
  - split; reflexivity.
  - right. split; [discriminate|reflexivity].
  - exact chart_text.
  - constructor.
    + exists 4%nat. split; [|reflexivity]. apply (prefix_int (s_ "1024px") 1024 (s_ "1024")); (reflexivity || discriminate).
    + exists 3%nat. split; [|reflexivity]. apply (prefix_int (s_ "512px") 512 (s_ "512")); (reflexivity || discriminate).
  - repeat (constructor; [chart_number|]). constructor.
  - repeat (constructor; [chart_number|]). constructor.
  - split; [cbn; auto|]. cbn. intros v H. decompose [or] H; subst; try lra; contradiction.
  - split; [cbn; auto|]. cbn. intros v H. decompose [or] H; subst; try lra; contradiction.
  - split; [cbn; auto|]. cbn. intros v H. decompose [or] H; subst; try lra; contradiction.
  - split; [cbn; auto|]. cbn. intros v H. decompose [or] H; subst; try lra; contradiction.
  - apply is32_int. reflexivity.
  - apply is32_int. reflexivity.
  - apply is32_int. reflexivity.
  - apply is32_int. reflexivity.
  - exists file. split; [exact M|].
    replace [(0, 256); (1024 / 3, 512); (1024, 0)] with (map (in_file 1 4 1 5 1024 512) (combine [1; 2; 4] [3; 1; 5])); [exact P|].
    unfold in_file, along. cbn [combine map fst snd].
    repeat (apply (f_equal2 cons); [apply (f_equal2 pair); lra|]). reflexivity.
Qed.
