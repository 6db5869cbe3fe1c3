(** Proofs about messages: without them the models are those of the other files. *)
From Coq Require Import Reals ZArith Lia.
From Verif Require Import Base Dec Num Sexpr_Model Dispatch_Model Dispatch_Spec Data_Model Scale_Model Units_Model Color_Model Geo_Model Svg_Model Format_Model Cmd_Model Style_Model
  Plist_Model Plot_Model Eval_Model Say_Model Say_Model2 Say_Spec.
From Verif Require PlistSay_Model PlistSay_Proofs.

Lemma erase_bind {A B} (r : reply A) (k : A -> reply B) : erase (rbind r k) = (let* a := erase r in erase (k a)).
Proof. destruct r; reflexivity. Qed.
Lemma erase_open {A} m (o : outcome A) : erase (open_message m o) = o.
Proof. destruct o; reflexivity. Qed.
Definition plain_fns {S} (fns : str -> option (list expr -> S -> S * reply unit)) (k : str) : option (list expr -> S -> S * bool) :=
  option_map (fun f e s => let '(s', r) := f e s in (s', match r with Good _ => true | _ => false end)) (fns k).
Definition polite {S} (fns : str -> option (list expr -> S -> S * reply unit)) : Prop :=
  forall k f e s, fns k = Some f -> match snd (f e s) with Good _ | Says _ _ => True | _ => False end.
Lemma walk_same {S} (fns : str -> option (list expr -> S -> S * reply unit)) collect l u t s : polite fns ->
  walk (plain_fns fns) collect l u t s = (fst (walk_said fns collect l u t s), erase (snd (walk_said fns collect l u t s))).
Proof.
  intro P. revert u t s. induction l as [|x l IH]; intros u t s; [reflexivity|]. destruct x as [args|v|v]; try reflexivity.
  cbn [walk walk_said]. destruct (value_of args) as [k|]; [|reflexivity]. unfold plain_fns at 1. destruct (fns k) as [f|] eqn:F; cbn [option_map].
  - specialize (P k f (tl args) s F). destruct (f (tl args) s) as [s' [a|m tr| | |]]; cbn [snd] in P; try contradiction; [apply IH|reflexivity].
  - destruct collect; [apply IH|reflexivity].
Qed.
Definition plain_table {S} (t : list (str * (list expr -> S -> reply S))) : list (str * cmd S) :=
  map (fun x => (fst x, fun e s => erase (snd x e s))) t.
Lemma assoc_plain {S} k (t : list (str * (list expr -> S -> reply S))) : assoc k (plain_table t) = option_map (fun f e s => erase (f e s)) (assoc k t).
Proof. unfold plain_table. induction t as [|[n f] t IH]; [reflexivity|]. cbn [map assoc fst snd]. destruct (str_eqb k n); [reflexivity|exact IH]. Qed.
Lemma walkx_ext {S} (a b : list (str * cmd S)) c l u t s : (forall k, match assoc k a, assoc k b with
    | Some f, Some g => forall e s, f e s = g e s | None, None => True | _, _ => False end) -> walkx a c l u t s = walkx b c l u t s.
Proof.
  intro H. revert u t s. induction l as [|x l IH]; intros u t s; [reflexivity|]. destruct x as [args|v|v]; try reflexivity.
  cbn [walkx]. destruct (value_of args) as [k|]; [|reflexivity]. specialize (H k). destruct (assoc k a) as [f|], (assoc k b) as [g|]; try contradiction.
  - rewrite H. destruct (g (tl args) s); try reflexivity. apply IH.
  - destruct c; [apply IH|reflexivity].
Qed.
Lemma walkx_same {S} (t : list (str * (list expr -> S -> reply S))) c l u v s : erase (walkx_said t c l u v s) = walkx (plain_table t) c l u v s.
Proof.
  revert u v s. induction l as [|x l IH]; intros u v s; [reflexivity|]. destruct x as [args|w|w]; try reflexivity.
  cbn [walkx walkx_said]. destruct (value_of args) as [k|]; [|reflexivity]. rewrite assoc_plain. destruct (assoc k t) as [f|]; cbn [option_map].
  - destruct (f (tl args) s); try reflexivity. apply IH.
  - destruct c; [apply IH|reflexivity].
Qed.

Lemma float_same stod e : erase (expr_to_float64_said stod e) = expr_to_float64 stod e.
Proof. unfold expr_to_float64_said, expr_to_float64. destruct (value_of e); [|reflexivity]. now destruct (stod s) as [[q n]|]. Qed.
Lemma string_same e : erase (expr_to_string_said e) = expr_to_string e.
Proof. unfold expr_to_string_said, expr_to_string. now destruct (value_of e). Qed.
Lemma switch_same e : erase (expr_to_switch_said e) = expr_to_switch e.
Proof. unfold expr_to_switch_said, expr_to_switch. destruct (value_of e); [|reflexivity]. destruct (str_eqb s (s_ "on")); [reflexivity|]. now destruct (str_eqb s (s_ "off")). Qed.
Lemma parse_same d stod t : erase (parse_measure_said d stod t) = parse_measure d stod t.
Proof.
  unfold parse_measure_said, parse_measure. destruct (stod t) as [[v n]|]; [|reflexivity]. destruct (n =? length t)%nat; [reflexivity|]. cbv zeta.
  repeat match goal with |- context [if ?b then _ else _] => destruct b; [reflexivity|] end. reflexivity.
Qed.
Lemma measure_same d stod e : erase (measure_read_said d stod e) = measure_read d stod e.
Proof. unfold measure_read_said, measure_read. destruct (value_of e); [apply parse_same|reflexivity]. Qed.
Lemma readn_same d stod l e : erase (measure_readn_said d stod l e) = measure_readn d stod l e.
Proof. unfold measure_readn_said, measure_readn. now rewrite erase_bind, measure_same. Qed.
(** Where only an error is possible. *)
Lemma float_fails (stod : str -> option (xr * nat)) e : expr_to_float64 stod e = Err \/ exists v, expr_to_float64 stod e = Ret v.
Proof. unfold expr_to_float64. destruct (value_of e); [|now left]. destruct (stod s) as [[q n]|]; eauto. Qed.
Lemma measure_fails d stod e : measure_read d stod e = Err \/ exists v, measure_read d stod e = Ret v.
Proof.
  unfold measure_read. destruct (value_of e); [|now left]. unfold parse_measure. destruct (stod s) as [[v n]|]; [|now left]. destruct (n =? length s)%nat; [eauto|]. cbv zeta.
  repeat match goal with |- context [if ?b then _ else _] => destruct b; [eauto|] end. eauto.
Qed.
Definition pair_same {A} (r : A * reply unit) : A * outcome unit := (fst r, erase (snd r)).
Lemma resize_same d stod sizes l a : pair_same (layer_resize_cmd_said d stod sizes l a) = layer_resize_cmd d stod l a.
Proof.
  unfold pair_same. destruct a as [|x [|y [|z r]]]; try reflexivity.
  - cbn [layer_resize_cmd_said layer_resize_cmd]. unfold layer_resize_paper_said, layer_resize_paper. now destruct (assoc (node_text x) paper_sizes) as [[w h]|].
  - cbn [layer_resize_cmd_said layer_resize_cmd]. pose proof (measure_same d stod [x; y]) as H1. pose proof (measure_same d stod [y]) as H2.
    destruct (measure_fails d stod [x; y]) as [E1|[v1 E1]]; rewrite E1 in *; destruct (measure_read_said d stod [x; y]) as [w1|m1 t1| | |]; try discriminate; [reflexivity|].
    injection H1 as ->. destruct (measure_fails d stod [y]) as [E2|[v2 E2]]; rewrite E2 in *; destruct (measure_read_said d stod [y]) as [w2|m2 t2| | |]; try discriminate; [reflexivity|].
    injection H2 as ->. reflexivity.
Qed.
Lemma dpi_same stod l a : pair_same (layer_set_dpi_cmd_said stod l a) = layer_set_dpi_cmd stod l a.
Proof.
  unfold pair_same. destruct a as [|x [|y r]]; try reflexivity. cbn [layer_set_dpi_cmd_said layer_set_dpi_cmd]. pose proof (float_same stod [x]) as H.
  destruct (float_fails stod [x]) as [E|[v E]]; rewrite E in *; destruct (expr_to_float64_said stod [x]) as [w|m t| | |]; try discriminate; [reflexivity|]. now injection H as ->.
Qed.
Lemma font_size_same d stod l a : pair_same (layer_set_font_size_cmd_said d stod l a) = layer_set_font_size_cmd d stod l a.
Proof.
  unfold pair_same. destruct a as [|x [|y r]]; try reflexivity. cbn [layer_set_font_size_cmd_said layer_set_font_size_cmd]. pose proof (measure_same d stod [x]) as H.
  destruct (measure_fails d stod [x]) as [E|[v E]]; rewrite E in *; destruct (measure_read_said d stod [x]) as [w|m t| | |]; try discriminate; [reflexivity|]. now injection H as ->.
Qed.
Lemma map_same d stod l e : erase (measure_map_read_said d stod l e) = measure_map_read d stod l e.
Proof.
  destruct e as [|[items|v|v] e]; try reflexivity. cbn [measure_map_read_said measure_map_read]. cbv zeta. destruct (value_of items); [|reflexivity]. destruct (str_eqb s (s_ "linear")); [|reflexivity].
  destruct (tl items) as [|x [|y [|z r]]]; try reflexivity. rewrite erase_bind, readn_same. destruct (measure_readn d stod l [x; y]); try reflexivity. cbn [bind]. now rewrite erase_bind, readn_same.
Qed.
Lemma kind_same stod rf m e s : pair_same (configure_kind_said stod rf m e s) = configure_kind stod rf e s.
Proof.
  unfold pair_same. revert s. induction e as [|x rest IH]; intro s; [reflexivity|]. cbn [configure_kind_said configure_kind].
  destruct (is_val (x :: rest) (s_ "linear")); [apply IH|]. destruct (is_val (x :: rest) (s_ "log") || is_val (x :: rest) (s_ "logarithmic")); [apply IH|]. cbv zeta.
  destruct (match list_headed (x :: rest) (s_ "log") with Some a => Some a | None => list_headed (x :: rest) (s_ "logarithmic") end) as [args|].
  - pose proof (float_same stod args) as H. destruct (float_fails stod args) as [E|[v E]]; rewrite E in *; destruct (expr_to_float64_said stod args) as [w|m1 t| | |]; try discriminate; [reflexivity|].
    injection H as ->. apply IH.
  - destruct (is_val (x :: rest) (s_ "invert") || is_val (x :: rest) (s_ "inverted")); [apply IH|]. destruct (is_val (x :: rest) (s_ "categorical")); [apply IH|].
    destruct (list_headed (x :: rest) (s_ "categorical")) as [args|]; [|reflexivity].
    destruct (data_load_strings rf args (s_categories (set_categorical s))) as [c o]. destruct o; try reflexivity. cbn [open_message]. apply IH.
Qed.
Ltac erased := repeat (first [rewrite erase_bind | rewrite float_same]); try reflexivity.
Lemma args1_same stod w a : erase (args1_said stod w a) = args1 stod a.
Proof. destruct a as [|x [|y r]]; try reflexivity. apply float_same. Qed.
Lemma args2_same stod w a : erase (args2_said stod w a) = args2 stod a.
Proof. destruct a as [|x [|y [|z r]]]; try reflexivity. cbn [args2_said args2]. erased. destruct (expr_to_float64 stod [x; y]); try reflexivity. cbn [bind]. now erased. Qed.
Lemma args3_same stod w a : erase (args3_said stod w a) = args3 stod a.
Proof.
  destruct a as [|x [|y [|z [|q r]]]]; try reflexivity. cbn [args3_said args3]. erased. destruct (expr_to_float64 stod [x; y; z]); try reflexivity. cbn [bind]. erased.
  destruct (expr_to_float64 stod [y; z]); try reflexivity. cbn [bind]. now erased.
Qed.
Lemma layout_same stod e : erase (configure_layout_said stod e) = configure_layout stod e.
Proof.
  unfold configure_layout_said, configure_layout.
  destruct (list_headed e (s_ "linear")) as [a|]; [now rewrite erase_bind, args1_same|].
  destruct (list_headed e (s_ "linear-align")) as [a|]; [now rewrite erase_bind, args1_same|].
  destruct (list_headed e (s_ "linear-alignat")) as [a|]; [rewrite erase_bind, args2_same; destruct (args2 stod a) as [[u v]| | | |]; reflexivity|].
  destruct (list_headed e (s_ "linear-interval")) as [a|]; [rewrite erase_bind, args3_same; destruct (args3 stod a) as [[[u v] w]| | | |]; reflexivity|].
  destruct (list_headed e (s_ "exponential")) as [a|]; [now rewrite erase_bind, args1_same|].
  destruct (list_headed e (s_ "exponential-steps")) as [a|]; [rewrite erase_bind, args2_same; destruct (args2 stod a) as [[u v]| | | |]; reflexivity|].
  destruct (list_headed e (s_ "subdivide")) as [[|x [|y r]]|]; try reflexivity; [rewrite erase_bind, float_same; reflexivity|].
  destruct (is_val e (s_ "categorical")); [reflexivity|]. destruct (is_val e (s_ "categorical-bounds")); [reflexivity|]. now destruct (is_val e (s_ "none")).
Qed.
Lemma palette_same f32 names n : erase (color_palette_default_said f32 names n) = color_palette_default f32 n.
Proof. unfold color_palette_default_said, color_palette_default. destruct (assoc n palettes); [apply erase_open|reflexivity]. Qed.
Lemma color_map_same f32 stod m p e : erase (color_map_read_said f32 stod m p e) = color_map_read f32 stod p e.
Proof.
  unfold color_map_read_said, color_map_read. cbv zeta. destruct e as [|[args|v|v] e]; try reflexivity.
  assert (S : forall a, erase (map_stops_said f32 stod m p a) = map_stops f32 stod p a).
  { intro a. unfold map_stops_said, map_stops. destruct (Nat.odd (length a)); [reflexivity|apply erase_open]. }
  destruct (head_is (s_ "gradient") args); [now rewrite erase_bind, S|]. destruct (head_is (s_ "steps") args); [now rewrite erase_bind, S|]. reflexivity.
Qed.
Lemma format_same d st sf rf m e : erase (format_configure_said d st sf rf m e) = format_configure d st sf rf e.
Proof.
  unfold format_configure_said, format_configure. cbv zeta.
  assert (B : forall a, erase (match a with [_] | [_; _] => open_message [] (configure_base d st a)
      | _ => error_ (s_ "invalid number of arguments for 'base'; expected one or two, but got: " ++ dec (Z.of_nat (length a))) end) = configure_base d st a).
  { intros [|x [|y [|z r]]]; try reflexivity; apply erase_open. }
  repeat match goal with
  | |- context [if Format_Model.is_word ?e ?n then _ else _] => destruct (Format_Model.is_word e n); [try apply erase_open; try apply B; try reflexivity|]
  | |- context [match list_headed ?e ?n with Some _ => _ | None => _ end] => destruct (list_headed e n) as [a|]; [try apply erase_open; try apply B; try (destruct a; reflexivity)|]
  end. all: reflexivity.
Qed.
Lemma points_same {num} lm gm (ll : list expr -> @databuf num -> @databuf num * outcome unit) lp path fmt rx ry bx by_ :
  pair_same (data_load_points2_said lm gm ll lp path fmt rx ry bx by_) =
  (let is_list e := match e with EList _ :: _ => true | _ => false end in
   let '(bx1, o1) := if is_list rx then ll rx bx else (bx, Ret tt) in
   match o1 with
   | Ret _ => let '(by1, o2) := if is_list ry then ll ry by_ else (by_, Ret tt) in
       match o2 with
       | Ret _ => match path with
                  | [] => ((bx1, by1), Ret tt)
                  | _ => if str_eqb (detect_format path fmt) (s_ "geojson") then lp path bx1 by1 else ((bx1, by1), Err)
                  end
       | _ => ((bx1, by1), o2)
       end
   | _ => ((bx1, by_), o1)
   end).
Proof.
  unfold pair_same, data_load_points2_said. cbv zeta. destruct (if match rx with EList _ :: _ => true | _ => false end then ll rx bx else (bx, Ret tt)) as [bx1 o1].
  destruct o1 as [[]| | | |]; try reflexivity. cbn [open_message].
  destruct (if match ry with EList _ :: _ => true | _ => false end then ll ry by_ else (by_, Ret tt)) as [by1 o2].
  destruct o2 as [[]| | | |]; try reflexivity. cbn [open_message]. destruct path as [|c p]; [reflexivity|]. destruct (detect_format (c :: p) fmt) as [|c0 f]; [reflexivity|].
  destruct (str_eqb (c0 :: f) (s_ "geojson")); [|reflexivity]. destruct (lp (c :: p) bx1 by1) as [b o]. cbn [fst snd]. now rewrite erase_open.
Qed.
Lemma tov_same {T} (c : list expr -> reply T) (c0 : list expr -> outcome T) e acc : (forall e, erase (c e) = c0 e) ->
  erase (tov_said c e acc) = ended (tov_loop c0 e acc).
Proof.
  intro H. revert acc. induction e as [|x r IH]; intro acc; [reflexivity|]. cbn [tov_said tov_loop]. rewrite erase_bind, H. destruct (c0 (x :: r)); try reflexivity. apply IH.
Qed.
Lemma measuren_same W E e : erase (rd_measuren_said W E e) = Cmd_Model.rd_measuren W E e.
Proof. unfold rd_measuren_said. now rewrite erase_bind, readn_same. Qed.
Lemma run_same {S} (t : list (str * (list expr -> S -> reply S))) l s : erase (run_said t l s) = run (plain_table t) l s.
Proof. unfold run_said, run. rewrite erase_bind, walkx_same. destruct (walkx (plain_table t) false l [] [] s) as [[a b]| | | |]; reflexivity. Qed.
Lemma dash_same W E e s : erase (stroke_style_read_dash_said W E e s) = stroke_style_read_dash W E e s.
Proof.
  unfold stroke_style_read_dash_said, stroke_style_read_dash. cbv zeta. rewrite run_same. unfold run. f_equal. apply walkx_ext. intro k.
  unfold plain_table. cbn [map assoc fst snd]. destruct (str_eqb k (s_ "pattern")).
  - intros x z. unfold upd. rewrite erase_bind, (tov_same _ (Cmd_Model.rd_measuren W E)) by apply measuren_same. reflexivity.
  - destruct (str_eqb k (s_ "offset")); [|exact I]. intros x z. unfold upd. now rewrite erase_bind, measuren_same.
Qed.
Lemma stroke_same W E e s : erase (stroke_style_read_said W E e s) = stroke_style_read W E e s.
Proof.
  unfold stroke_style_read_said, stroke_style_read. destruct (is_word e "none" || is_list_of e "none"); [reflexivity|]. destruct (is_word e "solid" || is_list_of e "solid"); [reflexivity|].
  destruct (is_word e "dash" || is_word e "dashed"); [apply dash_same|]. destruct (list_of e "dash"); [apply dash_same|]. destruct (list_of e "dashed"); [apply dash_same|reflexivity].
Qed.
Lemma ended_same {A} (r : A * reply unit) : erase (ended_said r) = ended (pair_same r).
Proof. destruct r as [a o]. unfold ended_said, ended, pair_same. cbn [fst snd]. now rewrite erase_bind. Qed.
Lemma font_same W U e f : erase (set_font_cmd_said W U e f) = set_font_cmd W e f.
Proof.
  destruct e as [|a [|b r]]; try reflexivity. cbn [set_font_cmd_said]. destruct a as [l|v|v]; [|apply erase_open|apply erase_open]. reflexivity.
Qed.
Lemma table_same W U k : match assoc k (plain_table (eval_table_said W U)), assoc k (eval_table W) with
    | Some f, Some g => forall e s, f e s = g e s | None, None => True | _, _ => False end.
Proof.
  unfold plain_table, eval_table_said, eval_table. cbv zeta. cbn [map assoc fst snd]. destruct (str_eqb k (s_ "class")).
  { intros e s. unfold upd. now rewrite erase_bind, string_same. }
  destruct (str_eqb k (s_ "size")). { intros e s. unfold updf. now rewrite erase_bind, ended_same, resize_same. }
  destruct (str_eqb k (s_ "dpi")). { intros e s. unfold updf. now rewrite erase_bind, ended_same, dpi_same. }
  destruct (str_eqb k (s_ "font")). { intros e s. unfold updf. now rewrite erase_bind, font_same. }
  destruct (str_eqb k (s_ "font-size")). { intros e s. unfold updf. now rewrite erase_bind, ended_same, font_size_same. }
  exact I.
Qed.
Lemma exprs_same W U E e : erase (eval_exprs_said W U E e) = eval_exprs W E e.
Proof.
  unfold eval_exprs_said, eval_exprs. rewrite erase_bind. unfold run_collect_said. rewrite walkx_same, (walkx_ext _ (eval_table W)) by apply table_same. unfold run_collect.
  destruct (walkx (eval_table W) true e [] [] (E, s_ "plot")) as [[[E1 n] a]| | | |]; try reflexivity. cbn [bind]. destruct n as [|c n]; [reflexivity|].
  destruct (assoc (c :: n) (modules W)) as [m|]; [|reflexivity]. destruct a as [|x a]; [reflexivity|]. now rewrite erase_bind, erase_open.
Qed.
Lemma text_same W U E t : erase (eval_text_said W U E t) = eval_text W E t.
Proof.
  unfold eval_text_said, eval_text. rewrite <- PlistSay_Proofs.said_same. destruct (PlistSay_Model.plist_parse_said t) as [o m]. cbn [fst].
  rewrite erase_bind, erase_open. destruct o; try reflexivity. apply exprs_same.
Qed.
Lemma step_same {A} U (r : reply A) (o : outcome A) k k' : erase r = o -> (forall a, r = Good a -> (let* x := k a in Ret (fst x)) = match k' a with Err | Throw => Ret failure | x => x end) ->
  (let* x := step U r k in Ret (fst x)) = match (let* a := o in k' a) with Err | Throw => Ret failure | x => x end.
Proof. intros <- H. destruct r; cbn [step erase bind]; try reflexivity. now apply H. Qed.
Theorem main_same W U version defaults stdin o opts args :
  (let* x := main_said W U version defaults stdin o opts args in Ret (fst x)) = main_ W version defaults stdin o opts args.
Proof.
  unfold main_said, main_. destruct (flags_parse opts flags0) as [f| | | |] eqn:F; cbn [bind]; try reflexivity.
  2:{ exfalso. revert F. clear. generalize flags0. induction opts as [|x r IH]; intros f F; [discriminate|]. cbn [flags_parse] in F. destruct (find_flag x); [now apply IH in F|discriminate]. }
  2:{ exfalso. revert F. clear. generalize flags0. induction opts as [|x r IH]; intros f F; [discriminate|]. cbn [flags_parse] in F. destruct (find_flag x); [now apply IH in F|discriminate]. }
  unfold cli_run_said, cli_run. destruct (fl_version f); [reflexivity|]. destruct (fl_help f); [reflexivity|]. destruct args as [|path [|q r]]; try reflexivity.
  destruct (choose_format f) as [fmt| | | |] eqn:C; cbn [bind]; try reflexivity.
  2,3: exfalso; revert C; unfold choose_format; destruct (fl_format f); [discriminate|]; destruct (str_eqb _ _); [discriminate|]; destruct (str_eqb _ _); discriminate.
  apply step_same; [apply erase_open|]. intros E _.
  destruct (str_eqb path (s_ "-")); [|destruct (w_read_file W path) as [input|]; [|reflexivity]].
  all: cbn [bind]; apply step_same; [apply text_same|]; intros [E1 l] _; destruct (fl_export f) as [|c t]; [reflexivity|];
    apply step_same; [apply erase_open|]; intros text _; destruct (str_eqb (c :: t) (s_ "-")); reflexivity.
Qed.
