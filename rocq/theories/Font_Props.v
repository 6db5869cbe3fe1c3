(** C108: fonts. *)
From Coq Require Import Reals Lra ZArith.
From Flocq Require Import Core.
From Verif Require Import Base Num Num_Facts Str_Model Units_Model Color_Model Geo_Model Text_Model Text_Spec Text_Proofs Text_Props Glyph_Model Sexpr_Model Dispatch_Model Plist_Model Cmd_Model Cmd_Spec Cmd_Proofs
  Svg_Model Eval_Model Page_Props Say_Model Font_Model Font_Spec.

Lemma ends_spec n x : ends_with n x = true <-> exists b, n = b ++ x.
Proof.
  unfold ends_with. destruct (Nat.ltb_spec (length n) (length x)).
  - split; [discriminate|]. intros (b & ->). rewrite app_length in H. lia.
  - destruct (str_eqb_spec (firstn (length x) (skipn (length n - length x) n)) x) as [E|E].
    + split; [|reflexivity]. intros _. exists (firstn (length n - length x) n).
      rewrite firstn_all2 in E by (rewrite skipn_length; lia). rewrite <- E at 2. now rewrite firstn_skipn.
    + split; [discriminate|]. intros (b & ->). exfalso. apply E. rewrite app_length, Nat.add_sub.
      rewrite skipn_app, Nat.sub_diag, skipn_all. cbn [skipn app]. apply firstn_all.
Qed.
Lemma is_file_spec n : is_file_name n = true <-> looks_like_file n.
Proof.
  unfold is_file_name, looks_like_file. rewrite !orb_true_iff, !ends_spec, or_assoc. apply or_iff_compat_r. destruct n as [|c r].
  - split; [discriminate|now intros (r & E)].
  - split.
    + intro E. apply Ascii.eqb_eq in E. subst. eauto.
    + intros (r' & E). injection E as -> ->. apply Ascii.eqb_refl.
Qed.

(** C108. A font that is asked for is the file of that name, or what fontconfig finds for the name;
    it is tried before all the fonts that were there. *)
Theorem C108_best : forall (L : library) (name : str) (fi fi' : font_info),
  font_load_best L name fi = Good fi' <->
  exists f, font_named L name f /\ fi_fonts fi' = f :: fi_fonts fi /\ fi_family fi' = [].
Proof.
  intros L name fi fi'. unfold font_load_best. destruct name as [|c n].
  { split; [discriminate|]. intros (f & (file & (N & _) & _) & _). congruence. }
  set (p := c :: n). cbv zeta. match goal with |- context [match ?X with [] => error_ _ | _ :: _ => _ end] => set (file := X) end.
  assert (F : forall x, font_file L p x <-> (x = file /\ file <> [])).
  { intro x. unfold font_file. subst file. pose proof (is_file_spec p) as S. destruct (is_file_name p).
    - assert (T : looks_like_file p) by (apply S; reflexivity). split.
      + intros (_ & [(_ & ->)|(X & _)]); [split; [reflexivity|discriminate]|contradiction].
      + intros (-> & _). split; [discriminate|]. left. now split.
    - assert (T : ~ looks_like_file p) by (intro X; apply S in X; discriminate). split.
      + intros (_ & [(X & _)|(_ & X & Y)]); [contradiction|]. rewrite X. now split.
      + intros (-> & NE). split; [discriminate|]. right. split; [exact T|]. destruct (fc_match L p); [now split|congruence]. }
  destruct file as [|a r] eqn:E.
  { split; [discriminate|]. intros (f & (x & X & _) & _). apply F in X. destruct X as (_ & X). congruence. }
  assert (G : forall f, font_named L p f <-> ft_open L (a :: r) = Some f).
  { intro f. split.
    - intros (x & X & O). apply F in X. destruct X as (-> & _). exact O.
    - intro O. exists (a :: r). split; [apply F; split; [reflexivity|discriminate]|exact O]. }
  unfold load_said, font_load. destruct (ft_open L (a :: r)) as [f|] eqn:O; cbn [rbind error_ unable_to_load].
  - split.
    + intro X. injection X as <-. exists f. split; [apply G; reflexivity|now split].
    + intros (f' & X & Y & Z). apply G in X. destruct fi' as [l c']. cbn in Y, Z. congruence.
  - split; [discriminate|]. intros (f' & X & _). apply G in X. congruence.
Qed.
Print Assumptions C108_best.

(** C108. If there is no such font the command fails, the fonts stay as they are, and the message
    says which name or file it was. *)
Theorem C108_none : forall (L : library) (name : str) (fi : font_info),
  (forall f, ~ font_named L name f) ->
  exists m, font_load_best L name fi = Says m [] /\
    ((name = [] /\ m = s_ "unable to load font: empty font pattern") \/
     (name <> [] /\ (forall file, ~ font_file L name file) /\ m = s_ "unable to find font: $" ++ name) \/
     (exists file, font_file L name file /\ m = s_ "unble to load font '" ++ file ++ s_ "': ")).
Proof.
  intros L name fi N. unfold font_load_best. destruct name as [|c n].
  { eexists. split; [reflexivity|]. left. now split. }
  set (p := c :: n) in *. pose proof (is_file_spec p) as S. cbv zeta. match goal with |- context [match ?X with [] => error_ _ | _ :: _ => _ end] => set (file := X) end.
  assert (F : file <> [] -> font_file L p file).
  { intro NE. split; [discriminate|]. subst file. destruct (is_file_name p); [left; split; [apply S; reflexivity|reflexivity]|].
    right. split; [intro X; apply S in X; discriminate|]. destruct (fc_match L p); [now split|congruence]. }
  destruct file as [|a r] eqn:E.
  - eexists. split; [reflexivity|]. right. left. split; [discriminate|]. split; [|reflexivity]. intros x (_ & [(X & ->)|(X & Y & Z)]).
    + subst file. apply S in X. rewrite X in E. discriminate.
    + subst file. destruct (is_file_name p); [discriminate|]. rewrite Y in E. congruence.
  - unfold load_said, font_load. destruct (ft_open L (a :: r)) as [f|] eqn:O; cbn [rbind error_ unable_to_load].
    + exfalso. apply (N f). exists (a :: r). split; [apply F; discriminate|exact O].
    + eexists. split; [reflexivity|]. right. right. exists (a :: r). split; [apply F; discriminate|]. now rewrite app_nil_r.
Qed.
Print Assumptions C108_none.

Lemma named_spec l r : system_files l r <-> r = named l.
Proof.
  split.
  - intro H. induction H; cbn [named]; congruence.
  - intros ->. induction l as [|[f|] l IH]; cbn [named]; constructor; exact IH.
Qed.
Lemma load_said_good L file f : load_said L file = Good f <-> ft_open L file = Some f.
Proof. unfold load_said, font_load. destruct (ft_open L file); unfold unable_to_load, error_; split; intro H; try discriminate; injection H as ->; reflexivity. Qed.
Lemma load_all_spec L : forall files old l, load_all L files old = Good l <-> exists fs, Forall2 (fun file f => ft_open L file = Some f) files fs /\ l = old ++ fs.
Proof.
  induction files as [|f files IH]; intros old l; cbn [load_all].
  - split.
    + intro X. injection X as <-. exists []. split; [constructor|now rewrite app_nil_r].
    + intros (fs & F & ->). inversion F. now rewrite app_nil_r.
  - split.
    + intro X. destruct (load_said L f) as [x| | | |] eqn:E; cbn [rbind] in X; try discriminate. apply load_said_good in E.
      apply IH in X. destruct X as (fs & F & ->). exists (x :: fs). split; [now constructor|]. now rewrite <- app_assoc.
    + intros (fs & F & ->). inversion F as [|? x ? fs' E F']; subst. apply load_said_good in E. rewrite E. cbn [rbind]. apply IH. exists fs'. split; [exact F'|]. now rewrite <- app_assoc.
Qed.
Lemma load_each_spec L : forall names fi fi', load_each L names fi = Good fi' ->
  exists fs, Forall2 (font_named L) names fs /\ fi_fonts fi' = rev fs ++ fi_fonts fi.
Proof.
  induction names as [|n names IH]; intros fi fi' H; cbn [load_each] in H.
  - injection H as <-. exists []. split; [constructor|reflexivity].
  - destruct (font_load_best L n fi) as [x| | | |] eqn:E; cbn [rbind] in H; try discriminate.
    apply C108_best in E. destruct E as (f & N & F & _). apply IH in H. destruct H as (fs & H1 & H2). exists (f :: fs). split; [now constructor|].
    rewrite H2, F. cbn [rev]. now rewrite <- app_assoc.
Qed.
Lemma load_each_conv L : forall names fs fi, Forall2 (font_named L) names fs -> exists fi', load_each L names fi = Good fi'.
Proof.
  induction names as [|n names IH]; intros fs fi H; cbn [load_each]; [eauto|]. inversion H as [|? f ? fs' N H']; subst.
  rewrite (proj2 (C108_best L n fi (mk_font_info (f :: fi_fonts fi) [])) (ex_intro _ f (conj N (conj eq_refl eq_refl)))). cbn [rbind]. eapply IH; eassumption.
Qed.

(** C108. A new page has the fonts that were asked for, the last one first, and after them those of
    the system; there is an error if and only if one of all these cannot be had. *)
Theorem C108_page : forall (L : library) (names : list str) (l : font),
  (exists fi, layer_fonts L true names = Good fi /\ fi_fonts fi = l) <->
  exists asked system, Forall2 (font_named L) names asked /\ system_fonts L system /\ l = rev asked ++ system.
Proof.
  intros L names l. unfold layer_fonts, font_load_defaults. split.
  - intros (fi & H & <-). destruct (load_all L (named (fc_sorted L)) []) as [ds| | | |] eqn:E; cbn [rbind fi_fonts] in H; rewrite ?E in H; cbn [rbind] in H; try discriminate.
    apply load_each_spec in H. destruct H as (fs & F & Q). apply load_all_spec in E. destruct E as (ds' & E & ->).
    exists fs, ds'. split; [exact F|]. split; [|exact Q]. exists (named (fc_sorted L)). split; [now apply named_spec|exact E].
  - intros (asked & system & A & (files & F & S) & ->). apply named_spec in F. subst files.
    assert (E : load_all L (named (fc_sorted L)) [] = Good system) by (apply load_all_spec; exists system; now split).
    cbn [fi_fonts]. rewrite E. cbn [rbind]. destruct (load_each_conv L names asked (mk_font_info system default_css) A) as (fi' & X).
    exists fi'. split; [exact X|]. apply load_each_spec in X. destruct X as (fs & F & Q). rewrite Q. cbn [fi_fonts]. f_equal. f_equal.
    clear - A F. revert asked A. induction F as [|n f names fs N F IH]; intros asked A; inversion A as [|? f' ? ? N']; subst; [reflexivity|]. f_equal; [|now apply IH].
    destruct N as (x & X1 & X2). destruct N' as (y & Y1 & Y2). assert (x = y); [|congruence].
    destruct X1 as (_ & [(P & ->)|(P & Q & _)]); destruct Y1 as (_ & [(P' & ->)|(P' & Q' & _)]); try contradiction; congruence.
Qed.
Print Assumptions C108_page.

(** C108, refuted: a program can be drawn when there is a font for it. One font file of the system
    that cannot be opened and no page can be made, whatever the program asks for. *)
Theorem C108_unreadable_font_refuted : forall (L : library) (file : str) (names : list str),
  In (Some file) (fc_sorted L) -> ft_open L file = None -> exists m, layer_fonts L true names = Says m [].
Proof.
  intros L file names I O.
  assert (G : forall files old, In file files -> exists m, load_all L files old = Says m []).
  { induction files as [|x files IH]; intros old J; [destruct J|]. destruct J as [->|J]; cbn [load_all].
    - unfold load_said, font_load. rewrite O. cbn. eauto.
    - unfold load_said, font_load. destruct (ft_open L x); cbn; [now apply IH|eauto]. }
  assert (J : In file (named (fc_sorted L))).
  { induction (fc_sorted L) as [|[x|] l IH]; [destruct I| |]; (destruct I as [I|I]; [try discriminate|]); cbn [named].
    - injection I as ->. now left. - right. now apply IH. - now apply IH. }
  unfold layer_fonts, font_load_defaults. cbn [fi_fonts]. destruct (G _ [] J) as (m & E). rewrite E. cbn [rbind]. eauto.
Qed.
Print Assumptions C108_unreadable_font_refuted.
(** C108, refuted: a font file can be asked for by its name. With another ending, or the ending in
    capitals, a relative name is taken for the name of a family, and the file is not opened. *)
Theorem C108_file_refuted :
  ~ looks_like_file (s_ "fonts/Go.TTF") /\ ~ looks_like_file (s_ "Go.ttc") /\
  forall (L : library) (fi : font_info), fc_match L (s_ "fonts/Go.TTF") = None ->
    font_load_best L (s_ "fonts/Go.TTF") fi = Says (s_ "unable to find font: $fonts/Go.TTF") [].
Proof.
  assert (A : ~ looks_like_file (s_ "fonts/Go.TTF")) by (intro X; apply is_file_spec in X; discriminate X).
  split; [exact A|]. split; [intro X; apply is_file_spec in X; discriminate X|]. intros L fi N.
  destruct (C108_none L (s_ "fonts/Go.TTF") fi) as (m & E & [(Z & _)|[(_ & _ & ->)|(file & (_ & F) & _)]]).
  - intros f (file & (_ & [(X & _)|(_ & X & _)]) & _); [contradiction|congruence].
  - discriminate.
  - exact E.
  - destruct F as [(X & _)|(_ & X & _)]; [contradiction|congruence].
Qed.
Print Assumptions C108_file_refuted.

Lemma world_load L asserts bidi W name f f' : w_font_load (with_library L asserts bidi W) name f = Ret f' <-> exists n, font_named L name n /\ f' = n :: f.
Proof.
  cbn [w_font_load with_library]. split.
  - intro H. destruct (font_load_best L name (mk_font_info f [])) as [fi| | | |] eqn:E; cbn [erase bind] in H; try discriminate.
    injection H as <-. apply C108_best in E. destruct E as (n & N & F & _). eauto.
  - intros (n & N & ->). destruct (C108_best L name (mk_font_info f []) (mk_font_info (n :: f) [])) as [_ G]. rewrite G; [reflexivity|]. exists n. now split.
Qed.
Lemma loaded_all L asserts bidi W : forall names f f', loaded (with_library L asserts bidi W) names f f' -> exists fs, Forall2 (font_named L) names fs /\ f' = rev fs ++ f.
Proof.
  intros names f f' H. induction H as [|n l f f1 f2 E H IH].
  - exists []. split; [constructor|reflexivity].
  - apply world_load in E. destruct E as (x & N & ->). destruct IH as (fs & F & ->). exists (x :: fs). split; [now constructor|]. cbn [rev]. now rewrite <- app_assoc.
Qed.

(** C108. In a program that was drawn, every text had the fonts of the program's (font ...) entries
    before those of the command line, and these before those of the system. *)
Theorem C108_program : forall (L : library) (asserts bidi : bool) (W : world) (options : list str) (e : list expr) (E E' : env) (out : list draw_command),
  let W' := with_library L asserts bidi W in
  layer_create W' (let* fi := erase (font_load_defaults L (mk_font_info [] [])) in Ret (fi_fonts fi)) options = Ret E ->
  eval_exprs W' E e = Ret (E', out) ->
  exists names asked system, fonts_of e names /\ Forall2 (font_named L) (options ++ names) asked /\ system_fonts L system /\
    e_font E' = rev asked ++ system.
Proof.
  intros L asserts bidi W options e E E' out W' C H.
  apply C99_new_page in C. destruct C as (_ & _ & _ & _ & _ & _ & _ & _ & f & D & Lo). apply C99_fonts in H. destruct H as (names & FO & Ln).
  apply loaded_all in Lo. destruct Lo as (fo & F1 & E1). apply loaded_all in Ln. destruct Ln as (fn & F2 & E2).
  unfold font_load_defaults in D. cbn [fi_fonts] in D. destruct (load_all L (named (fc_sorted L)) []) as [ds| | | |] eqn:A; cbn [rbind erase bind fi_fonts] in D; try discriminate.
  injection D as <-. apply load_all_spec in A. destruct A as (system & S & A). cbn [app] in A. subst ds.
  exists names, (fo ++ fn), system. split; [exact FO|]. split; [now apply Forall2_app|]. split.
  - exists (named (fc_sorted L)). split; [now apply named_spec|exact S].
  - rewrite E2, E1, rev_app_distr. now rewrite <- app_assoc.
Qed.
Print Assumptions C108_program.

(* ---------------- texts ---------------- *)
Local Open Scope R_scope.
Lemma sized_at size dpi s q : dpi <> 0 -> asked_size (size / dpi * 72) dpi s q ->
  char_size exact (unit_to_pt exact (Fin size) (Fin dpi)) (Fin dpi) = Ret (s, q).
Proof.
  intros Z (-> & -> & B1 & B2). unfold char_size, unit_to_pt. rewrite xdiv_fin by exact Z. cbn [xmul]. unfold exact at 1 2 3.
  unfold to_long, to_uint. destruct (Z.leb_spec (- 2 ^ 63) (Ztrunc (size / dpi * 72 * 64))); [|lia]. destruct (Z.ltb_spec (Ztrunc (size / dpi * 72 * 64)) (2 ^ 63)); [|lia]. cbn [andb bind].
  destruct (Z.leb_spec 0 (Ztrunc dpi)); [|lia]. destruct (Z.ltb_spec (Ztrunc dpi) (2 ^ 32)); [|lia]. reflexivity.
Qed.
Definition key (p : placed) : nat * N := (p_font p, p_code p).
Definition gkey (g : glyph) : nat * N := (g_font g, g_code g).
Lemma span_keys d rest : forall l len top bottom, map key (fst (place_span d rest l len top bottom)) = map gkey l.
Proof.
  induction l as [|g l IH]; intros; cbn [place_span map fst]; [reflexivity|].
  specialize (IH (xadd d len (g_advance g)) (xmax (g_asc g) top) (xmin (g_desc g) bottom)). destruct (place_span _ _ _ _ _ _) as [q r]. cbn [fst map] in *. now rewrite IH.
Qed.
Lemma line_keys d shape fonts base : forall line len top bottom ps r, place_line d shape fonts base line len top bottom = Ret (ps, r) ->
  exists gls, Forall2 (fun s g => fallback shape fonts s [] = Ret g) line gls /\ map key ps = map gkey (concat gls).
Proof.
  induction line as [|s line IH]; intros len top bottom ps r H; cbn [place_line] in H.
  - injection H as <- _. exists []. split; [constructor|reflexivity].
  - destruct (fallback shape fonts s []) as [g| | | |] eqn:F; cbn [bind] in H; try discriminate.
    pose proof (span_keys d (sp_rest s) g (Fin 0) top bottom) as K. destruct (place_span d (sp_rest s) g (Fin 0) top bottom) as [q [[sl t] b]]. cbn [fst] in K.
    destruct (place_line d shape fonts base line (xadd d len sl) t b) as [[q2 r2]| | | |] eqn:P; cbn [bind] in H; try discriminate. injection H as <- _.
    apply IH in P. destruct P as (gls & F2 & K2). exists (g :: gls). split; [now constructor|]. cbn [concat]. rewrite !map_app, K2. f_equal. rewrite <- K.
    rewrite map_map. apply map_ext. intro p. destruct base; reflexivity.
Qed.
Lemma shapes_of d gp tr off : forall l ps, glyph_shapes d gp tr off l = Ret ps ->
  Forall2 (fun k p => exists q m, gp (fst k) (snd k) = Ret q /\ p = path_transform d q m) (map key l) ps.
Proof.
  induction l as [|g l IH]; intros ps H; cbn [glyph_shapes] in H.
  - injection H as <-. constructor.
  - destruct (gp (p_font g) (p_code g)) as [p| | | |] eqn:G; cbn [bind] in H; try discriminate.
    destruct (glyph_shapes d gp tr off l) as [q| | | |] eqn:S; cbn [bind] in H; try discriminate. injection H as <-. cbn [map]. constructor; [|now apply IH].
    exists p, (glyph_transform d tr off g). split; [exact G|reflexivity].
Qed.
Lemma shaped_run L size dpi s q f run : char_size exact size dpi = Ret (s, q) -> ft_sizes L f s q = true ->
  text_shape_run L exact size dpi f run = Ret (map (fun g => mk_glyph f (fst g) (of_64ths exact (snd g)) (of_64ths exact (fst (ft_metrics L f s q)))
                         (of_64ths exact (snd (ft_metrics L f s q)))) (hb_glyphs L f s q run)).
Proof. intros C S. unfold text_shape_run. rewrite C. cbn [bind]. unfold sized. rewrite S. reflexivity. Qed.
Lemma picked L size dpi s q before f after run :
  char_size exact size dpi = Ret (s, q) -> (forall f', In f' before -> lacks L s q f' run) -> has_all L s q f run ->
  fallback (text_shape_run L exact size dpi) (before ++ f :: after) run [] =
    Ret (map (fun g => mk_glyph f (fst g) (of_64ths exact (snd g)) (of_64ths exact (fst (ft_metrics L f s q))) (of_64ths exact (snd (ft_metrics L f s q)))) (hb_glyphs L f s q run)).
Proof.
  intros C B (S & H). apply C68_font; [now destruct before|]. exists before, f, after. split; [reflexivity|]. split; [exact (shaped_run L size dpi s q f run C S)|]. split.
  - intros f' I. destruct (B f' I) as (S' & g & G & Z). eexists. split; [exact (shaped_run L size dpi s q f' run C S')|]. eexists. split; [apply in_map_iff; exists g; split; [reflexivity|exact G]|]. exact Z.
  - right. intros x X. apply in_map_iff in X as (g & <- & G). cbn [g_code]. now apply H.
Qed.
Lemma path_of L asserts size dpi s q f code p : char_size exact size dpi = Ret (s, q) -> font_get_glyph_path L exact asserts size dpi f code = Ret p ->
  exists o, ft_outline L f s q code = Some o /\ glyph_outline_path exact asserts o = Ret p.
Proof.
  intros C H. unfold font_get_glyph_path in H. rewrite C in H. cbn [bind] in H. unfold sized in H. destruct (ft_sizes L f s q); cbn [bind] in H; [|discriminate].
  destruct (ft_outline L f s q code) as [o|]; [eauto|discriminate].
Qed.

(** C108. A text (without bidirectional reordering) is drawn with the glyphs of the first font that
    has all of them, one shape for each glyph, in their order. *)
Theorem C108_text : forall (L : library) (asserts : bool) (before : list nat) (f : nat) (after : list nat) (size dpi rotate : R) (s q : Z)
    (text : str) (pos : vec2) (ax : halign) (ay : valign) (shapes : list path),
  dpi <> 0 -> asked_size (size / dpi * 72) dpi s q ->
  let run := mk_span (decode L text) LTR 0 in
  (forall f', In f' before -> lacks L s q f' run) -> has_all L s q f run ->
  text_shapes L exact asserts false (before ++ f :: after) (Fin size) (Fin dpi) text pos ax ay (Fin rotate) = Ret shapes ->
  Forall2 (fun g shape => glyph_shape L exact asserts s q f (fst g) shape) (hb_glyphs L f s q run) shapes.
Proof.
  intros L asserts before f after size dpi rotate s q text pos ax ay shapes Z A run B H T. pose proof (sized_at _ _ _ _ Z A) as C.
  unfold text_shapes, draw_text_op in T. change (reorder (fribidi_levels L) false [mk_span (decode L text) LTR 0] LTR) with (Ret [run]) in T. cbn [bind] in T.
  unfold layout_line in T. destruct (place_line _ _ _ _ _ _ _ _) as [[ps [[len top] bottom]]| | | |] eqn:P; cbn [bind] in T; try discriminate.
  apply line_keys in P. destruct P as (gls & F & K). inversion F as [|? g ? gls' F1 F2]; subst. inversion F2; subst. cbn [concat] in K. rewrite app_nil_r in K.
  rewrite (picked _ _ _ _ _ _ _ _ _ C B H) in F1. injection F1 as <-. apply shapes_of in T. rewrite K, map_map in T. clear K F F2. unfold gkey in T. cbn [g_font g_code] in T.
  revert T. generalize (hb_glyphs L f s q run). intro l. revert shapes. induction l as [|g l IH]; intros shapes T; cbn [map] in T.
  - inversion T. constructor.
  - inversion T as [|? p ? ps' (o & m & G & ->) T']; subst. constructor; [|now apply IH]. cbn [fst snd] in G. apply (path_of _ _ _ _ _ _ _ _ _ C) in G.
    destruct G as (ol & O & G). exists ol, o, m. now split.
Qed.
Print Assumptions C108_text.

(** C108. With bidirectional reordering the runs are shaped one by one; if the preferred font has
    all the glyphs, every shape is one of its glyphs. *)
Theorem C108_preferred : forall (L : library) (asserts bidi : bool) (f : nat) (after : list nat) (size dpi rotate : R) (s q : Z)
    (text : str) (pos : vec2) (ax : halign) (ay : valign) (shapes : list path),
  dpi <> 0 -> asked_size (size / dpi * 72) dpi s q -> (forall run, has_all L s q f run) ->
  text_shapes L exact asserts bidi (f :: after) (Fin size) (Fin dpi) text pos ax ay (Fin rotate) = Ret shapes ->
  Forall (fun shape => exists code, code <> 0%N /\ glyph_shape L exact asserts s q f code shape) shapes.
Proof.
  intros L asserts bidi f after size dpi rotate s q text pos ax ay shapes Z A H T. pose proof (sized_at _ _ _ _ Z A) as C.
  unfold text_shapes, draw_text_op in T. destruct (reorder _ _ _ _) as [line| | | |]; cbn [bind] in T; try discriminate.
  unfold layout_line in T. destruct (place_line _ _ _ _ _ _ _ _) as [[ps [[len top] bottom]]| | | |] eqn:P; cbn [bind] in T; try discriminate.
  apply line_keys in P. destruct P as (gls & F & K). apply shapes_of in T. rewrite K in T. clear K.
  assert (X : forall k, In k (map gkey (concat gls)) -> fst k = f /\ snd k <> 0%N).
  { intros k I. apply in_map_iff in I as (g & <- & I). apply in_concat in I as (gl & I & J). clear T.
    induction F as [|run g0 line gls F1 F2 IH]; [destruct I|]. destruct I as [->|I]; [|now apply IH]. pose proof (picked L _ _ s q [] f after run C (fun x y => match y with end) (H run)) as PK. cbn [app] in PK. rewrite PK in F1.
    injection F1 as <-. apply in_map_iff in J as (y & <- & Y). cbn [gkey fst snd g_font g_code]. split; [reflexivity|]. now apply (proj2 (H run)). }
  revert X T. generalize (map gkey (concat gls)). intro l. revert shapes. induction l as [|k l IH]; intros shapes X T.
  - inversion T. constructor.
  - inversion T as [|? p ? ps' (o & m & G & ->) T']; subst. constructor; [|apply IH; [intros k' I; apply X; now right|exact T']].
    destruct (X k (or_introl eq_refl)) as (E & N). exists (snd k). split; [exact N|]. rewrite E in G. apply (path_of _ _ _ _ _ _ _ _ _ C) in G.
    destruct G as (ol & O & G). exists ol, o, m. now split.
Qed.
Print Assumptions C108_preferred.

(** C108. The size of a text, for which labels and titles get their space: as wide as its glyphs,
    and as high as the font is above and below the line. *)
Theorem C108_measure : forall (L : library) (before : list nat) (f : nat) (after : list nat) (size dpi : R) (s q : Z) (text : str),
  dpi <> 0 -> asked_size (size / dpi * 72) dpi s q ->
  let run := mk_span (decode L text) LTR 0 in
  (forall f', In f' before -> lacks L s q f' run) -> has_all L s q f run -> hb_glyphs L f s q run <> [] ->
  let top := Rmax 0 (IZR (fst (ft_metrics L f s q)) / 64) in let bottom := Rmin 0 (IZR (snd (ft_metrics L f s q)) / 64) in
  text_measure_label L exact (before ++ f :: after) (Fin size) (Fin dpi) text =
    Ret (mk_rect (Fin 0) (Fin bottom) (Fin (fold_right (fun g w => IZR (snd g) / 64 + w) 0 (hb_glyphs L f s q run))) (Fin (top - bottom))).
Proof.
  intros L before f after size dpi s q text Z A run B H NE top bottom. pose proof (sized_at _ _ _ _ Z A) as C. unfold text_measure_label. fold run.
  set (up := IZR (fst (ft_metrics L f s q)) / 64) in *. set (down := IZR (snd (ft_metrics L f s q)) / 64) in *.
  assert (E64 : forall z, of_64ths exact z = Fin (IZR z / 64)) by (intro z; unfold of_64ths; rewrite xdiv_fin by lra; reflexivity).
  set (gl := map (fun g => mk_rglyph f (fst g) (IZR (snd g) / 64) up down) (hb_glyphs L f s q run)).
  destruct (C68_layout (text_shape_run L exact (unit_to_pt exact (Fin size) (Fin dpi)) (Fin dpi)) (before ++ f :: after) LTR [run] [gl]) as (qs & t & b & E & T & Bo & _).
  { constructor; [|constructor]. rewrite (picked _ _ _ _ _ _ _ _ _ C B H). unfold gl. rewrite map_map. f_equal. apply map_ext. intro g. rewrite !E64. reflexivity. }
  rewrite E. cbn [bind]. cbn [concat] in *. rewrite app_nil_r in *.
  assert (W : width gl = fold_right (fun g w => IZR (snd g) / 64 + w) 0 (hb_glyphs L f s q run)).
  { unfold gl, width. clear. induction (hb_glyphs L f s q run) as [|g l IH]; cbn [map fold_right rg_width]; [reflexivity|]. now rewrite IH. }
  rewrite W. assert (Mt : forall x, In x (0 :: map rg_above gl) <-> x = 0 \/ x = up).
  { intro x. unfold gl. rewrite map_map. cbn [rg_above]. split.
    - intros [->|I]; [now left|]. apply in_map_iff in I as (? & <- & _). now right.
    - intros [->| ->]; [now left|]. right. destruct (hb_glyphs L f s q run) as [|g r]; [congruence|]. now left. }
  assert (Mb : forall x, In x (0 :: map rg_below gl) <-> x = 0 \/ x = down).
  { intro x. unfold gl. rewrite map_map. cbn [rg_below]. split.
    - intros [->|I]; [now left|]. apply in_map_iff in I as (? & <- & _). now right.
    - intros [->| ->]; [now left|]. right. destruct (hb_glyphs L f s q run) as [|g r]; [congruence|]. now left. }
  destruct T as (T1 & T2). destruct Bo as (B1 & B2). apply Mt in T1. apply Mb in B1.
  assert (t = top) as ->.
  { pose proof (T2 0 (proj2 (Mt 0) (or_introl eq_refl))). pose proof (T2 up (proj2 (Mt up) (or_intror eq_refl))). unfold top, Rmax. destruct (Rle_dec 0 up); destruct T1; lra. }
  assert (b = bottom) as ->.
  { pose proof (B2 0 (proj2 (Mb 0) (or_introl eq_refl))). pose proof (B2 down (proj2 (Mb down) (or_intror eq_refl))). unfold bottom, Rmin. destruct (Rle_dec 0 down); destruct B1; lra. }
  reflexivity.
Qed.
Print Assumptions C108_measure.

(** C108, refuted: a text has the size that was asked for. Sizes are cut to 64ths of a point and the
    resolution to whole dots per inch: two resolutions, one of them a dot less, give the same glyphs. *)
Theorem C108_size_refuted : forall (L : library) (asserts : bool) (f : nat) (code : N),
  font_get_glyph_path L exact asserts (Fin 11) (Fin 96) f code = font_get_glyph_path L exact asserts (Fin (11 + / 100)) (Fin (96 + 99 / 100)) f code.
Proof.
  intros. unfold font_get_glyph_path. replace (char_size exact (Fin (11 + / 100)) (Fin (96 + 99 / 100))) with (char_size exact (Fin 11) (Fin 96)); [reflexivity|].
  assert (T : forall z r, IZR z <= r < IZR z + 1 -> (0 <= z)%Z -> Ztrunc r = z).
  { intros z r H P. rewrite Ztrunc_floor by (apply (IZR_le 0 z) in P; lra). apply Zfloor_imp. rewrite plus_IZR. exact H. }
  unfold char_size, to_long, to_uint. cbn [xmul]. unfold exact at 1 2 3 4 5 6.
  rewrite (T 704%Z (11 * 64)) by (lra || lia). rewrite (T 704%Z ((11 + / 100) * 64)) by (lra || lia). rewrite (T 96%Z 96) by (lra || lia). rewrite (T 96%Z (96 + 99 / 100)) by (lra || lia). reflexivity.
Qed.
Print Assumptions C108_size_refuted.

(* ---------------- a case ---------------- *)
(** Two fonts of the system (a third has no file), and one in a file; the first font has no "b". *)
Definition square : outline := mk_outline [(0, 0); (64, 0); (64, 64)]%Z [1; 1; 1]%N [2]%Z.
Definition two_fonts : library :=
  mk_library (fun n => if str_eqb n (s_ "Go") then Some (s_ "/fonts/go.otf") else None)
    [Some (s_ "/fonts/a.ttf"); None; Some (s_ "/fonts/b.ttf")]
    (fun n => if str_eqb n (s_ "/fonts/a.ttf") then Some 1%nat else if str_eqb n (s_ "/fonts/b.ttf") then Some 2%nat
              else if str_eqb n (s_ "/fonts/go.otf") then Some 3%nat else None)
    (fun _ _ _ => true)
    (fun f _ _ run => map (fun c => (if (f =? 1)%nat && (c =? 98)%Z then 0%N else Z.to_N c, 640%Z)) (sp_text run))
    (fun _ _ _ => (512, -128)%Z) (fun _ _ _ _ => Some square) (fun _ l => Some (map (fun _ => 0%nat) l))
    (map (fun c => Z.of_N (N_of_ascii c))).
Example C108_case_page : exists fi, layer_fonts two_fonts true [s_ "Go"; s_ "/fonts/b.ttf"] = Good fi /\ fi_fonts fi = [2; 3; 1; 2]%nat.
Proof. eexists. split; reflexivity. Qed.
Example C108_case_text : exists shapes,
  asked_size (11 / 72 * 72) 72 704 72 /\
  (forall f', In f' [1%nat] -> lacks two_fonts 704 72 f' (mk_span (decode two_fonts (s_ "ab")) LTR 0)) /\
  has_all two_fonts 704 72 2 (mk_span (decode two_fonts (s_ "ab")) LTR 0) /\
  text_shapes two_fonts exact true false [1; 2]%nat (Fin 11) (Fin 72) (s_ "ab") (mk_vec2 (Fin 5) (Fin 6)) HLeft VTop (Fin 0) = Ret shapes /\ length shapes = 2%nat.
Proof.
  assert (S : asked_size (11 / 72 * 72) 72 704 72).
  { unfold asked_size. replace (11 / 72 * 72 * 64) with (IZR 704) by lra. rewrite !Ztrunc_IZR. repeat split; lia. }
  assert (B : forall f', In f' [1%nat] -> lacks two_fonts 704 72 f' (mk_span (decode two_fonts (s_ "ab")) LTR 0)).
  { intros f' [<-|[]]. split; [reflexivity|]. exists (0%N, 640%Z). split; [right; left; reflexivity|reflexivity]. }
  assert (H : has_all two_fonts 704 72 2 (mk_span (decode two_fonts (s_ "ab")) LTR 0)).
  { split; [reflexivity|]. intros g [<-|[<-|[]]]; discriminate. }
  assert (N : (72:R) <> 0) by lra. pose proof (sized_at _ _ _ _ N S) as C.
  assert (G : forall c, exists p, font_get_glyph_path two_fonts exact true (unit_to_pt exact (Fin 11) (Fin 72)) (Fin 72) 2 c = Ret p).
  { intro c. unfold font_get_glyph_path. rewrite C. cbn [bind]. eexists. reflexivity. }
  assert (T : exists shapes, text_shapes two_fonts exact true false [1; 2]%nat (Fin 11) (Fin 72) (s_ "ab") (mk_vec2 (Fin 5) (Fin 6)) HLeft VTop (Fin 0) = Ret shapes).
  { unfold text_shapes, draw_text_op. change (reorder (fribidi_levels two_fonts) false [mk_span (decode two_fonts (s_ "ab")) LTR 0] LTR) with (Ret [mk_span (decode two_fonts (s_ "ab")) LTR 0]).
    cbn [bind]. unfold layout_line. cbn [place_line]. change [1%nat; 2%nat] with ([1%nat] ++ 2%nat :: []). rewrite (picked _ _ _ _ _ _ _ _ _ C B H). cbn [bind].
    change (hb_glyphs two_fonts 2 704 72 (mk_span (decode two_fonts (s_ "ab")) LTR 0)) with [(97%N, 640%Z); (98%N, 640%Z)]. cbn [map place_span bind app glyph_shapes shift p_font p_code g_font g_code fst snd].
    destruct (G 97%N) as (p1 & ->). destruct (G 98%N) as (p2 & ->). cbn [bind]. eauto. }
  destruct T as (shapes & T). exists shapes. split; [exact S|]. split; [exact B|]. split; [exact H|]. split; [exact T|].
  pose proof (C108_text two_fonts true [1%nat] 2 [] 11 72 0 704 72 (s_ "ab") (mk_vec2 (Fin 5) (Fin 6)) HLeft VTop shapes N S B H T) as F. clear - F. inversion F as [|? ? ? ? _ F1]; subst. inversion F1 as [|? ? ? ? _ F2]; subst. inversion F2; subst. reflexivity.
Qed.
