(** C99: a new page, the document made from it, its fonts, and the background of a plot. *)
From Coq Require Import Reals Lra.
From Flocq Require Import Core.
From Verif Require Import Base Num Num_Facts Sexpr_Model Dispatch_Model Str_Model Data_Model Scale_Model Units_Model Color_Model Color_Proofs Geo_Model Svg_Model Svg_Props
  Cmd_Model Cmd_Spec Cmd_Proofs Style_Model Plot_Model Plot_Spec Axis_Model Eval_Model Eval_Spec Eval_Proofs Eval_Props Eval_Examples Dec Range_Spec Range_Props Value_Props Demo Format_Proofs.
Local Open Scope R_scope.

(* ---------------- specification ---------------- *)
Definition opaque_white : color := mk_color (Fin 1) (Fin 1) (Fin 1) (Fin 1).
Definition opaque_black : color := mk_color (Fin 0) (Fin 0) (Fin 0) (Fin 1).
(** Loading one font after the other. *)
Inductive loaded (W : world) : list str -> font -> font -> Prop :=
| ld_nil f : loaded W [] f f
| ld_cons n l f f1 f2 : w_font_load W n f = Ret f1 -> loaded W l f1 f2 -> loaded W (n :: l) f f2.
(** The words of the entries (font name) of a program; each has exactly one argument, a word. *)
Inductive fonts_of : list expr -> list str -> Prop :=
| fo_nil : fonts_of [] []
| fo_font x e w n l : option_of x = Some (s_ "font", [w]) -> (w = EVal n \/ w = ELit n) -> fonts_of e l -> fonts_of (x :: e) (n :: l)
| fo_other x k a e l : option_of x = Some (k, a) -> k <> s_ "font" -> fonts_of e l -> fonts_of (x :: e) l.
(** The text of a document of [w] by [h] pixels up to its first shape: all of it is white. *)
Definition white_document (version w h : str) : str :=
  s_ "<?xml version=""1.0"" encoding=""UTF-8"" ?>" ++ [c_nl] ++ s_ "<!-- Generated by clip v" ++ version ++ s_ " (clip-lang.org) -->" ++ [c_nl] ++
  s_ "<svg xmlns=""http://www.w3.org/2000/svg"" width=""" ++ w ++ s_ """ height=""" ++ h ++ s_ """>" ++ [c_nl] ++
  s_ "  <rect width=""" ++ w ++ s_ """ height=""" ++ h ++ s_ """ fill=""#ffffff"" fill-opacity=""1""/>" ++ [c_nl].

(* ---------------- a new page ---------------- *)
(** C99. A new page is 1600 by 800 pixels at 192 dots per inch, white, with black lines and
    texts of 11pt, and has the default fonts and then the given ones. *)
Theorem C99_new_page : forall (W : world) (defaults : outcome font) (fonts : list str) (E : env),
  layer_create W defaults fonts = Ret E ->
  l_width (e_layer E) = mk_measure PX (Fin 1600) /\ l_height (e_layer E) = mk_measure PX (Fin 800) /\
  l_dpi (e_layer E) = Fin 192 /\ l_font_size (e_layer E) = mk_measure PT (Fin 11) /\
  e_bg E = opaque_white /\ e_fg E = opaque_black /\ e_text_color E = opaque_black /\
  e_default E = mk_compound [opaque_black] [] [] [] /\
  exists f, defaults = Ret f /\ loaded W fonts f (e_font E).
Proof.
  intros W defaults fonts E H. unfold layer_create in H. inv_bind H. inv_bind H. inv_bind H.
  match type of H with Ret ?x = Ret _ => assert (E = x) by congruence; subst E end. repeat (split; [reflexivity|]).
  exists v0. split; [assumption|]. cbn [e_font]. clear A A0 H. revert v0 v1 A1. induction fonts as [|n l IH]; intros f f' L.
  - injection L as <-. constructor.
  - inv_bind L. econstructor; [eassumption|]. eapply IH; eassumption.
Qed.
Print Assumptions C99_new_page.

Lemma white_hex d : d = rnd64 \/ d = exact -> to_hex_str d 3 opaque_white = Ret (s_ "#ffffff").
Proof.
  intro D. unfold to_hex_str. cbn [Nat.ltb Nat.leb firstn]. unfold opaque_white. cbn [c_r c_g c_b c_a firstn hex_channels].
  assert (T : to_int (xmul d (Fin 1) (Fin 255)) = Ret 255%Z).
  { cbn [xmul]. replace (d (1 * 255)) with (IZR 255).
    - unfold to_int. rewrite Ztrunc_IZR. reflexivity.
    - destruct D as [-> | ->]; [|unfold exact; lra]. replace (1 * 255) with 255 by lra. symmetry. apply rnd64_id. apply (is64_IZR 255). reflexivity. }
  rewrite T. reflexivity.
Qed.

Lemma plain z : flat_map escape_quote (dec_int z) = dec_int z.
Proof.
  pose proof (dec_int_chars z) as F. induction F as [|c l D F IH]; [reflexivity|]. cbn [flat_map]. rewrite IH. unfold escape_quote.
  destruct (Ascii.eqb_spec c c_dq) as [->|]; [exfalso; destruct D as [D|D]; [|discriminate]; unfold is_digit, c_dq in D; revert D; vm_compute; intuition (discriminate || lia)|reflexivity].
Qed.

(** C99. The document of a program on a new page, with a page of whole numbers of pixels, begins
    with a white rectangle of the size of the page. *)
Theorem C99_document : forall (W : world) (defaults : outcome font) (fonts : list str) (version : str) (e : list expr) (E E' : env) (out : list draw_command) (t : str) (w h : Z),
  w_d W = rnd64 \/ w_d W = exact ->
  layer_create W defaults fonts = Ret E -> eval_exprs W E e = Ret (E', out) ->
  page_width W E' = Fin (IZR w) -> page_height W E' = Fin (IZR h) -> (0 <= w < 2 ^ 31)%Z -> (0 <= h < 2 ^ 31)%Z ->
  svg_of W version E' out = Ret t ->
  exists shapes, t = white_document version (dec_int w) (dec_int h) ++ shapes ++ s_ "</svg>" ++ [c_nl].
Proof.
  intros W defaults fonts version e E E' out t w h D L H Pw Ph Bw Bh S.
  destruct (C99_new_page W defaults fonts E L) as (_ & _ & _ & _ & Bg & _).
  destruct (C84_page W E E' e out H) as [(_ & _ & _ & _ & B & _) _].
  unfold svg_of, export_svg in S. rewrite Pw, Ph, B, Bg in S. inv_bind S. exists v. unfold svg_attr_num in S.
  assert (N : forall z, (0 <= z < 2 ^ 31)%Z -> svg_number (Fin (IZR z)) = Ret (dec_int z)) by (intros z Q; apply number_whole; lia).
  rewrite (N w Bw), (N h Bh) in S. cbn [bind] in S. rewrite (white_hex _ D) in S. cbn [bind] in S.
  change (c_a opaque_white) with (Fin (IZR 1)) in S. rewrite (N 1%Z ltac:(lia)) in S. cbn [bind] in S.
  match type of S with Ret ?x = Ret _ => assert (t = x) by congruence; subst t end.
  unfold white_document, svg_attr. rewrite <- !app_assoc. unfold s_. cbn [list_ascii_of_string app]. rewrite <- ?app_assoc. cbn [app].
  rewrite !plain by assumption. unfold c_dq. cbn [flat_map escape_quote Ascii.eqb Bool.eqb app]. reflexivity.
Qed.
Print Assumptions C99_document.

(** C99. Without a size the document has 1600 by 800 pixels. *)
Theorem C99_default_document : forall (W : world) (defaults : outcome font) (fonts : list str) (version : str) (e : list expr) (E E' : env) (out : list draw_command) (t : str),
  w_d W = rnd64 \/ w_d W = exact ->
  layer_create W defaults fonts = Ret E -> eval_exprs W E e = Ret (E', out) -> last_args (s_ "size") e = None ->
  svg_of W version E' out = Ret t ->
  exists shapes, t = white_document version (s_ "1600") (s_ "800") ++ shapes ++ s_ "</svg>" ++ [c_nl].
Proof.
  intros W defaults fonts version e E E' out t D L H N S.
  destruct (C99_new_page W defaults fonts E L) as (W1 & H1 & _). destruct (C84_page W E E' e out H) as [(Z & _) _].
  unfold last_or in Z. rewrite N in Z. cbn [fst snd] in Z. injection Z as Z1 Z2. rewrite W1 in Z1. rewrite H1 in Z2.
  apply (C99_document W defaults fonts version e E E' out t 1600 800 D L H); try lia; [| |exact S].
  - unfold page_width, layer_get_width. rewrite Z1. reflexivity.
  - unfold page_height, layer_get_height. rewrite Z2. reflexivity.
Qed.
Print Assumptions C99_default_document.

(** C99. The fonts of a program: each (font name) has one argument, and they are loaded in order. *)
Theorem C99_fonts : forall (W : world) (E E' : env) (e : list expr) (out : list draw_command),
  eval_exprs W E e = Ret (E', out) -> exists names, fonts_of e names /\ loaded W names (e_font E) (e_font E').
Proof.
  intros W E E' e out H. destruct (C84_page W E E' e out H) as [(_ & _ & _ & F & _) _]. clear H. revert F. generalize (e_font E). intro f.
  revert f. induction e as [|x e IH]; intros f F.
  - exists []. split; [constructor|]. injection F as ->. constructor.
  - rewrite options_cons in F. destruct (option_of x) as [[k a]|] eqn:O; [|discriminate]. cbn [assoc] in F.
    destruct (str_eqb_spec k (s_ "font")) as [->|Q].
    + inv_bind F. destruct (IH _ F) as (names & G1 & G2). unfold set_font_cmd in A. destruct a as [|w [|? ?]]; try discriminate.
      unfold rd_font in A. destruct (value_of [w]) as [n|] eqn:Vw; [|discriminate]. exists (n :: names). split.
      * eapply fo_font; [exact O| |exact G1]. destruct w; cbn in Vw; try discriminate; injection Vw as <-; auto.
      * econstructor; eassumption.
    + destruct (IH _ F) as (names & G1 & G2). exists names. split; [|exact G2]. eapply fo_other; eassumption.
Qed.
Print Assumptions C99_fonts.

(* ---------------- the background of a plot ---------------- *)
Definition background_words : list string := ["color"; "fill"; "stroke-color"; "stroke-width"; "stroke-style"]%string.
Lemma run_pair {S F} (fns : list (str * cmd (S * F))) (ss : list (str * cmd S)) (fs : list (str * cmd F)) :
  (forall k c, assoc k fns = Some c -> forall a s f s' f', c a (s, f) = Ret (s', f') <->
     match assoc k ss with Some g => g a s = Ret s' | None => s' = s end /\ match assoc k fs with Some g => g a f = Ret f' | None => f' = f end) ->
  forall e s f s' f', run fns e (s, f) = Ret (s', f') <->
    only_words (map fst fns) e /\ options ss e s = Ret s' /\ options fs e f = Ret f'.
Proof.
  intro T. induction e as [|x e IH]; intros s f s' f'.
  - rewrite run_nil, !options_nil. split; [intro H; injection H as <- <-; repeat split; constructor|]. intros (_ & H & H'). congruence.
  - rewrite run_cons, !options_cons. destruct (option_of x) as [[k a]|] eqn:O.
    2:{ split; [discriminate|]. intros (H & _). inversion H as [|? ? (k & b & Q & _)]. congruence. }
    assert (Ow : only_words (map fst fns) (x :: e) <-> In k (map fst fns) /\ only_words (map fst fns) e).
    { unfold only_words. split; [inversion 1 as [|? ? (k' & b & Q & I) R]; subst; split; [congruence|exact R]|]. intros [I R]. constructor; [eauto|exact R]. }
    rewrite Ow. clear Ow. destruct (assoc k fns) as [c|] eqn:C.
    + assert (K : In k (map fst fns)) by (apply assoc_In in C; apply (in_map fst) in C; exact C). specialize (T k c C).
      split.
      * intro H. inv_bind H. destruct v as [s1 f1]. apply T in A as [A1 A2]. apply IH in H as (W1 & H1 & H2). split; [auto|].
        destruct (assoc k ss); [rewrite A1; cbn [bind]|subst s1]; (destruct (assoc k fs); [rewrite A2; cbn [bind]|subst f1]); auto.
      * intros ([_ W1] & H1 & H2).
        assert (exists s1, match assoc k ss with Some g => g a s = Ret s1 | None => s1 = s end /\ options ss e s1 = Ret s') as (s1 & S1 & S2).
        { destruct (assoc k ss) as [g|]; [inv_bind H1; eauto|eauto]. }
        assert (exists f1, match assoc k fs with Some g => g a f = Ret f1 | None => f1 = f end /\ options fs e f1 = Ret f') as (f1 & F1 & F2).
        { destruct (assoc k fs) as [g|]; [inv_bind H2; eauto|eauto]. }
        assert (Z : c a (s, f) = Ret (s1, f1)) by (apply T; auto). rewrite Z. cbn [bind]. apply IH. auto.
    + split; [discriminate|]. intros ([K _] & _). apply assoc_none_keys in C. tauto.
Qed.

(** C99. (background ...) is accepted if and only if all its options are known and can be read,
    and paints the whole plot area: with the colour or pattern of the last color or fill (without
    one it is not filled), and an outline of 1pt in black unless its options say otherwise. *)
Theorem C99_background : forall (W : world) (E : env) (p : plot) (e : list expr) (out : list draw_command) (x0 y0 w h : R),
  w_d W = exact -> plot_clip W E p = rect x0 y0 w h ->
  (set_background W E p e = Ret out <->
   exists st fl, only_words (words background_words) e /\
     options (stroke_options W E) e (stroke_with (pt W E 1) opaque_black) = Ret st /\ options (fill_options W E) e fill0 = Ret fl /\
     out = [shape_of (outline [vec x0 y0; vec x0 (y0 + h); vec (x0 + w) (y0 + h); vec (x0 + w) y0]) st fl None]).
Proof.
  intros W E p e out x0 y0 w h D C. unfold set_background.
  assert (B : forall s f s' f', run (background_table W E) e (s, f) = Ret (s', f') <->
    only_words (words background_words) e /\ options (stroke_options W E) e s = Ret s' /\ options (fill_options W E) e f = Ret f').
  { intros s f s' f'. etransitivity; [|apply (run_pair (background_table W E))].
    - reflexivity.
    - clear. intros k c K a s f s' f'. unfold background_table in K. cbn [assoc] in K. unfold stroke_options, fill_options. cbn [assoc].
      repeat match type of K with (if str_eqb k ?w then _ else _) = _ => destruct (str_eqb_spec k w) as [->|?] end; try discriminate;
        injection K as <-; repeat match goal with |- context [str_eqb (s_ ?x) (s_ ?y)] => let b := eval vm_compute in (str_eqb (s_ x) (s_ y)) in change (str_eqb (s_ x) (s_ y)) with b end; cbv iota; unfold call_each, upd, updf; cbn [fst snd].
      + destruct (rd_color W E a (s_color s)) eqn:R1; cbn [bind fst snd]; [|split; [discriminate|intros [Z _]; discriminate]..].
        destruct (fill_style_read_solid W E a f) eqn:R2; cbn [bind fst snd]; [|split; [discriminate|intros [_ Z]; discriminate]..].
        split; [intro Z; injection Z as <- <-; auto|]. intros [Z1 Z2]. congruence.
      + destruct (fill_style_read W E a f) eqn:R1; cbn [bind fst snd]; [|split; [discriminate|intros [_ Z]; discriminate]..].
        split; [intro Z; injection Z as <- <-; auto|]. intros [Z1 Z2]. congruence.
      + destruct (rd_color W E a (s_color s)) eqn:R1; cbn [bind fst snd]; [|split; [discriminate|intros [Z _]; discriminate]..].
        split; [intro Z; injection Z as <- <-; auto|]. intros [Z1 Z2]. congruence.
      + destruct (rd_size W E a) eqn:R1; cbn [bind fst snd]; [|split; [discriminate|intros [Z _]; discriminate]..].
        split; [intro Z; injection Z as <- <-; auto|]. intros [Z1 Z2]. congruence.
      + destruct (stroke_style_read W E a s) eqn:R1; cbn [bind fst snd]; [|split; [discriminate|intros [Z _]; discriminate]..].
        split; [intro Z; injection Z as <- <-; auto|]. intros [Z1 Z2]. congruence. }
  assert (P : forall st fl, draw_path_ (add_rectangle (w_d W) [] (plot_clip W E p)) st fl =
    [shape_of (outline [vec x0 y0; vec x0 (y0 + h); vec (x0 + w) (y0 + h); vec (x0 + w) y0]) st fl None]).
  { intros st fl. rewrite C, D. reflexivity. }
  split.
  - intro H. inv_bind H. destruct v as [st fl]. apply B in A as (A1 & A2 & A3). exists st, fl. rewrite P in H. injection H as <-. auto.
  - intros (st & fl & A1 & A2 & A3 & ->). assert (R : run (background_table W E) e (ss_with_width (pt W E 1) stroke0, fill0) = Ret (st, fl)) by (apply B; auto).
    rewrite R. cbn [bind]. now rewrite P.
Qed.
Print Assumptions C99_background.

(** The picture of a page without a size, and a background with two options. *)
Example C99_case :
  (exists E, layer_create demo2 (Ret []) [] = Ret E /\ eval_text demo2 E (s_ "nothing: a;") = Ret (E, []) /\ blank = white_document (s_ "1") (s_ "1600") (s_ "800") ++ [] ++ s_ "</svg>" ++ [c_nl]) /\
  exists c, rd_color demo demo_env [ELit (s_ "#ff0000")] black = Ret c /\
  set_background demo demo_env demo_plot [EList [ELit (s_ "color"); ELit (s_ "#ff0000")]; EList [ELit (s_ "stroke-style"); ELit (s_ "none")]] =
    Ret [shape_of (outline [vec 0 0; vec 0 (0 + 800); vec (0 + 1600) (0 + 800); vec (0 + 1600) 0]) (stroke_with (Fin 0) c) (solid c) None].
Proof.
  split; [eexists; repeat split; reflexivity|]. eexists. split; [reflexivity|].
  apply (C99_background demo demo_env demo_plot _ _ 0 0 1600 800 eq_refl demo_clip). eexists _, _.
  split; [|split; [reflexivity|split; [reflexivity|reflexivity]]].
  repeat constructor; (eexists _, _; split; [reflexivity|]; cbn; tauto).
Qed.
