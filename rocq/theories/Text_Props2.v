(** C69: the colour of texts. *)
From Coq Require Import Reals.
From Verif Require Import Base Num Units_Model Color_Model Geo_Model Svg_Model Cmd_Model Cmd_Proofs Demo.
Local Open Scope R_scope.

(** C69. Every text of a plot is painted glyph by glyph: the outlines of its glyphs in order,
    each filled once, with the colour of the text, and without any line around it. *)
Theorem C69_colour : forall (W : world) (E : env) (fnt : font) (size : xr) (col : color) (t : str) (p : vec2) (ax : halign) (ay : valign) (rotate : xr) (out : list draw_command),
  draw_text_ W E fnt size col t p ax ay rotate = Ret out <->
  exists glyphs, w_text W fnt size (l_dpi (e_layer E)) t p ax ay rotate = Ret glyphs /\
    Forall2 (fun g c => dc_path c = g /\ dc_style c = mk_compound [col] [] [] [] /\ dc_stroke c = stroke0 /\ dc_fill c = fill0 /\ dc_aa c = None) glyphs out.
Proof.
  intros W E fnt size col t p ax ay rotate out. unfold draw_text_. change (dpi E) with (l_dpi (e_layer E)).
  destruct (w_text W fnt size (l_dpi (e_layer E)) t p ax ay rotate) as [ps| | | |]; cbn [bind]; try (split; [discriminate|intros (g & Z & _); discriminate]).
  split.
  - intro H. injection H as <-. exists ps. split; [reflexivity|]. unfold text_shapes.
    induction ps as [|g ps IH]; constructor; [|exact IH]. repeat split; cbn; destruct Req_EM_T; try reflexivity; congruence.
  - intros (g & Z & F). injection Z as <-. f_equal. unfold text_shapes. induction F as [|g [cp cs cst cf ca] gs out (C1 & C2 & C3 & C4 & C5) F IH]; [reflexivity|].
    cbn [map]. rewrite IH. f_equal. cbn in C1, C2, C3, C4, C5. subst. unfold draw_shape. cbn. destruct Req_EM_T; [reflexivity|congruence].
Qed.
Print Assumptions C69_colour.
(** A text of one glyph. *)
Example C69_colour_case : draw_text_ demo demo_env [] (Fin 10) black (s_ "x") (mk_vec2 (Fin 1) (Fin 2)) HLeft VTop (Fin 0) =
  Ret [mk_cmd [MoveTo (mk_vec2 (Fin 1) (Fin 2))] (mk_compound [black] [] [] []) stroke0 fill0 None].
Proof. apply C69_colour. eexists. split; [reflexivity|]. repeat constructor. Qed.
