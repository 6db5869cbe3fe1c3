(** What a drawing program (class draw) means. *)
From Coq Require Import Reals.
From Verif Require Import Base Num Sexpr_Model Dispatch_Model Scale_Model Units_Model Color_Model Geo_Model Svg_Model Cmd_Model Cmd_Spec Style_Model Style_Spec Eval_Spec Source_Spec.
Local Open Scope R_scope.

Section Spec.
  Variable W : world.
  Variable E : env.
  (** A number followed by a unit that [conv] converts, or zero. *)
  Definition coordinate (conv : unit_t -> option (xr -> xr)) (x : expr) (v : xr) : Prop :=
    exists t q n, is_text x t /\ w_stod W t = Some (q, n) /\
      ((n = length t /\ xeq q (Fin 0) = true /\ v = Fin 0) \/
       (n <> length t /\ exists u f, unit_parse (skipn n t) = Some u /\ conv u = Some f /\ v = f q)).
  Definition pair_means (cx cy : unit_t -> option (xr -> xr)) (b : list expr) (p : vec2) : Prop :=
    exists x y, b = [x; y] /\ coordinate cx x (vx p) /\ coordinate cy y (vy p).
  (** A position: percentages are those of the page's width and height. A size: two lengths. *)
  Definition position_means := pair_means (uconv_width (w_d W) (e_layer E)) (uconv_height (w_d W) (e_layer E)).
  Definition size_means := pair_means (uconv_size (w_d W) (e_layer E)) (uconv_size (w_d W) (e_layer E)).
  Definition page_center : vec2 :=
    mk_vec2 (xmul (w_d W) (page_width W E) (Fin (1 / 2))) (xmul (w_d W) (page_height W E) (Fin (1 / 2))).
  Definition whole_page : vec2 := mk_vec2 (page_width W E) (page_height W E).

  Definition allowed {T} (P : list expr -> T -> Prop) (b : list expr) : Prop := exists v, P b v.
  Definition style_parameters : list (string * (list expr -> Prop)) :=
    map (fun k => (k, allowed (style_adds W E (s_ k)))) ["color"; "fill"; "stroke"]%string.
  (** The style of an element: all that its options color, fill and stroke add, in order; the
      style of the page if there are none. *)
  Inductive style_of (a : list expr) : compound -> Prop :=
  | so_given parts s : Forall2 (fun ka p => style_adds W E (fst ka) (snd ka) p) (style_args a) parts ->
      s = fold_left style_with parts no_style -> style_args a <> [] -> style_of a s
  | so_default : style_args a = [] -> style_of a (e_default E).

  (** The outline of a rectangle around its centre. *)
  Definition rectangle_around (c s : vec2) : path :=
    let x f := f (w_d W) (vx c) (xdiv (w_d W) (vx s) (Fin 2)) in
    let y f := f (w_d W) (vy c) (xdiv (w_d W) (vy s) (Fin 2)) in
    [MoveTo (mk_vec2 (x xadd) (y xadd)); LineTo (mk_vec2 (x xadd) (y xsub)); LineTo (mk_vec2 (x xsub) (y xsub));
     LineTo (mk_vec2 (x xsub) (y xadd)); Close].
  Definition painted (p : path) (s : compound) : draw_command := mk_cmd p s stroke0 fill0 None.

  Definition rectangle_parameters : list (string * (list expr -> Prop)) :=
    [("position"%string, allowed position_means); ("size"%string, allowed size_means)] ++ style_parameters.
  Definition rectangle_means (a : list expr) (out : list draw_command) : Prop :=
    parameters rectangle_parameters a /\
    exists p s st, last_or "position" a position_means page_center p /\ last_or "size" a size_means whole_page s /\
      style_of a st /\ out = [painted (rectangle_around p s) st].

  (** Text: its glyphs, with the middle of the text at the position. *)
  Definition text_parameters : list (string * (list expr -> Prop)) :=
    [("position"%string, allowed position_means); ("text"%string, allowed (fun b t => exists x r, b = x :: r /\ is_text x t));
     ("font"%string, fun b => exists x r t, b = x :: r /\ is_text x t);
     ("font-size"%string, can (rd_font_size W E))] ++ style_parameters.
  Definition text_means (a : list expr) (out : list draw_command) : Prop :=
    parameters text_parameters a /\
    exists p t f fs st glyphs, last_or "position" a position_means page_center p /\
      last_or "text" a (fun b t => exists x r, b = x :: r /\ is_text x t) [] t /\
      options (one_of ["font"%string] (rd_font W)) a (e_font E) = Ret f /\
      last_or "font-size" a (fun b v => rd_font_size W E b = Ret v) (page_font_size W E) fs /\
      style_of a st /\
      w_text W f fs (l_dpi (e_layer E)) t p HCenter VCenter (Fin 0) = Ret glyphs /\
      out = map (fun g => painted g st) glyphs.

  Inductive element_means (x : expr) : list draw_command -> Prop :=
  | em_rectangle a out : option_of x = Some (s_ "rectangle", a) -> rectangle_means a out -> element_means x out
  | em_text a out : option_of x = Some (s_ "text", a) -> text_means a out -> element_means x out.
End Spec.
