(** What the arguments of options mean: numbers, lengths, colours, limits, kinds of scales,
    maps from data to colours and sizes. *)
From Coq Require Import Reals.
From Verif Require Import Base Num Sexpr_Model Units_Model Units_Spec Color_Model Color_Spec Scale_Model Cmd_Model Style_Spec Source_Spec.
Local Open Scope R_scope.

(** The first argument is written as the text [t]. *)
Definition first_text (args : list expr) (t : str) : Prop := exists e rest, args = e :: rest /\ is_text e t.
(** A number, as std::stod reads the beginning of a text. *)
Definition number_at (W : world) (args : list expr) (x : xr) : Prop :=
  exists t n, first_text args t /\ w_stod W t = Some (x, n).

(** The size of the page's font in pixels, if it was given in px, pt or mm. *)
Definition page_font (E : env) (dpi font : R) : Prop :=
  l_dpi (e_layer E) = Fin dpi /\
  exists u v, l_font_size (e_layer E) = mk_measure u (Fin v) /\
    device_length dpi 0 0 (match u with PX => s_ "px" | PT => s_ "pt" | MM => s_ "mm" | _ => [] end) v = Some font.
(** A length: 0, or a number with the unit px, pt, mm, em or rem. *)
Definition length_at (W : world) (dpi font : R) (args : list expr) (r : R) : Prop :=
  exists t v n, first_text args t /\ w_stod W t = Some (Fin v, n) /\
    (n = length t /\ v = 0 /\ r = 0 \/
     exists u, skipn n t = u /\ In u [s_ "px"; s_ "pt"; s_ "mm"; s_ "em"; s_ "rem"] /\
       device_length dpi font 0 (if str_eqb u (s_ "rem") then s_ "em" else u) v = Some r).

(** A colour: #rgb, #rrggbb, #rrggbbaa, (rgb r g b), (rgba r g b a), or the number of a colour
    of the palette, taken in turn. *)
Inductive color_at (W : world) (E : env) : list expr -> color -> Prop :=
| color_short args a b c n1 n2 n3 : first_text args ["#"%char; a; b; c] -> hexd a n1 -> hexd b n2 -> hexd c n3 ->
    color_at W E args (mk_color (part n1 15) (part n2 15) (part n3 15) (Fin 1))
| color_long args a1 a2 b1 b2 c1 c2 n1 n2 n3 n4 n5 n6 : first_text args ["#"%char; a1; a2; b1; b2; c1; c2] ->
    hexd a1 n1 -> hexd a2 n2 -> hexd b1 n3 -> hexd b2 n4 -> hexd c1 n5 -> hexd c2 n6 ->
    color_at W E args (mk_color (part (16 * n1 + n2) 255) (part (16 * n3 + n4) 255) (part (16 * n5 + n6) 255) (Fin 1))
| color_alpha args a1 a2 b1 b2 c1 c2 d1 d2 n1 n2 n3 n4 n5 n6 n7 n8 : first_text args ["#"%char; a1; a2; b1; b2; c1; c2; d1; d2] ->
    hexd a1 n1 -> hexd a2 n2 -> hexd b1 n3 -> hexd b2 n4 -> hexd c1 n5 -> hexd c2 n6 -> hexd d1 n7 -> hexd d2 n8 ->
    color_at W E args (mk_color (part (16 * n1 + n2) 255) (part (16 * n3 + n4) 255) (part (16 * n5 + n6) 255) (part (16 * n7 + n8) 255))
| color_written l rest c : color_list (w_stod W) l c -> color_at W E (EList l :: rest) c
| color_numbered args t c : first_text args t -> all_digits t -> (1 <= dec_value t < 2 ^ 63)%Z -> e_palette E <> [] ->
    nth_error (e_palette E) (Z.to_nat ((dec_value t - 1) mod Z.of_nat (length (e_palette E)))) = Some c -> color_at W E args c.

(** A list of texts: those written, or those of a CSV file behind the earlier ones. *)
Definition texts_at (W : world) (args : list expr) (old cs : list str) : Prop :=
  (exists vs, csv_data (w_read_file W) args vs /\ cs = old ++ vs) \/ (~ headed "csv" args /\ written args cs).

(** The kind of a scale: words and lists, each changing one thing. *)
Inductive kind_step (W : world) : expr -> scale -> scale -> Prop :=
| step_linear e s : word "linear" e -> kind_step W e s
    (mk_scale Linear (s_min s) (s_max s) (s_log_base s) (s_inverted s) (s_padding s) (h_min s) (h_max s) (s_categories s) (s_cmap s))
| step_log e s : word "log" e \/ word "logarithmic" e -> kind_step W e s
    (mk_scale Logarithmic (s_min s) (s_max s) (s_log_base s) (s_inverted s) (s_padding s) (h_min s) (h_max s) (s_categories s) (s_cmap s))
| step_log_base w a s b : word "log" w \/ word "logarithmic" w -> number_at W a b -> kind_step W (EList (w :: a)) s
    (mk_scale Logarithmic (s_min s) (s_max s) b (s_inverted s) (s_padding s) (h_min s) (h_max s) (s_categories s) (s_cmap s))
| step_invert e s : word "invert" e \/ word "inverted" e -> kind_step W e s
    (mk_scale (s_kind s) (s_min s) (s_max s) (s_log_base s) true (s_padding s) (h_min s) (h_max s) (s_categories s) (s_cmap s))
| step_categorical e s : word "categorical" e -> kind_step W e s
    (mk_scale Categorical (s_min s) (s_max s) (s_log_base s) (s_inverted s) (Fin (1 / 2)) (h_min s) (h_max s) (s_categories s) (s_cmap s))
| step_categories w a s cs : word "categorical" w -> texts_at W a (s_categories s) cs -> kind_step W (EList (w :: a)) s
    (mk_scale Categorical (s_min s) (s_max s) (s_log_base s) (s_inverted s) (Fin (1 / 2)) (h_min s) (h_max s) cs
       (rev (combine cs (seq 0 (length cs))) ++ s_cmap s)).
Inductive kind_at (W : world) : list expr -> scale -> scale -> Prop :=
| kind_end s : kind_at W [] s s
| kind_more e rest s s1 s2 : kind_step W e s s1 -> kind_at W rest s1 s2 -> kind_at W (e :: rest) s s2.
