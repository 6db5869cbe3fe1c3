(** Model of finding and loading fonts (/repo/src/graphics/font_lookup.cc:239-362, layer.cc:37-57) and of
    the calls of harfbuzz and freetype for a text (/repo/src/graphics/text_shaper.cc:29-102, text.cc,
    font_lookup.cc:67-96). The libraries (fontconfig, freetype, harfbuzz, fribidi) are the record
    [library]; what the code does with their answers is modelled. *)
From Coq Require Import Reals ZArith.
From Flocq Require Import Core.
From Verif Require Import Base Num Str_Model Dispatch_Model Units_Model Color_Model Geo_Model Text_Model Glyph_Model Cmd_Model Say_Model.

(** A font that has been opened (FontRef) is a number. *)
Record library := mk_library {
  (** FcFontMatch with FcPatternGetString(FC_FILE): the file of the best match for a pattern. *)
  fc_match : str -> option str;
  (** FcFontSort of the default pattern: the fonts in order, None where one has no file name. *)
  fc_sorted : list (option str);
  (** FT_Init_FreeType and FT_New_Face. *)
  ft_open : str -> option nat;
  (** FT_Set_Char_Size(face, 0, size, dpi, dpi): does it succeed? The size is in 64ths of a point. *)
  ft_sizes : nat -> Z -> Z -> bool;
  (** hb_shape of a run at that size: glyph index and x_advance, in 64ths of a pixel. *)
  hb_glyphs : nat -> Z -> Z -> span -> list (N * Z);
  (** ft_font->size->metrics: ascender and descender in 64ths of a pixel. *)
  ft_metrics : nat -> Z -> Z -> Z * Z;
  (** FT_Load_Glyph, FT_Get_Glyph and the format of the glyph: the outline, or an error. *)
  ft_outline : nat -> Z -> Z -> N -> option outline;
  fribidi_levels : direction -> list Z -> option (list nat);
  (** The characters of a text, as fribidi decodes them (one per byte without fribidi). *)
  decode : str -> list Z }.

(** FontInfo, font_lookup.h:25-29; the weight is not used by the tool. *)
Record font_info := mk_font_info { fi_fonts : font; fi_family : str }.

Section Lib.
  Variable L : library.

  (** font_load, font_lookup.cc:239-252: its error has no message. *)
  Definition font_load (file : str) : reply nat :=
    match ft_open L file with Some f => Good f | None => error_ [] end.
  (** DEFAULT_FONT_PATTERN_CSS, font_lookup.cc:32-33. *)
  Definition default_css : str := s_ "Arial,Helvetica,'Helvetica Neue',sans-serif".
  (** font_pattern[0] == '/' || endsWith(".otf") || endsWith(".ttf"), font_lookup.cc:263-265. *)
  Definition is_file_name (pattern : str) : bool :=
    match pattern with c :: _ => Ascii.eqb c "/"%char | [] => false end ||
    ends_with pattern (s_ ".otf") || ends_with pattern (s_ ".ttf").
  (** "unble to load font '{}': {}", font_lookup.cc:297-302 and :349-353. *)
  Definition unable_to_load {A} (file reason : str) : reply A :=
    error_ (s_ "unble to load font '" ++ file ++ s_ "': " ++ reason).
  Definition load_said (file : str) : reply nat :=
    match font_load file with Says m _ => unable_to_load file m | r => r end.
  (** font_load_best, font_lookup.cc:254-308. The font info is left alone on an error. *)
  Definition font_load_best (pattern : str) (fi : font_info) : reply font_info :=
    match pattern with
    | [] => error_ (s_ "unable to load font: empty font pattern")
    | _ =>
        let file := if is_file_name pattern then pattern
                    else match fc_match L pattern with Some f => f | None => [] end in
        match file with
        | [] => error_ (s_ "unable to find font: $" ++ pattern)
        | _ => rbind (load_said file) (fun f => Good (mk_font_info (f :: fi_fonts fi) []))
        end
    end.
  (** font_files, font_lookup.cc:323-338: entries without a file name are skipped. *)
  Fixpoint named (l : list (option str)) : list str :=
    match l with [] => [] | Some f :: r => f :: named r | None :: r => named r end.
  (** The loop at font_lookup.cc:346-356. *)
  Fixpoint load_all (files : list str) (fonts : font) : reply font :=
    match files with
    | [] => Good fonts
    | f :: r => rbind (load_said f) (fun x => load_all r (fonts ++ [x]))
    end.
  (** font_load_defaults, font_lookup.cc:310-361. *)
  Definition font_load_defaults (fi : font_info) : reply font_info :=
    rbind (load_all (named (fc_sorted L)) (fi_fonts fi)) (fun l => Good (mk_font_info l default_css)).
  (** The fonts of layer_create, layer.cc:43-54. *)
  Fixpoint load_each (patterns : list str) (fi : font_info) : reply font_info :=
    match patterns with [] => Good fi | p :: r => rbind (font_load_best p fi) (load_each r) end.
  Definition layer_fonts (font_defaults : bool) (patterns : list str) : reply font_info :=
    rbind (if font_defaults then font_load_defaults (mk_font_info [] []) else Good (mk_font_info [] [])) (load_each patterns).

  (* ---------------- a text ---------------- *)
  Variable d : R -> R.
  (** The conversions of double to FT_F26Dot6 (a 64-bit long) and FT_UInt (32 bits) in the calls of
      FT_Set_Char_Size, text_shaper.cc:40 and font_lookup.cc:76: truncation; undefined when out of range. *)
  Definition to_long (v : xr) : outcome Z :=
    match v with Fin r => if ((- 2 ^ 63 <=? Ztrunc r) && (Ztrunc r <? 2 ^ 63))%Z then Ret (Ztrunc r) else UB | _ => UB end.
  Definition to_uint (v : xr) : outcome Z :=
    match v with Fin r => if ((0 <=? Ztrunc r) && (Ztrunc r <? 2 ^ 32))%Z then Ret (Ztrunc r) else UB | _ => UB end.
  Definition char_size (size_pt dpi : xr) : outcome (Z * Z) :=
    let* s := to_long (xmul d size_pt (Fin 64)) in let* q := to_uint dpi in Ret (s, q).
  Definition sized (font : nat) (s q : Z) : outcome unit := if ft_sizes L font s q then Ret tt else Err.
  (** x / 64.0 *)
  Definition of_64ths (z : Z) : xr := xdiv d (Fin (IZR z)) (Fin 64).
  (** text_shape_run, text_shaper.cc:29-102. *)
  Definition text_shape_run (size_pt dpi : xr) (font : nat) (run : span) : outcome (list glyph) :=
    let* (s, q) := char_size size_pt dpi in
    let* _ := sized font s q in
    Ret (map (fun g => mk_glyph font (fst g) (of_64ths (snd g)) (of_64ths (fst (ft_metrics L font s q)))
                         (of_64ths (snd (ft_metrics L font s q)))) (hb_glyphs L font s q run)).
  (** font_get_glyph_path, font_lookup.cc:67-237: the calls of freetype, then Glyph_Model. *)
  Definition font_get_glyph_path (asserts : bool) (size_pt dpi : xr) (font : nat) (code : N) : outcome path :=
    let* (s, q) := char_size size_pt dpi in
    let* _ := sized font s q in
    match ft_outline L font s q code with
    | None => Err
    | Some o => glyph_outline_path d asserts o
    end.
  (** draw_text with draw::text, /repo/src/graphics/draw_cmd.cc:110-135 and draw/text.cc:43-120: size in
      pixels; the text is left to right (the default of TextStyle). *)
  Definition text_shapes (asserts bidi : bool) (fonts : font) (size dpi : xr) (text : str) (pos : vec2) (ax : halign) (ay : valign)
      (rotate : xr) : outcome (list path) :=
    draw_text_op d (text_shape_run (unit_to_pt d size dpi) dpi) (font_get_glyph_path asserts (unit_to_pt d size dpi) dpi)
      (fribidi_levels L) bidi fonts (decode L text) LTR 0 pos ax ay (text_rotation d pos rotate).
  (** text_measure_label, /repo/src/graphics/text.cc:26-45: no reordering. *)
  Definition text_measure_label (fonts : font) (size dpi : xr) (text : str) : outcome rectangle :=
    let* (_, box) := layout_line d (text_shape_run (unit_to_pt d size dpi) dpi) fonts LTR [mk_span (decode L text) LTR 0] in Ret box.
End Lib.

(** The world (Cmd_Model) whose fonts and texts are those of the libraries. [W] gives the rest. *)
Definition with_library (L : library) (asserts bidi : bool) (W : world) : world :=
  mk_world (w_d W) (w_f W) (w_stod W) (w_show W) (w_is_number W) (w_read_file W) (w_strftime W) (w_sort_stops W) (w_sort_cw W)
    (fun pattern fonts => let* fi := erase (font_load_best L pattern (mk_font_info fonts [])) in Ret (fi_fonts fi))
    (text_shapes L (w_d W) asserts bidi) (text_measure_label L (w_d W)) (w_fuel W).
