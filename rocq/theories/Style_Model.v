(** Model of /repo/src/style_reader.cc, style_util.cc, marker.cc, arrows.cc, draw.cc and
    draw/path.cc, draw/rectangle.cc, draw/text.cc (text_eval). *)
From Coq Require Import Reals.
From Verif Require Import Base Num Sexpr_Model Dispatch_Model Data_Model Scale_Model Units_Model
  Color_Model Geo_Model Svg_Model Cmd_Model.
Local Open Scope R_scope.

(** Assignments to the members of StrokeStyle and FillStyle. *)
Definition ss_with_width (v : xr) (s : stroke_style) := mk_stroke_style v (s_color s) (s_dashed s) (s_offset s) (s_pattern s).
Definition ss_with_color (v : color) (s : stroke_style) := mk_stroke_style (s_width s) v (s_dashed s) (s_offset s) (s_pattern s).
Definition ss_with_dashed (v : bool) (s : stroke_style) := mk_stroke_style (s_width s) (s_color s) v (s_offset s) (s_pattern s).
Definition ss_with_offset (v : xr) (s : stroke_style) := mk_stroke_style (s_width s) (s_color s) (s_dashed s) v (s_pattern s).
Definition ss_with_pattern (v : list xr) (s : stroke_style) := mk_stroke_style (s_width s) (s_color s) (s_dashed s) (s_offset s) v.
Definition fs_with_color (v : option color) (s : fill_style) := mk_fill v (f_hatch s) (f_angle s) (f_offset s) (f_stride s) (f_width s).

(** The word, or the list headed by the word (expr_is_value(e, w), expr_is_list(e, w)). *)
Definition is_word (e : list expr) (w : string) : bool := is_val e (s_ w).
Definition list_of (e : list expr) (w : string) : option (list expr) := list_headed e (s_ w).
Definition is_list_of (e : list expr) (w : string) : bool :=
  match list_of e w with Some _ => true | None => false end.

(** style_is_visible, /repo/src/style_util.cc:20-26. *)
Definition style_is_visible (c : compound) : bool :=
  match fills c, hatches c, strokes c, dashes c with [], [], [], [] => false | _, _, _, _ => true end.

(** UTF-8 text given by its bytes. *)
Definition utf8 (l : list nat) : str := map ascii_of_nat l.
(** UNICODE_MARKERS, /repo/src/marker.cc:21-72. *)
Definition unicode_markers : list (str * str) :=
  ([(s_ "circle-bullet", utf8 [226; 151; 137]);
   (s_ "circle-left", utf8 [226; 151; 144]);
   (s_ "circle-right", utf8 [226; 151; 145]);
   (s_ "circle-top", utf8 [226; 151; 147]);
   (s_ "circle-bottom", utf8 [226; 151; 146]);
   (s_ "circle-bullet-alt", utf8 [226; 173; 151]);
   (s_ "circle-hatch", utf8 [226; 151; 141]);
   (s_ "circle-dashed", utf8 [226; 151; 140]);
   (s_ "diamond", utf8 [226; 151; 134]);
   (s_ "diamond-o", utf8 [226; 151; 135]);
   (s_ "diamond-bullet", utf8 [226; 151; 136]);
   (s_ "diamond-left", utf8 [226; 172; 150]);
   (s_ "diamond-right", utf8 [226; 172; 151]);
   (s_ "diamond-top", utf8 [226; 172; 152]);
   (s_ "diamond-bottom", utf8 [226; 172; 153]);
   (s_ "square", utf8 [226; 150; 160]);
   (s_ "square-o", utf8 [226; 150; 161]);
   (s_ "square-left", utf8 [226; 151; 167]);
   (s_ "square-right", utf8 [226; 151; 168]);
   (s_ "square-top", utf8 [226; 172; 146]);
   (s_ "square-bottom", utf8 [226; 172; 147]);
   (s_ "square-diag-left", utf8 [226; 151; 169]);
   (s_ "square-diag-right", utf8 [226; 151; 170]);
   (s_ "square-dotted", utf8 [226; 172; 154]);
   (s_ "square-crosshair", utf8 [226; 175; 144]);
   (s_ "square-bullet", utf8 [226; 150; 163]);
   (s_ "square-hatch-horiz", utf8 [226; 150; 164]);
   (s_ "square-hatch-vert", utf8 [226; 150; 165]);
   (s_ "square-hatch-cross", utf8 [226; 150; 166]);
   (s_ "square-hatch-diag-left", utf8 [226; 150; 167]);
   (s_ "square-hatch-diag-right", utf8 [226; 150; 168]);
   (s_ "hexagon", utf8 [226; 172; 162]);
   (s_ "hexagon-o", utf8 [226; 172; 161]);
   (s_ "pentagon", utf8 [226; 172; 159]);
   (s_ "pentagon-o", utf8 [226; 172; 160]);
   (s_ "compass-left", utf8 [226; 174; 152]);
   (s_ "compass-right", utf8 [226; 174; 154]);
   (s_ "compass-top", utf8 [226; 174; 153]);
   (s_ "compass-bottom", utf8 [226; 174; 155]);
   (s_ "triangle-left", utf8 [226; 175; 135]);
   (s_ "triangle-right", utf8 [226; 175; 136]);
   (s_ "triangle-top", utf8 [226; 175; 133]);
   (s_ "triangle-bottom", utf8 [226; 175; 134]);
   (s_ "triangle-left-o", utf8 [226; 150; 179]);
   (s_ "triangle-right-o", utf8 [226; 150; 183]);
   (s_ "triangle-top-o", utf8 [226; 150; 179]);
   (s_ "triangle-left-half", utf8 [226; 151; 173]);
   (s_ "triangle-right-half", utf8 [226; 151; 174]);
   (s_ "triangle-bottom-o", utf8 [226; 150; 189]);
   (s_ "triangle-dot", utf8 [226; 151; 172])])%nat.

(** The values of type Marker that marker.cc creates: marker_create_disk (:94-106),
    marker_create_circle (:74-92, the clamped border width) and marker_create_unicode
    (:108-129). *)
Inductive marker := Disk | Circle (border : xr) | Glyph (u : str).

(** std::clamp(v, 0.0, 1.0) is Units_Model.clamp01. *)

Section Style.
  Variable W : world.
  Variable E : env.
  Notation d := (w_d W).
  Notation pt := (pt W E).
  Notation dpi := (dpi E).
  Notation rd_color := (rd_color W E).
  Notation rd_measuren := (rd_measuren W E).
  Notation rd_size := (rd_size W E).
  Notation rd_float := (rd_float W).

  (** stroke_style_read_dash, /repo/src/style_reader.cc:27-42. *)
  Definition stroke_style_read_dash (e : list expr) (s : stroke_style) : outcome stroke_style :=
    let s1 := ss_with_pattern [pt 2; pt 2] (ss_with_dashed true s) in
    run [(s_ "pattern", upd (fun e => ended (expr_tov rd_measuren e [])) ss_with_pattern);
         (s_ "offset", upd rd_measuren ss_with_offset)] e s1.
  (** stroke_style_read, style_reader.cc:44-75. *)
  Definition stroke_style_read (e : list expr) (s : stroke_style) : outcome stroke_style :=
    if is_word e "none" || is_list_of e "none" then Ret (ss_with_width (Fin 0) s)
    else if is_word e "solid" || is_list_of e "solid" then Ret (ss_with_dashed false s)
    else if is_word e "dash" || is_word e "dashed" then stroke_style_read_dash [] s
    else match list_of e "dash" with
         | Some a => stroke_style_read_dash a s
         | None => match list_of e "dashed" with
                   | Some a => stroke_style_read_dash a s
                   | None => Err
                   end
         end.

  (** fill_style_read_solid, style_reader.cc:77-89. *)
  Definition fill_style_read_solid (e : list expr) (s : fill_style) : outcome fill_style :=
    let* c := rd_color e black in Ret (fs_with_color (Some c) s).
  (** fill_style_read_hatch, style_reader.cc:91-123; the colour and the four numbers (angle,
      offset, stride, width) that are read. *)
  Definition hatch_opts := (color * (xr * xr * xr * xr))%type.
  Definition hatch_table (rd_len : list expr -> outcome xr) : list (str * cmd hatch_opts) :=
    [(s_ "color", updf fst rd_color (fun c o => (c, snd o)));
     (s_ "angle", upd rd_float (fun v '(c, (a, o, st, w)) => (c, (v, o, st, w))));
     (s_ "offset", upd rd_len (fun v '(c, (a, o, st, w)) => (c, (a, v, st, w))));
     (s_ "stride", upd rd_len (fun v '(c, (a, o, st, w)) => (c, (a, o, v, w))));
     (s_ "width", upd rd_len (fun v '(c, (a, o, st, w)) => (c, (a, o, st, v))))].
  Definition fill_style_read_hatch (e : list expr) (s : fill_style) : outcome fill_style :=
    let* (c, (a, o, st, w)) := run (hatch_table rd_measuren) e (black, (Fin (-45), Fin 0, pt 3, pt 1)) in
    Ret (mk_fill (Some c) true a o st w).
  (** fill_style_read, style_reader.cc:125-154. *)
  Definition fill_style_read (e : list expr) (s : fill_style) : outcome fill_style :=
    if is_word e "none" || is_list_of e "none" then Ret (fs_with_color None s)
    else if is_word e "hatch" || is_word e "hatched" then fill_style_read_hatch [] s
    else match list_of e "hatch" with
         | Some a => fill_style_read_hatch a s
         | None =>
             match list_of e "hatched" with
             | Some a => fill_style_read_hatch a s
             | None => match e with [] => Err | _ => fill_style_read_solid e s end
             end
         end.

  (** style_read_fill_solid, style_read_fill_hatch and style_read_fill, style_reader.cc:156-217. *)
  Definition style_read_fill_solid (e : list expr) (s : compound) : outcome compound :=
    let* c := rd_color e black in Ret (mk_compound (fills s ++ [c]) (hatches s) (strokes s) (dashes s)).
  Definition style_read_fill_hatch (e : list expr) (s : compound) : outcome compound :=
    let* (c, (a, o, st, w)) := run (hatch_table rd_size) e (black, (Fin (-45), Fin 0, pt 6, pt 2)) in
    Ret (mk_compound (fills s) (hatches s ++ [mk_hatch c a o st w]) (strokes s) (dashes s)).
  Definition style_read_fill (e : list expr) (s : compound) : outcome compound :=
    if is_word e "solid" then style_read_fill_solid [] s
    else match list_of e "solid" with
    | Some a => style_read_fill_solid a s
    | None =>
    if is_word e "hatch" then style_read_fill_hatch [] s
    else match list_of e "hatch" with
    | Some a => style_read_fill_hatch a s
    | None => style_read_fill_solid e s
    end end.

  (** style_read_stroke_solid, style_read_stroke_solid_short, style_read_stroke_dash and
      style_read_stroke, style_reader.cc:219-313. *)
  Definition style_read_stroke_solid (e : list expr) (s : compound) : outcome compound :=
    let* (c, w) := run [(s_ "color", updf fst rd_color (fun c o => (c, snd o)));
                        (s_ "width", upd rd_size (fun v o => (fst o, v)))] e (black, pt 1) in
    Ret (mk_compound (fills s) (hatches s) (strokes s ++ [mk_stroke c w]) (dashes s)).
  Definition style_read_stroke_solid_short (e : list expr) (s : compound) : outcome compound :=
    match e with
    | [a; b] => let* w := rd_size [a; b] in
                let* c := rd_color [b] black in
                Ret (mk_compound (fills s) (hatches s) (strokes s ++ [mk_stroke c w]) (dashes s))
    | _ => Err
    end.
  Definition style_read_stroke_dash (e : list expr) (s : compound) : outcome compound :=
    let* (c, w, p, o) :=
      run [(s_ "color", updf (fun '(c, w, p, o) => c) rd_color (fun v '(c, w, p, o) => (v, w, p, o)));
           (s_ "width", upd rd_size (fun v '(c, w, p, o) => (c, v, p, o)));
           (s_ "pattern", upd (fun e => ended (expr_tov rd_size e [])) (fun v '(c, w, p, o) => (c, w, v, o)));
           (s_ "offset", upd rd_size (fun v '(c, w, p, o) => (c, w, p, v)))]
        e (black, pt 1, [pt 4; pt 4], Fin 0) in
    Ret (mk_compound (fills s) (hatches s) (strokes s) (dashes s ++ [mk_dash c w p o])).
  Definition style_read_stroke (e : list expr) (s : compound) : outcome compound :=
    if is_word e "solid" then style_read_stroke_solid [] s
    else match list_of e "solid" with
    | Some a => style_read_stroke_solid a s
    | None =>
    if is_word e "dash" then style_read_stroke_dash [] s
    else match list_of e "dash" with
    | Some a => style_read_stroke_dash a s
    | None => style_read_stroke_solid_short e s
    end end.
  (** style_read_color and style_read, style_reader.cc:315-331. *)
  Definition style_read_color := style_read_fill_solid.
  Definition style_entries {S} (get : S -> compound) (put : compound -> S -> S) : list (str * cmd S) :=
    [(s_ "color", updf get style_read_color put);
     (s_ "fill", updf get style_read_fill put);
     (s_ "stroke", updf get style_read_stroke put)].
  Definition style_read (e : list expr) (s : compound) : outcome compound :=
    run_wrapped (style_entries (fun s => s) (fun v _ => v)) e s.

  (* ---------------- marker.cc ---------------- *)
  (** Calling a Marker (marker.cc:74-124): what is drawn. *)
  Definition draw_marker (m : marker) (p : vec2) (size : xr) (c : color) : outcome (list draw_command) :=
    match m with
    | Disk => Ret (draw_path_ (add_circle d [] p (xmul d size (Fin (1 / 2)))) stroke0
                     (fs_with_color (Some c) fill0))
    | Circle b => Ret (draw_path_ (add_circle d [] p (xmul d size (Fin (1 / 2))))
                         (ss_with_width (xmul d (xmul d size b) (Fin (1 / 2))) (ss_with_color c stroke0)) fill0)
    | Glyph u => draw_text_ W E (e_font E) (xmul d size (k W (12 / 10))) c u p HCenter VCenter (Fin 0)
    end.
  (** marker_configure, marker.cc:126-170. expr_next(nullptr) is not reached. *)
  Definition marker_configure (e : list expr) : outcome marker :=
    if is_word e "circle" then Ret Disk
    else if is_word e "circle-o" then
      match tl e with
      | [] => Ret (Circle (clamp01 (k W (2 / 10))))
      | rest => let* b := rd_float rest in Ret (Circle (clamp01 b))
      end
    else if is_word e "custom" then
      match value_of (tl e) with Some u => Ret (Glyph u) | None => Err end
    else
      match value_of e with
      | Some v => match assoc v unicode_markers with Some u => Ret (Glyph u) | None => Err end
      | None => Err
      end.
  (** marker_configure_list, marker.cc:172-203: with a flat list marker_configure gets the list
      itself. *)
  Fixpoint markers_from (l : list expr) (acc : list marker) : outcome (list marker) :=
    match l with
    | [] => Ret acc
    | _ :: r => let* m := marker_configure l in markers_from r (acc ++ [m])
    end.
  Definition marker_configure_list (e : list expr) (old : list marker) : outcome (list marker) :=
    match e with
    | EList args :: _ =>
        match args with
        | EList _ :: _ => markers_from args old
        | _ => let* m := marker_configure e in Ret (old ++ [m])
        end
    | _ => Err
    end.

  (* ---------------- arrows.cc ---------------- *)
  (** arrow_draw_default, /repo/src/arrows.cc:23-54. *)
  Definition draw_arrow (from to : vec2) (size : xr) (c : color) : list draw_command :=
    let dir := normalize d (vsub d to from) in
    let ortho := mk_vec2 (vy dir) (xmul d (vx dir) (Fin (-1))) in
    let head := [MoveTo (vadd d to (vmul d ortho (xmul d size (Fin 2))));
                 LineTo (vsub d to (vmul d ortho (xmul d size (Fin 2))));
                 LineTo (vadd d to (vmul d dir (xmul d size (Fin 4))));
                 Close] in
    draw_line_ from to (ss_with_width size (ss_with_color c stroke0)) ++
    draw_path_ head stroke0 (fs_with_color (Some c) fill0).

  (* ---------------- draw.cc and draw ---------------- *)
  (** draw::path, /repo/src/draw/path.cc:19-31: draw_shape is not called, the styles go into
      the draw list as they are. *)
  Definition visible_or_default (s : compound) : compound :=
    if style_is_visible s then s else e_default E.
  Definition op_path (p : path) (s : compound) : list draw_command :=
    [mk_cmd p (visible_or_default s) stroke0 fill0 None].

  Definition rd_position (u1 u2 : unit_t -> option (xr -> xr)) (e : list expr) (v : vec2) : outcome vec2 :=
    let* (x, y) := ended (expr_to_vec2 (Fin 0) (fun v => xeq v (Fin 0)) (w_stod W) unit_parse u1 u2 e (vx v, vy v)) in
    Ret (mk_vec2 x y).
  Definition page_position := rd_position (uconv_width d (e_layer E)) (uconv_height d (e_layer E)).
  Definition page_size := rd_position (uconv_size d (e_layer E)) (uconv_size d (e_layer E)).

  (** draw::rectangle, /repo/src/draw/rectangle.cc:27-78. *)
  Definition eval_rectangle (e : list expr) : outcome (list draw_command) :=
    let mid a := xmul d a (Fin (1 / 2)) in
    let* (p, s, st) :=
      run ([(s_ "position", updf (fun '(p, s, st) => p) page_position (fun v '(p, s, st) => (v, s, st)));
            (s_ "size", updf (fun '(p, s, st) => s) page_size (fun v '(p, s, st) => (p, v, st)))] ++
           style_entries (fun '(p, s, st) => st) (fun v '(p, s, st) => (p, s, v)))
        e (mk_vec2 (mid (page_width W E)) (mid (page_height W E)),
           mk_vec2 (page_width W E) (page_height W E), no_style) in
    Ret (op_path (add_rectangle_centered d [] p s) st).

  (** draw::text_eval, /repo/src/draw/text.cc:135-177; .5f is exact. The style has no solid
      fill of its own: op.text_style.color is not used. *)
  Record text_opts := mk_text { t_pos : vec2; t_text : str; t_font : font; t_size : xr; t_style : compound }.
  Definition eval_text (e : list expr) : outcome (list draw_command) :=
    let mid a := xmul d a (Fin (1 / 2)) in
    let* o :=
      run ([(s_ "position", updf t_pos page_position (fun v o => mk_text v (t_text o) (t_font o) (t_size o) (t_style o)));
            (s_ "text", upd expr_to_string (fun v o => mk_text (t_pos o) v (t_font o) (t_size o) (t_style o)));
            (s_ "font", updf t_font (rd_font W) (fun v o => mk_text (t_pos o) (t_text o) v (t_size o) (t_style o)));
            (s_ "font-size", upd (rd_font_size W E) (fun v o => mk_text (t_pos o) (t_text o) (t_font o) v (t_style o)))] ++
           style_entries t_style (fun v o => mk_text (t_pos o) (t_text o) (t_font o) (t_size o) v))
        e (mk_text (mk_vec2 (mid (page_width W E)) (mid (page_height W E))) [] (e_font E)
             (page_font_size W E) no_style) in
    let* ps := w_text W (t_font o) (t_size o) dpi (t_text o) (t_pos o) HCenter VCenter (Fin 0) in
    Ret (text_shapes (visible_or_default (t_style o)) ps).

  (** draw_eval, /repo/src/draw.cc:24-37: the state is what has been drawn. *)
  Definition draws (g : list expr -> outcome (list draw_command)) : cmd (list draw_command) :=
    fun e out => let* l := g e in Ret (out ++ l).
  Definition draw_eval (e : list expr) : outcome (list draw_command) :=
    run [(s_ "text", draws eval_text); (s_ "rectangle", draws eval_rectangle)] e [].
End Style.
