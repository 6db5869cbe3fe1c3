(** Model of /repo/src/units.cc, graphics/measure.cc, layer.cc (sizes), typographic_reader.cc
    and typographic_map.cc. *)
From Verif Require Import Base Sexpr_Model Dispatch_Model Num.
Local Open Scope R_scope.

(** Unit, /repo/src/units.h:25-35. *)
Inductive unit_t := UNIT | MM | PX | PT | EM | REM | REL | PERCENT | USER.

(** Measure, /repo/src/graphics/measure.h:26-32. *)
Record measure := mk_measure { m_unit : unit_t; m_value : xr }.

(** unit_parse, /repo/src/units.cc:20-40. *)
Definition unit_parse (s : str) : option unit_t :=
  assoc s [(s_ "mm", MM); (s_ "px", PX); (s_ "pt", PT); (s_ "em", EM); (s_ "rem", REM);
           (s_ "%", PERCENT)].

(** from_unit ... from_rel, /repo/src/graphics/measure.cc:29-63. *)
Definition from_unit (v : xr) := mk_measure UNIT v.
Definition from_mm (v : xr) := mk_measure MM v.
Definition from_px (v : xr) := mk_measure PX v.
Definition from_pt (v : xr) := mk_measure PT v.
Definition from_em (v : xr) := mk_measure REM v.
Definition from_user (v : xr) := mk_measure USER v.
Definition from_rel (v : xr) := mk_measure REL v.

Section Units.
  (** Rounding of double operations. *)
  Variable d : R -> R.

  (** 25.4 as a double constant. *)
  Definition k25_4 : xr := Fin (d (254 / 10)).

  (** unit_from_mm, unit_from_pt, unit_from_px, unit_from_percent, unit_from_em and
      unit_to_pt, /repo/src/units.cc:42-66. *)
  Definition unit_from_mm (v dpi : xr) : xr := xmul d (xdiv d v k25_4) dpi.
  Definition unit_from_pt (v dpi : xr) : xr := xmul d (xdiv d v (Fin 72)) dpi.
  Definition unit_from_px (v : xr) : xr := v.
  Definition unit_from_percent (v base : xr) : xr := xmul d (xdiv d v (Fin 100)) base.
  Definition unit_from_em (v base : xr) : xr := xmul d base v.
  Definition unit_to_pt (v dpi : xr) : xr := xmul d (xdiv d v dpi) (Fin 72).

  (** from_pt(v, dpi) and from_em(v, font_size), /repo/src/graphics/measure.cc:45-55. *)
  Definition from_pt_dpi (v dpi : xr) := mk_measure UNIT (xmul d (xdiv d v (Fin 72)) dpi).
  Definition from_em_size (v fs : xr) := mk_measure UNIT (xmul d v fs).

  (** std::stod and the "{}" format of a double. *)
  Variable stod : str -> option (xr * nat).
  Variable show : xr -> str.

  (** parse_measure, /repo/src/graphics/measure.cc:65-116. *)
  Definition parse_measure (s : str) : outcome measure :=
    match stod s with
    | None => Err
    | Some (v, pos) =>
        if (pos =? length s)%nat then Ret (from_user v) else
        let u := skipn pos s in
        if str_eqb u (s_ "mm") then Ret (from_mm v)
        else if str_eqb u (s_ "px") then Ret (from_px v)
        else if str_eqb u (s_ "pt") then Ret (from_pt v)
        else if str_eqb u (s_ "em") || str_eqb u (s_ "rem") then Ret (from_em v)
        else if str_eqb u (s_ "%") then Ret (from_rel (xdiv d v (Fin 100)))
        else if str_eqb u (s_ "rel") then Ret (from_rel v)
        else Err
    end.

  (** measure_to_string, /repo/src/graphics/measure.cc:118-138. *)
  Definition measure_to_string (m : measure) : str :=
    match m_unit m with
    | UNIT | USER => show (m_value m)
    | MM => show (m_value m) ++ s_ "mm"
    | PX => show (m_value m) ++ s_ "px"
    | PT => show (m_value m) ++ s_ "pt"
    | REM => show (m_value m) ++ s_ "rem"
    | REL => show (xmul d (m_value m) (Fin 100)) ++ s_ "%"
    | EM | PERCENT => s_ "???"
    end.

  (** measure_or, /repo/src/graphics/measure.cc:140-146. *)
  Definition measure_or (p fb : measure) : measure :=
    if xeq (m_value p) (Fin 0) then fb else p.

  (** convert_unit_typographic, convert_unit_relative, convert_unit_user,
      /repo/src/graphics/measure.cc:181-229; convert_unit(converters, m), :173-179, and
      convert_units, :162-173. *)
  Definition convert_typographic (dpi : xr) (font_size m : measure) : measure :=
    let fs := match m_unit font_size with
              | PT => xmul d (xdiv d (m_value font_size) (Fin 72)) dpi
              | _ => m_value font_size end in
    match m_unit m with
    | MM => from_unit (xmul d (xdiv d (m_value m) k25_4) dpi)
    | PT => from_unit (xmul d (xdiv d (m_value m) (Fin 72)) dpi)
    | REM => from_unit (xmul d (m_value m) fs)
    | _ => m
    end.
  Definition convert_relative (range : xr) (m : measure) : measure :=
    match m_unit m with REL => from_unit (xmul d (m_value m) range) | _ => m end.
  Definition convert_user (conv : xr -> xr) (m : measure) : measure :=
    match m_unit m with USER => from_rel (conv (m_value m)) | _ => m end.
  Definition convert_unit (cs : list (measure -> measure)) (m : measure) : measure :=
    fold_left (fun m c => c m) cs m.
  Definition convert_units (cs : list (measure -> measure)) (ms : list measure) : list measure :=
    map (convert_unit cs) ms.

  (** MeasureConv, /repo/src/graphics/measure.h:34-38, and measure_normalize(v),
      /repo/src/graphics/measure.cc:231-294. *)
  Record conv := mk_conv { c_dpi : xr; c_font : measure; c_parent : measure }.
  Definition parent_size (c : conv) : xr :=
    match m_unit (c_parent c) with
    | PT => xmul d (xdiv d (m_value (c_parent c)) (Fin 72)) (c_dpi c)
    | UNIT | PX | USER => m_value (c_parent c)
    | _ => Fin 0
    end.
  Definition font_size (c : conv) : xr :=
    match m_unit (c_font c) with
    | PT => xmul d (xdiv d (m_value (c_font c)) (Fin 72)) (c_dpi c)
    | REL => xmul d (parent_size c) (m_value (c_font c))
    | UNIT | PX | USER => m_value (c_font c)
    | _ => Fin 0
    end.
  Definition measure_normalize (c : conv) (m : measure) : measure :=
    match m_unit m with
    | PT => from_unit (xmul d (xdiv d (m_value m) (Fin 72)) (c_dpi c))
    | REM => from_unit (xmul d (m_value m) (font_size c))
    | REL => from_unit (xmul d (m_value m) (parent_size c))
    | UNIT | PX | USER => from_unit (m_value m)
    | _ => m
    end.
  Definition measure_normalizev (c : conv) (ms : list measure) : list measure :=
    map (measure_normalize c) ms.

  (** The size fields of Layer, /repo/src/layer.h:25-34. *)
  Record layer := mk_layer { l_width : measure; l_height : measure; l_dpi : xr; l_font_size : measure }.
  (** Layer::Layer, /repo/src/layer.cc:25-35. *)
  Definition layer0 : layer :=
    mk_layer (from_px (Fin 1600)) (from_px (Fin 800)) (Fin 192) (from_pt (Fin 11)).

  (** layer_get_width, layer_get_height, layer_get_font_size, /repo/src/layer.cc:140-164,
      279-290: three copies of one switch. *)
  Definition device_size (dpi : xr) (m : measure) : xr :=
    match m_unit m with
    | MM => unit_from_mm (m_value m) dpi
    | PT => unit_from_pt (m_value m) dpi
    | PX => unit_from_px (m_value m)
    | _ => Fin 0
    end.
  Definition layer_get_width (l : layer) : xr := device_size (l_dpi l) (l_width l).
  Definition layer_get_height (l : layer) : xr := device_size (l_dpi l) (l_height l).
  Definition layer_get_font_size (l : layer) : xr := device_size (l_dpi l) (l_font_size l).

  (** layer_get_uconv_width/height/font_size/size, /repo/src/layer.cc:201-245. *)
  Definition uconv_base (l : layer) (u : unit_t) : option (xr -> xr) :=
    match u with
    | MM => Some (fun v => unit_from_mm v (l_dpi l))
    | PT => Some (fun v => unit_from_pt v (l_dpi l))
    | PX => Some unit_from_px
    | _ => None
    end.
  Definition uconv_width (l : layer) (u : unit_t) : option (xr -> xr) :=
    match u with PERCENT => Some (fun v => unit_from_percent v (layer_get_width l)) | _ => uconv_base l u end.
  Definition uconv_height (l : layer) (u : unit_t) : option (xr -> xr) :=
    match u with PERCENT => Some (fun v => unit_from_percent v (layer_get_height l)) | _ => uconv_base l u end.
  Definition uconv_size (l : layer) (u : unit_t) : option (xr -> xr) :=
    match u with EM | REM => Some (fun v => unit_from_em v (layer_get_font_size l)) | _ => uconv_base l u end.

  (** expr_to_size and expr_to_font_size, /repo/src/typographic_reader.cc:129-147 (the same
      table of units); expr_to_number is in Dispatch_Model. *)
  Definition to_number := expr_to_number (Fin 0) (fun v => xeq v (Fin 0)) stod unit_parse.
  Definition expr_to_size (l : layer) (e : list expr) : outcome xr := to_number (uconv_size l) e.
  Definition expr_to_font_size (l : layer) (e : list expr) : outcome xr := to_number (uconv_size l) e.
  (** Positions, as read by draw/text and draw/rectangle, /repo/src/draw/rectangle.cc:44-59. *)
  Definition expr_to_position (l : layer) (e : list expr) (v : xr * xr) :=
    expr_to_vec2 (Fin 0) (fun v => xeq v (Fin 0)) stod unit_parse (uconv_width l) (uconv_height l) e v.

  (** layer_resize(layer, size), /repo/src/layer.cc:67-101. *)
  Definition paper_sizes : list (str * (xr * xr)) :=
    [(s_ "A0", (Fin 841, Fin 1189)); (s_ "A0*", (Fin 1189, Fin 841));
     (s_ "A1", (Fin 594, Fin 841));  (s_ "A1*", (Fin 841, Fin 594));
     (s_ "A2", (Fin 420, Fin 594));  (s_ "A2*", (Fin 594, Fin 420));
     (s_ "A3", (Fin 297, Fin 420));  (s_ "A3*", (Fin 420, Fin 297));
     (s_ "A4", (Fin 210, Fin 297));  (s_ "A4*", (Fin 297, Fin 210));
     (s_ "A5", (Fin 148, Fin 210));  (s_ "A5*", (Fin 210, Fin 148));
     (s_ "A6", (Fin 105, Fin 148));  (s_ "A6*", (Fin 148, Fin 105))].
  Definition with_size (l : layer) (w h : measure) : layer := mk_layer w h (l_dpi l) (l_font_size l).
  Definition layer_resize_paper (l : layer) (name : str) : layer * outcome unit :=
    match assoc name paper_sizes with
    | None => (l, Err)
    | Some (w, h) => (with_size l (from_mm w) (from_mm h), Ret tt)
    end.

  (** measure_read, /repo/src/typographic_reader.cc:24-36. *)
  Definition measure_read (e : list expr) : outcome measure :=
    match value_of e with None => Err | Some v => parse_measure v end.
  (** measure_readn, /repo/src/typographic_reader.cc:38-60: parent_size keeps its default
      (Measure(), 0 screen units). On error *value is untouched. *)
  Definition measure_readn (l : layer) (e : list expr) : outcome measure :=
    let* m := measure_read e in
    Ret (measure_normalize (mk_conv (l_dpi l) (from_unit (layer_get_font_size l)) (from_unit (Fin 0))) m).

  (** The text of an argument node, as expr_get_value reads it: empty for a list. *)
  Definition node_text (e : expr) : str := match e with ELit v | EVal v => v | EList _ => [] end.

  (** layer_resize_cmd, /repo/src/layer.cc:103-130; expr_collect gives the nodes of the
      chain, each followed by the rest of it. *)
  Definition layer_resize_cmd (l : layer) (args : list expr) : layer * outcome unit :=
    match args with
    | [a] => layer_resize_paper l (node_text a)
    | [a; b] =>
        match measure_read [a; b] with
        | Ret w => match measure_read [b] with
                   | Ret h => (with_size l w h, Ret tt)
                   | _ => (l, Err)
                   end
        | _ => (l, Err)
        end
    | _ => (l, Err)
    end.
  (** layer_set_dpi_cmd, /repo/src/layer.cc:184-199. *)
  Definition layer_set_dpi_cmd (l : layer) (args : list expr) : layer * outcome unit :=
    match args with
    | [a] => match expr_to_float64 stod [a] with
             | Ret v => (mk_layer (l_width l) (l_height l) v (l_font_size l), Ret tt)
             | _ => (l, Err)
             end
    | _ => (l, Err)
    end.
  (** layer_set_font_size_cmd, /repo/src/layer.cc:300-322. *)
  Definition layer_set_font_size_cmd (l : layer) (args : list expr) : layer * outcome unit :=
    match args with
    | [a] => match measure_read [a] with
             | Ret m => (mk_layer (l_width l) (l_height l) (l_dpi l) m, Ret tt)
             | _ => (l, Err)
             end
    | _ => (l, Err)
    end.

  (** measure_map_linear, /repo/src/typographic_map.cc:18-34. *)
  Definition clamp01 (v : xr) : xr :=
    if xlt v (Fin 0) then Fin 0 else if xlt (Fin 1) v then Fin 1 else v.
  Definition measure_map_linear (mn mx : measure) (value : str) : outcome measure :=
    match stod value with
    | None => Err
    | Some (v, _) =>
        Ret (from_unit (xadd d (m_value mn)
               (xmul d (xsub d (m_value mx) (m_value mn)) (clamp01 v))))
    end.

  (** measure_map_read and measure_map_read_linear, /repo/src/typographic_reader.cc:79-127. *)
  Definition measure_map_read (l : layer) (e : list expr) : outcome (str -> outcome measure) :=
    match e with
    | EList items :: _ =>
        match value_of items with
        | Some k =>
            if str_eqb k (s_ "linear") then
              match tl items with
              | [a; b] => let* mn := measure_readn l [a; b] in
                          let* mx := measure_readn l [b] in
                          Ret (measure_map_linear mn mx)
              | _ => Err
              end
            else Err
        | None => Err
        end
    | _ => Err
    end.
End Units.
