(** Model of /repo/src/plot/axis.cc and grid.cc: the commands axis, axes and grid. *)
From Coq Require Import Reals.
From Verif Require Import Base Num Sexpr_Model Dispatch_Model Data_Model Scale_Model Units_Model Color_Model
  Geo_Model Svg_Model Format_Model Cmd_Model Style_Model Plot_Model.
Local Open Scope R_scope.

(** AxisAlign and AxisLabelAttach, axis.cc:41-43. *)
Inductive axis_align := AX | AY | ATop | ARight | ABottom | ALeft.
Inductive axis_attach := TTop | TRight | TBottom | TLeft.

(** AxisDefinition, axis.cc:51-88; of the Measures the values. An empty std::function is None. *)
Record axis := mk_axis {
  a_align : axis_align; a_enable : bool; a_scale : scale; a_title : str; a_tcolor : color; a_toff : xr; a_tpad : xr; a_tfont : font; a_tsize : xr; a_trotate : xr; a_tickoff : xr; a_ticklen : xr; a_tickplace : option placement; a_lplace : option placement; a_lformat : option formatter; a_attach : axis_attach; a_loff : xr; a_lpad : xr; a_lrotate : xr; a_lfont : font; a_lsize : xr; a_lcolor : color; a_border : stroke_style }.
Definition set_a_align (v : axis_align) (c : axis) : axis := mk_axis v (a_enable c) (a_scale c) (a_title c) (a_tcolor c) (a_toff c) (a_tpad c) (a_tfont c) (a_tsize c) (a_trotate c) (a_tickoff c) (a_ticklen c) (a_tickplace c) (a_lplace c) (a_lformat c) (a_attach c) (a_loff c) (a_lpad c) (a_lrotate c) (a_lfont c) (a_lsize c) (a_lcolor c) (a_border c).
Definition set_a_enable (v : bool) (c : axis) : axis := mk_axis (a_align c) v (a_scale c) (a_title c) (a_tcolor c) (a_toff c) (a_tpad c) (a_tfont c) (a_tsize c) (a_trotate c) (a_tickoff c) (a_ticklen c) (a_tickplace c) (a_lplace c) (a_lformat c) (a_attach c) (a_loff c) (a_lpad c) (a_lrotate c) (a_lfont c) (a_lsize c) (a_lcolor c) (a_border c).
Definition set_a_scale (v : scale) (c : axis) : axis := mk_axis (a_align c) (a_enable c) v (a_title c) (a_tcolor c) (a_toff c) (a_tpad c) (a_tfont c) (a_tsize c) (a_trotate c) (a_tickoff c) (a_ticklen c) (a_tickplace c) (a_lplace c) (a_lformat c) (a_attach c) (a_loff c) (a_lpad c) (a_lrotate c) (a_lfont c) (a_lsize c) (a_lcolor c) (a_border c).
Definition set_a_title (v : str) (c : axis) : axis := mk_axis (a_align c) (a_enable c) (a_scale c) v (a_tcolor c) (a_toff c) (a_tpad c) (a_tfont c) (a_tsize c) (a_trotate c) (a_tickoff c) (a_ticklen c) (a_tickplace c) (a_lplace c) (a_lformat c) (a_attach c) (a_loff c) (a_lpad c) (a_lrotate c) (a_lfont c) (a_lsize c) (a_lcolor c) (a_border c).
Definition set_a_tcolor (v : color) (c : axis) : axis := mk_axis (a_align c) (a_enable c) (a_scale c) (a_title c) v (a_toff c) (a_tpad c) (a_tfont c) (a_tsize c) (a_trotate c) (a_tickoff c) (a_ticklen c) (a_tickplace c) (a_lplace c) (a_lformat c) (a_attach c) (a_loff c) (a_lpad c) (a_lrotate c) (a_lfont c) (a_lsize c) (a_lcolor c) (a_border c).
Definition set_a_toff (v : xr) (c : axis) : axis := mk_axis (a_align c) (a_enable c) (a_scale c) (a_title c) (a_tcolor c) v (a_tpad c) (a_tfont c) (a_tsize c) (a_trotate c) (a_tickoff c) (a_ticklen c) (a_tickplace c) (a_lplace c) (a_lformat c) (a_attach c) (a_loff c) (a_lpad c) (a_lrotate c) (a_lfont c) (a_lsize c) (a_lcolor c) (a_border c).
Definition set_a_tpad (v : xr) (c : axis) : axis := mk_axis (a_align c) (a_enable c) (a_scale c) (a_title c) (a_tcolor c) (a_toff c) v (a_tfont c) (a_tsize c) (a_trotate c) (a_tickoff c) (a_ticklen c) (a_tickplace c) (a_lplace c) (a_lformat c) (a_attach c) (a_loff c) (a_lpad c) (a_lrotate c) (a_lfont c) (a_lsize c) (a_lcolor c) (a_border c).
Definition set_a_tfont (v : font) (c : axis) : axis := mk_axis (a_align c) (a_enable c) (a_scale c) (a_title c) (a_tcolor c) (a_toff c) (a_tpad c) v (a_tsize c) (a_trotate c) (a_tickoff c) (a_ticklen c) (a_tickplace c) (a_lplace c) (a_lformat c) (a_attach c) (a_loff c) (a_lpad c) (a_lrotate c) (a_lfont c) (a_lsize c) (a_lcolor c) (a_border c).
Definition set_a_tsize (v : xr) (c : axis) : axis := mk_axis (a_align c) (a_enable c) (a_scale c) (a_title c) (a_tcolor c) (a_toff c) (a_tpad c) (a_tfont c) v (a_trotate c) (a_tickoff c) (a_ticklen c) (a_tickplace c) (a_lplace c) (a_lformat c) (a_attach c) (a_loff c) (a_lpad c) (a_lrotate c) (a_lfont c) (a_lsize c) (a_lcolor c) (a_border c).
Definition set_a_trotate (v : xr) (c : axis) : axis := mk_axis (a_align c) (a_enable c) (a_scale c) (a_title c) (a_tcolor c) (a_toff c) (a_tpad c) (a_tfont c) (a_tsize c) v (a_tickoff c) (a_ticklen c) (a_tickplace c) (a_lplace c) (a_lformat c) (a_attach c) (a_loff c) (a_lpad c) (a_lrotate c) (a_lfont c) (a_lsize c) (a_lcolor c) (a_border c).
Definition set_a_tickoff (v : xr) (c : axis) : axis := mk_axis (a_align c) (a_enable c) (a_scale c) (a_title c) (a_tcolor c) (a_toff c) (a_tpad c) (a_tfont c) (a_tsize c) (a_trotate c) v (a_ticklen c) (a_tickplace c) (a_lplace c) (a_lformat c) (a_attach c) (a_loff c) (a_lpad c) (a_lrotate c) (a_lfont c) (a_lsize c) (a_lcolor c) (a_border c).
Definition set_a_ticklen (v : xr) (c : axis) : axis := mk_axis (a_align c) (a_enable c) (a_scale c) (a_title c) (a_tcolor c) (a_toff c) (a_tpad c) (a_tfont c) (a_tsize c) (a_trotate c) (a_tickoff c) v (a_tickplace c) (a_lplace c) (a_lformat c) (a_attach c) (a_loff c) (a_lpad c) (a_lrotate c) (a_lfont c) (a_lsize c) (a_lcolor c) (a_border c).
Definition set_a_tickplace (v : option placement) (c : axis) : axis := mk_axis (a_align c) (a_enable c) (a_scale c) (a_title c) (a_tcolor c) (a_toff c) (a_tpad c) (a_tfont c) (a_tsize c) (a_trotate c) (a_tickoff c) (a_ticklen c) v (a_lplace c) (a_lformat c) (a_attach c) (a_loff c) (a_lpad c) (a_lrotate c) (a_lfont c) (a_lsize c) (a_lcolor c) (a_border c).
Definition set_a_lplace (v : option placement) (c : axis) : axis := mk_axis (a_align c) (a_enable c) (a_scale c) (a_title c) (a_tcolor c) (a_toff c) (a_tpad c) (a_tfont c) (a_tsize c) (a_trotate c) (a_tickoff c) (a_ticklen c) (a_tickplace c) v (a_lformat c) (a_attach c) (a_loff c) (a_lpad c) (a_lrotate c) (a_lfont c) (a_lsize c) (a_lcolor c) (a_border c).
Definition set_a_lformat (v : option formatter) (c : axis) : axis := mk_axis (a_align c) (a_enable c) (a_scale c) (a_title c) (a_tcolor c) (a_toff c) (a_tpad c) (a_tfont c) (a_tsize c) (a_trotate c) (a_tickoff c) (a_ticklen c) (a_tickplace c) (a_lplace c) v (a_attach c) (a_loff c) (a_lpad c) (a_lrotate c) (a_lfont c) (a_lsize c) (a_lcolor c) (a_border c).
Definition set_a_attach (v : axis_attach) (c : axis) : axis := mk_axis (a_align c) (a_enable c) (a_scale c) (a_title c) (a_tcolor c) (a_toff c) (a_tpad c) (a_tfont c) (a_tsize c) (a_trotate c) (a_tickoff c) (a_ticklen c) (a_tickplace c) (a_lplace c) (a_lformat c) v (a_loff c) (a_lpad c) (a_lrotate c) (a_lfont c) (a_lsize c) (a_lcolor c) (a_border c).
Definition set_a_loff (v : xr) (c : axis) : axis := mk_axis (a_align c) (a_enable c) (a_scale c) (a_title c) (a_tcolor c) (a_toff c) (a_tpad c) (a_tfont c) (a_tsize c) (a_trotate c) (a_tickoff c) (a_ticklen c) (a_tickplace c) (a_lplace c) (a_lformat c) (a_attach c) v (a_lpad c) (a_lrotate c) (a_lfont c) (a_lsize c) (a_lcolor c) (a_border c).
Definition set_a_lpad (v : xr) (c : axis) : axis := mk_axis (a_align c) (a_enable c) (a_scale c) (a_title c) (a_tcolor c) (a_toff c) (a_tpad c) (a_tfont c) (a_tsize c) (a_trotate c) (a_tickoff c) (a_ticklen c) (a_tickplace c) (a_lplace c) (a_lformat c) (a_attach c) (a_loff c) v (a_lrotate c) (a_lfont c) (a_lsize c) (a_lcolor c) (a_border c).
Definition set_a_lrotate (v : xr) (c : axis) : axis := mk_axis (a_align c) (a_enable c) (a_scale c) (a_title c) (a_tcolor c) (a_toff c) (a_tpad c) (a_tfont c) (a_tsize c) (a_trotate c) (a_tickoff c) (a_ticklen c) (a_tickplace c) (a_lplace c) (a_lformat c) (a_attach c) (a_loff c) (a_lpad c) v (a_lfont c) (a_lsize c) (a_lcolor c) (a_border c).
Definition set_a_lfont (v : font) (c : axis) : axis := mk_axis (a_align c) (a_enable c) (a_scale c) (a_title c) (a_tcolor c) (a_toff c) (a_tpad c) (a_tfont c) (a_tsize c) (a_trotate c) (a_tickoff c) (a_ticklen c) (a_tickplace c) (a_lplace c) (a_lformat c) (a_attach c) (a_loff c) (a_lpad c) (a_lrotate c) v (a_lsize c) (a_lcolor c) (a_border c).
Definition set_a_lsize (v : xr) (c : axis) : axis := mk_axis (a_align c) (a_enable c) (a_scale c) (a_title c) (a_tcolor c) (a_toff c) (a_tpad c) (a_tfont c) (a_tsize c) (a_trotate c) (a_tickoff c) (a_ticklen c) (a_tickplace c) (a_lplace c) (a_lformat c) (a_attach c) (a_loff c) (a_lpad c) (a_lrotate c) (a_lfont c) v (a_lcolor c) (a_border c).
Definition set_a_lcolor (v : color) (c : axis) : axis := mk_axis (a_align c) (a_enable c) (a_scale c) (a_title c) (a_tcolor c) (a_toff c) (a_tpad c) (a_tfont c) (a_tsize c) (a_trotate c) (a_tickoff c) (a_ticklen c) (a_tickplace c) (a_lplace c) (a_lformat c) (a_attach c) (a_loff c) (a_lpad c) (a_lrotate c) (a_lfont c) (a_lsize c) v (a_border c).
Definition set_a_border (v : stroke_style) (c : axis) : axis := mk_axis (a_align c) (a_enable c) (a_scale c) (a_title c) (a_tcolor c) (a_toff c) (a_tpad c) (a_tfont c) (a_tsize c) (a_trotate c) (a_tickoff c) (a_ticklen c) (a_tickplace c) (a_lplace c) (a_lformat c) (a_attach c) (a_loff c) (a_lpad c) (a_lrotate c) (a_lfont c) (a_lsize c) (a_lcolor c) v.

Section Axis.
  Variable W : world.
  Variable E : env.
  Notation d := (w_d W).
  Notation pt := (pt W E).
  Notation rd_color := (rd_color W E).
  Notation rd_size := (rd_size W E).
  Notation k := (k W).
  Notation half_ := (half_ W).

  (** Calling a ScaleLayoutFn (Scale_Model.run_placement) with a Formatter. A formatter fails
      only by a conversion to integer that is undefined. *)
  Definition placed (p : placement) (s : scale) (fm : formatter) : outcome layout :=
    let go fmt := run_placement d (w_f W) (w_show W) fmt (w_fuel W) p s empty_layout in
    let* failed := go (fun i v => match fm i v with Ret _ => [] | _ => s_ "!" end) in
    if existsb (fun l => match l with [] => false | _ => true end) (labels failed) then UB
    else go (fun i v => match fm i v with Ret t => t | _ => [] end).
  (** Calling an empty std::function throws. *)
  Definition call_placement (p : option placement) (s : scale) (fm : option formatter) : outcome layout :=
    match p, fm with Some p, Some fm => placed p s fm | _, _ => Throw end.
  Definition ticks_of (l : layout) : list (xr * str) := combine (positions l) (labels l).

  Definition is_horizontal (a : axis_align) : bool :=
    match a with AX | ATop | ABottom => true | AY | ALeft | ARight => false end.
  Definition rotated (b : rectangle) (r : xr) : rectangle :=
    if xeq r (Fin 0) then b else box_rotate_bounds d b r.

  (** axis_layout_labels, axis.cc:99-150: what is added to the margin. *)
  Fixpoint label_extent (a : axis) (ts : list (xr * str)) (m : xr) : outcome xr :=
    match ts with
    | [] => Ret m
    | (_, t) :: r =>
        let* b := w_measure W (a_lfont a) (a_lsize a) (dpi E) t in
        let b := rotated b (a_lrotate a) in
        label_extent a r (xmax m (if is_horizontal (a_align a) then rh b else rw b))
    end.
  Definition axis_layout_labels (a : axis) : outcome xr :=
    let* l := call_placement (a_lplace a) (a_scale a) (a_lformat a) in
    label_extent a (ticks_of l) (Fin 0).
  (** axis_layout_title, axis.cc:152-187: on a centred x axis the width is added. *)
  Definition axis_layout_title (a : axis) : outcome xr :=
    let* b := w_measure W (a_tfont a) (a_tsize a) (dpi E) (a_title a) in
    let b := rotated b (a_trotate a) in
    Ret match a_align a with AX | ALeft | ARight => rw b | AY | ATop | ABottom => rh b end.
  (** from_em(v, size) and measure_or. *)
  Definition em_or (m : xr) (v : R) (size : xr) : xr :=
    nonzero_or m (m_value (from_em_size d (k v) size)).
  Definition label_pad (a : axis) : xr := em_or (a_lpad a) (8 / 10) (a_lsize a).
  Definition title_pad (a : axis) (horizontal : bool) : xr :=
    em_or (a_tpad a) (if horizontal then 8 / 10 else 6 / 10) (a_tsize a).
  (** axis_layout, axis.cc:189-230. The caller ignores its ReturnCode, so an error leaves what
      has been added so far. *)
  Definition or_keep (o : outcome xr) (m : xr) (next : xr -> outcome xr) : outcome xr :=
    match o with Ret v => next v | Err => Ret m | Throw => Throw | UB => UB | Diverge => Diverge end.
  Definition axis_layout (a : axis) : outcome xr :=
    let m := xadd d (Fin 0) (label_pad a) in
    or_keep (axis_layout_labels a) m (fun v =>
      let m := xadd d m v in
      match a_title a with
      | [] => Ret m
      | _ => let m := xadd d m (title_pad a (is_horizontal (a_align a))) in
             or_keep (axis_layout_title a) m (fun t => Ret (xadd d m t))
      end).

  (** std::clamp(v, -1.0, 1.0). *)
  Definition clamp11 (v : xr) : xr :=
    if xlt v (Fin (-1)) then Fin (-1) else if xlt (Fin 1) v then Fin 1 else v.
  Definition attach_align (t : axis_attach) : halign * valign :=
    match t with
    | TLeft => (HLeft, VCenter) | TTop => (HCenter, VTop)
    | TBottom => (HCenter, VBottom) | TRight => (HRight, VCenter)
    end.
  (** plot_axis_vertical and plot_axis_horizontal, axis.cc:232-511: [at_] is the position of the
      axis across, [c0] and [c1] its ends along; [horizontal] says which of the two is y. *)
  Definition xy (horizontal : bool) (along across : xr) : vec2 :=
    if horizontal then mk_vec2 along across else mk_vec2 across along.
  Definition along (c0 c1 t : xr) : xr := xadd d c0 (xmul d (xsub d c1 c0) t).
  Definition draw_axis (horizontal : bool) (a : axis) (across c0 c1 : xr) : outcome (list draw_command) :=
    let P := xy horizontal in
    let line := draw_line_ (P c0 across) (P c1 across) (a_border a) in
    let* ticks := call_placement (a_tickplace a) (a_scale a) (a_lformat a) in
    let len := nonzero_or (a_ticklen a) (m_value (from_pt_dpi d (Fin 4) (dpi E))) in
    let tk t :=
      let q := xadd d (xsub d across len)
                 (xdiv d (xmul d len (xadd d (clamp11 (a_tickoff a)) (Fin 1))) (Fin 2)) in
      draw_line_ (P (along c0 c1 t) q) (P (along c0 c1 t) (xadd d q len)) (a_border a) in
    let* lab := call_placement (a_lplace a) (a_scale a) (a_lformat a) in
    let lpos := clamp11 (a_loff a) in
    let lpad := label_pad a in
    let* lsize := axis_layout_labels a in
    let '(ax, ay) := attach_align (a_attach a) in
    let* texts := draw_each (fun it =>
                    draw_text_ W E (a_lfont a) (a_lsize a) (a_lcolor a) (snd it)
                      (P (along c0 c1 (fst it)) (xadd d across (xmul d lpad lpos))) ax ay (a_lrotate a))
                  (ticks_of lab) in
    let* title :=
      match a_title a with
      | [] => Ret []
      | t =>
          let tpos := clamp11 (a_toff a) in
          let tpad := title_pad a horizontal in
          let tpad := if Bool.eqb (xlt tpos (Fin 0)) (xlt lpos (Fin 0))
                      then xadd d tpad (xadd d lsize lpad) else tpad in
          let* tsize := axis_layout_title a in
          draw_text_ W E (a_tfont a) (a_tsize a) (a_tcolor a) t
            (P (along c0 c1 (Fin (1 / 2)))
               (xadd d across (xmul d (xadd d tpad (half_ tsize)) tpos)))
            HCenter VCenter (a_trotate a)
      end in
    Ret (line ++ flat_map tk (positions ticks) ++ texts ++ title).
  (** plot_axis(ctx, plot, config), axis.cc:532-598. *)
  Definition draw_aligned (p : plot) (a : axis) : outcome (list draw_command) :=
    let b := plot_clip W E p in
    let x1 := xadd d (rx b) (rw b) in
    let y1 := xadd d (ry b) (rh b) in
    match a_align a with
    | AX => draw_axis true a (xadd d (ry b) (half_ (rh b))) (rx b) x1
    | ATop => draw_axis true a y1 (rx b) x1
    | ABottom => draw_axis true a (ry b) (rx b) x1
    | AY => draw_axis false a (xadd d (rx b) (half_ (rw b))) (ry b) y1
    | ALeft => draw_axis false a (rx b) (ry b) y1
    | ARight => draw_axis false a x1 (ry b) y1
    end.
  (** axis_set_defaults, axis.cc:513-530. *)
  Definition axis_set_defaults (a : axis) : axis :=
    let '(lab, tick) := layout_defaults (a_scale a) (Some (a_lplace a)) (Some (a_tickplace a)) in
    let get (o : option (option placement)) := match o with Some p => p | None => None end in
    let fm := match a_lformat a with
              | Some fm => fm
              | None => match s_kind (a_scale a) with
                        | Categorical => format_noop
                        | _ => format_fixed (stod_val W) 1
                        end
              end in
    set_a_lformat (Some fm) (set_a_tickplace (get tick) (set_a_lplace (get lab) a)).

  (* ---------------- the commands ---------------- *)
  (** expr_to_stroke_style, /repo/src/sexpr_conv.cc:205-214: everything but none is ignored. *)
  Definition border_style_read (e : list expr) (s : stroke_style) : outcome stroke_style :=
    Ret (if is_word e "none" then ss_with_width (Fin 0) s else s).
  Definition align_enum : list (str * axis_align) :=
    [(s_ "x", AX); (s_ "y", AY); (s_ "top", ATop); (s_ "right", ARight); (s_ "bottom", ABottom); (s_ "left", ALeft)].
  Definition attach_enum : list (str * axis_attach) :=
    [(s_ "top", TTop); (s_ "right", TRight); (s_ "bottom", TBottom); (s_ "left", TLeft)].
  (** The defaults that depend on the side, axis.cc:634-675 and 798-853: label_attach,
      title_offset, title_rotate, tick_offset, label_offset. *)
  Definition side_defaults (g : axis_align) : axis_attach * xr * xr * xr * xr :=
    match g with
    | AX => (TTop, Fin (-1), Fin 0, Fin 0, Fin (-1))
    | ATop => (TBottom, Fin 1, Fin 0, Fin (-1), Fin 1)
    | ABottom => (TTop, Fin (-1), Fin 0, Fin 1, Fin (-1))
    | AY => (TRight, Fin 1, Fin (-90), Fin (-1), Fin 1)
    | ALeft => (TRight, Fin (-1), Fin (-90), Fin 1, Fin (-1))
    | ARight => (TLeft, Fin 1, Fin (-90), Fin (-1), Fin 1)
    end.
  (** A new axis on a side, with the layer's font and colours. *)
  Definition axis0 (g : axis_align) (s : scale) : axis :=
    let '(att, toff, trot, koff, loff) := side_defaults g in
    mk_axis g true s [] (e_text_color E) toff (Fin 0) (e_font E) (page_font_size W E) trot
      koff (Fin 0) None None None att loff (Fin 0) (Fin 0) (e_font E) (page_font_size W E) (e_text_color E)
      (stroke_with (pt 1) (e_fg E)).

  (** Readers into one axis. *)
  Definition c_scale : cmd axis := updf a_scale (rd_kind W) set_a_scale.
  Definition c_limit : cmd axis := updf a_scale (rd_limits W) set_a_scale.
  Definition c_limit_min : cmd axis := updf a_scale (fun e s => let* v := rd_float W e in Ret (with_min v s)) set_a_scale.
  Definition c_limit_max : cmd axis := updf a_scale (fun e s => let* v := rd_float W e in Ret (with_max v s)) set_a_scale.
  Definition rd_place (e : list expr) : outcome (option placement) :=
    let* p := configure_layout (w_stod W) e in Ret (Some p).
  Definition rd_format (e : list expr) : outcome (option formatter) :=
    let* p := format_configure d (stod_val W) (w_strftime W) (w_read_file W) e in Ret (Some p).
  Definition c_lfont : cmd axis := updf a_lfont (rd_font W) set_a_lfont.
  Definition c_tfont : cmd axis := updf a_tfont (rd_font W) set_a_tfont.
  Definition c_lplace : cmd axis := upd rd_place set_a_lplace.
  Definition c_tickplace : cmd axis := upd rd_place set_a_tickplace.
  Definition c_lformat : cmd axis := upd rd_format set_a_lformat.
  Definition c_attach : cmd axis := upd (expr_to_enum attach_enum) set_a_attach.
  Definition c_loff : cmd axis := upd (rd_float W) set_a_loff.
  Definition c_lpad : cmd axis := upd (rd_measure W) set_a_lpad.
  Definition c_lrotate : cmd axis := upd (rd_float W) set_a_lrotate.
  Definition c_lsize : cmd axis := upd (rd_font_size W E) set_a_lsize.
  Definition c_lcolor : cmd axis := updf a_lcolor rd_color set_a_lcolor.
  Definition c_tickoff : cmd axis := upd (rd_float W) set_a_tickoff.
  Definition c_ticklen : cmd axis := upd (rd_measure W) set_a_ticklen.
  Definition c_title : cmd axis := upd expr_to_string set_a_title.
  Definition c_tsize : cmd axis := upd (rd_font_size W E) set_a_tsize.
  Definition c_tcolor : cmd axis := updf a_tcolor rd_color set_a_tcolor.
  Definition c_toff : cmd axis := upd (rd_float W) set_a_toff.
  Definition c_tpad : cmd axis := upd (rd_measure W) set_a_tpad.
  Definition c_trotate : cmd axis := upd (rd_float W) set_a_trotate.
  Definition c_bwidth : cmd axis := upd rd_size (fun v a => set_a_border (ss_with_width v (a_border a)) a).
  Definition c_bcolor : cmd axis :=
    updf (fun a => s_color (a_border a)) rd_color (fun v a => set_a_border (ss_with_color v (a_border a)) a).
  Definition c_bstyle : cmd axis := updf a_border border_style_read set_a_border.

  (** plot_axis(ctx, plot, expr), axis.cc:600-749. Both walks are not strict. The scale is a new
      ScaleConfig, not the plot's. *)
  Definition axis_table : list (str * cmd axis) :=
    [(s_ "scale", c_scale); (s_ "limit", c_limit); (s_ "limit-min", c_limit_min); (s_ "limit-max", c_limit_max);
     (s_ "label-font", c_lfont); (s_ "label-placement", c_lplace); (s_ "label-format", c_lformat);
     (s_ "label-attach", c_attach); (s_ "label-offset", c_loff); (s_ "label-padding", c_lpad);
     (s_ "label-rotate", c_lrotate); (s_ "label-font-size", c_lsize); (s_ "label-color", c_lcolor);
     (s_ "tick-placement", c_tickplace); (s_ "tick-offset", c_tickoff); (s_ "tick-length", c_ticklen);
     (s_ "title", c_title); (s_ "title-font", c_tfont); (s_ "title-font-size", c_tsize);
     (s_ "title-color", c_tcolor); (s_ "title-offset", c_toff); (s_ "title-padding", c_tpad);
     (s_ "title-rotate", c_trotate);
     (s_ "border-width", c_bwidth); (s_ "border-color", c_bcolor); (s_ "border-style", c_bstyle);
     (s_ "font", call_each [c_lfont; c_tfont]); (s_ "font-size", call_each [c_lsize; c_tsize])].
  Definition axis_configure (e : list expr) : outcome axis :=
    match e with
    | [] => Throw    (* expr_get_value(nullptr) *)
    | _ =>
        let* (g, _) := run_collect [(s_ "align", upd (expr_to_enum align_enum) (fun v _ => v))] e AX in
        let* (a, _) := run_collect axis_table e (axis0 g scale0) in
        Ret a
    end.
  Definition plot_axis (p : plot) (e : list expr) : outcome (list draw_command) :=
    let* a := axis_configure e in draw_aligned p (axis_set_defaults a).

  (** plot_axes, axis.cc:786-1287: the four axes (top, right, bottom, left) and the margins. *)
  Record axes_cfg := mk_axes { x_axes : list axis; x_margins : xr * xr * xr * xr }.
  Fixpoint set_nth {A} (i : nat) (v : A) (l : list A) : list A :=
    match l, i with
    | [], _ => []
    | _ :: r, O => v :: r
    | a :: r, S i => a :: set_nth i v r
    end.
  (** The command for the axis [i]. *)
  Definition on (i : nat) (c : cmd axis) : cmd axes_cfg := fun e s =>
    match nth_error (x_axes s) i with
    | Some a => let* a' := c e a in Ret (mk_axes (set_nth i a' (x_axes s)) (x_margins s))
    | None => UB
    end.
  Definition on_all (is : list nat) (cs : list (cmd axis)) : cmd axes_cfg :=
    call_each (flat_map (fun c => map (fun i => on i c) is) cs).
  Definition xs_ : list nat := [0; 2]%nat.
  Definition ys_ : list nat := [1; 3]%nat.
  Definition all4 : list nat := [0; 1; 2; 3]%nat.
  (** Entries name-top, name-right, name-bottom, name-left and name-x, name-y. *)
  Definition sides (name : string) (c : cmd axis) : list (str * cmd axes_cfg) :=
    [(s_ name ++ s_ "-top", on 0 c); (s_ name ++ s_ "-right", on 1 c);
     (s_ name ++ s_ "-bottom", on 2 c); (s_ name ++ s_ "-left", on 3 c)].
  Definition dims (name : string) (c : cmd axis) : list (str * cmd axes_cfg) :=
    [(s_ name ++ s_ "-x", on_all xs_ [c]); (s_ name ++ s_ "-y", on_all ys_ [c])].
  Definition every (name : string) (c : cmd axis) : list (str * cmd axes_cfg) := [(s_ name, on_all all4 [c])].
  (** axis_configure_position, axis.cc:751-784. *)
  Definition side_index (e : expr) : option nat :=
    if is_word [e] "top" then Some 0%nat else if is_word [e] "bottom" then Some 2%nat
    else if is_word [e] "left" then Some 3%nat else if is_word [e] "right" then Some 1%nat else None.
  Fixpoint enable_sides (l : list expr) (axes : list axis) : outcome (list axis) :=
    match l with
    | [] => Ret axes
    | e :: r =>
        match side_index e with
        | Some i => match nth_error axes i with
                    | Some a => enable_sides r (set_nth i (set_a_enable true a) axes)
                    | None => UB
                    end
        | None => Err
        end
    end.
  Definition c_position : cmd axes_cfg := fun e s =>
    let* axes := enable_sides e (map (set_a_enable false) (x_axes s)) in Ret (mk_axes axes (x_margins s)).
  Definition m_top (v : xr) (m : xr * xr * xr * xr) := let '(t, r, b, l) := m in (v, r, b, l).
  Definition m_right (v : xr) (m : xr * xr * xr * xr) := let '(t, r, b, l) := m in (t, v, b, l).
  Definition m_bottom (v : xr) (m : xr * xr * xr * xr) := let '(t, r, b, l) := m in (t, r, v, l).
  Definition m_left (v : xr) (m : xr * xr * xr * xr) := let '(t, r, b, l) := m in (t, r, b, v).
  (** margin, margin-top ... of axes and of the plot. *)
  Definition margin_entries {S} (get : S -> xr * xr * xr * xr) (put : xr * xr * xr * xr -> S -> S) : list (str * cmd S) :=
    let one st := upd rd_size (fun v s => put (st v (get s)) s) in
    [(s_ "margin", call_each [one m_top; one m_right; one m_bottom; one m_left]);
     (s_ "margin-top", one m_top); (s_ "margin-right", one m_right);
     (s_ "margin-bottom", one m_bottom); (s_ "margin-left", one m_left)].
  (** The table, axis.cc:855-1247; label-placement-x and -y occur twice there, the second time
      meant for the ticks. *)
  Definition axes_table : list (str * cmd axes_cfg) :=
    [(s_ "position", c_position)] ++
    dims "scale" c_scale ++ sides "scale" c_scale ++ dims "limit" c_limit ++ sides "limit" c_limit ++
    dims "label-placement" c_lplace ++ sides "label-placement" c_lplace ++
    every "label-format" c_lformat ++ dims "label-format" c_lformat ++
    sides "label-attach" c_attach ++ sides "label-offset" c_loff ++ sides "label-padding" c_lpad ++
    sides "label-rotate" c_lrotate ++ sides "label-format" c_lformat ++
    every "label-font-size" c_lsize ++ every "label-color" c_lcolor ++ dims "label-color" c_lcolor ++
    sides "label-color" c_lcolor ++ every "label-font" c_lfont ++ sides "label-font" c_lfont ++
    dims "label-font-size" c_lsize ++ sides "label-font-size" c_lsize ++
    dims "label-placement" c_tickplace ++ sides "tick-placement" c_tickplace ++
    sides "tick-offset" c_tickoff ++ sides "tick-length" c_ticklen ++
    dims "title" c_title ++ sides "title" c_title ++ every "title-font" c_tfont ++ sides "title-font" c_tfont ++
    every "title-font-size" c_tsize ++ sides "title-font-size" c_tsize ++
    every "title-color" c_tcolor ++ sides "title-color" c_tcolor ++ sides "title-offset" c_toff ++
    sides "title-padding" c_tpad ++ sides "title-rotate" c_trotate ++
    margin_entries x_margins (fun m s => mk_axes (x_axes s) m) ++
    every "border-width" c_bwidth ++ sides "border-width" c_bwidth ++
    every "border-color" c_bcolor ++ sides "border-color" c_bcolor ++
    every "border-style" c_bstyle ++ sides "border-style" c_bstyle ++
    [(s_ "font", on_all all4 [c_lfont; c_tfont]); (s_ "font-size", on_all all4 [c_tsize; c_lsize])].
  Definition em1 : xr := unit_from_em d (Fin 1) (page_font_size W E).
  Definition axes0 (p : plot) : axes_cfg :=
    mk_axes [axis0 ATop (p_sx p); axis0 ARight (p_sy p); axis0 ABottom (p_sx p); axis0 ALeft (p_sy p)]
      (em1, em1, em1, em1).
  (** The paddings: 0 for an axis that is not enabled. *)
  Definition axis_padding (a : axis) : outcome xr :=
    if a_enable a then axis_layout (axis_set_defaults a) else Ret (Fin 0).
  Definition axes_box (p : plot) (m : xr * xr * xr * xr) (pads : list xr) : rectangle :=
    let '(t, r, b, l) := m in
    let pad i := nth i pads (Fin 0) in
    layout_margin_box d (plot_clip W E p) (xadd d t (pad 0%nat)) (xadd d r (pad 1%nat)) (xadd d b (pad 2%nat)) (xadd d l (pad 3%nat)).
  Definition plot_axes (p : plot) (e : list expr) : outcome (plot * list draw_command) :=
    let* c := run axes_table e (axes0 p) in
    let* pads := forM axis_padding (x_axes c) in
    let p1 := mk_plot (p_sx p) (p_sy p) (p_margins p) (axes_box p (x_margins c) pads :: p_stack p) in
    let* out := draw_each (fun a => if a_enable a then draw_aligned p1 (axis_set_defaults a) else Ret []) (x_axes c) in
    Ret (p1, out).

  (* ---------------- grid.cc ---------------- *)
  (** GridlineDefinition and plot_grid(ctx, plot, expr), grid.cc:39-45,83-121. *)
  Record grid_cfg := mk_grid {
    gr_sx : scale; gr_sy : scale; gr_lx : option placement; gr_ly : option placement; gr_stroke : stroke_style }.
  Definition set_gr_sx v c := mk_grid v (gr_sy c) (gr_lx c) (gr_ly c) (gr_stroke c).
  Definition set_gr_sy v c := mk_grid (gr_sx c) v (gr_lx c) (gr_ly c) (gr_stroke c).
  Definition set_gr_lx v c := mk_grid (gr_sx c) (gr_sy c) v (gr_ly c) (gr_stroke c).
  Definition set_gr_ly v c := mk_grid (gr_sx c) (gr_sy c) (gr_lx c) v (gr_stroke c).
  Definition set_gr_stroke v c := mk_grid (gr_sx c) (gr_sy c) (gr_lx c) (gr_ly c) v.
  Definition grid_table : list (str * cmd grid_cfg) :=
    let color := updf (fun c => s_color (gr_stroke c)) rd_color (fun v c => set_gr_stroke (ss_with_color v (gr_stroke c)) c) in
    scale_entries W gr_sx gr_sy set_gr_sx set_gr_sy ++
    [(s_ "tick-placement-x", upd rd_place set_gr_lx); (s_ "tick-placement-y", upd rd_place set_gr_ly);
     (s_ "color", color); (s_ "stroke-color", color);
     (s_ "stroke-width", upd rd_size (fun v c => set_gr_stroke (ss_with_width v (gr_stroke c)) c));
     (s_ "stroke-style", updf gr_stroke (stroke_style_read W E) set_gr_stroke)].
  Definition grid0 (p : plot) : grid_cfg :=
    let g := k (9 / 10) in
    mk_grid (p_sx p) (p_sy p) None None (stroke_with (pt 1) (from_rgb g g g)).
  Definition grid_default (s : scale) (l : option placement) : option placement :=
    match snd (layout_defaults s None (Some l)) with Some p => p | None => None end.
  (** plot_grid(ctx, plot, config), grid.cc:47-81. *)
  Definition grid_lines (b : rectangle) (st : stroke_style) (tx ty : list xr) : list draw_command :=
    flat_map (fun t => let x := xadd d (rx b) (xmul d (rw b) t) in
                       draw_line_ (mk_vec2 x (ry b)) (mk_vec2 x (xadd d (ry b) (rh b))) st) tx ++
    flat_map (fun t => let y := xadd d (ry b) (xmul d (rh b) (xsub d (Fin 1) t)) in
                       draw_line_ (mk_vec2 (rx b) y) (mk_vec2 (xadd d (rx b) (rw b)) y) st) ty.
  Definition plot_grid (p : plot) (e : list expr) : outcome (list draw_command) :=
    let* c := run grid_table e (grid0 p) in
    let* lx := call_placement (grid_default (gr_sx c) (gr_lx c)) (gr_sx c) (Some format_noop) in
    let* ly := call_placement (grid_default (gr_sy c) (gr_ly c)) (gr_sy c) (Some format_noop) in
    Ret (grid_lines (plot_clip W E p) (gr_stroke c) (positions lx) (positions ly)).
End Axis.
