(** What an axis looks like, in numbers (C97). Lengths are in px. *)
From Coq Require Import Reals.
From Verif Require Import Base Num Sexpr_Model Dispatch_Model Data_Model Scale_Model Units_Model Color_Model
  Geo_Model Svg_Model Format_Model Cmd_Model Cmd_Spec Style_Model Plot_Model Plot_Spec Axis_Model Axis_Spec.
Local Open Scope R_scope.

(** The last of the options with one of these names. *)
Fixpoint last_of (names : list str) (e : list expr) : option (list expr) :=
  match e with
  | [] => None
  | x :: r =>
      match last_of names r with
      | Some a => Some a
      | None => match option_of x with
                | Some (n, a) => if existsb (str_eqb n) names then Some a else None
                | None => None
                end
      end
  end.
(** The value [v] that the last of these options gives, or else the default. *)
Definition set_by {T} (names : list str) (read : list expr -> outcome T) (e : list expr) (dflt v : T) : Prop :=
  match last_of names e with Some a => read a = Ret v | None => v = dflt end.
(** The same for options that change the value they find (colours and fonts). *)
Definition changed_by {T} (names : list str) (read : list expr -> T -> outcome T) (e : list expr) (dflt v : T) : Prop :=
  options (map (fun n => (n, read)) names) e dflt = Ret v.

(** The four sides: the direction away from the plot area (y grows upwards) and into it, the edge
    of a label that faces it. *)
Definition outwards (g : axis_align) : R := match g with ATop | ARight => 1 | _ => -1 end.
Definition inwards (g : axis_align) : R := match g with ATop | ARight => -1 | _ => 1 end.
Definition facing (g : axis_align) : axis_attach :=
  match g with ATop => TBottom | ARight => TLeft | ALeft => TRight | _ => TTop end.
Definition upright (g : axis_align) : bool := match g with AY | ALeft | ARight => true | _ => false end.

(** Which point of the text is put at its position. *)
Definition anchor_of (t : axis_attach) : halign * valign :=
  match t with TLeft => (HLeft, VCenter) | TRight => (HRight, VCenter) | TTop => (HCenter, VTop) | TBottom => (HCenter, VBottom) end.
Definition attach_words : list (str * axis_attach) :=
  [(s_ "top", TTop); (s_ "right", TRight); (s_ "bottom", TBottom); (s_ "left", TLeft)].
Definition side_words : list (str * axis_align) :=
  [(s_ "x", AX); (s_ "y", AY); (s_ "top", ATop); (s_ "right", ARight); (s_ "bottom", ABottom); (s_ "left", ALeft)].

(** Offsets are cut to the range from -1 to 1. *)
Definition cut (v : R) : R := Rmax (-1) (Rmin 1 v).
(** A length, or the default if it is zero (not given). *)
Definition length_or (m : xr) (dflt r : R) : Prop := (m = Fin 0 /\ r = dflt) \/ (m = Fin r /\ r <> 0).
(** The width and height of a text, turned by [rot] degrees. *)
Definition text_size (W : world) (E : env) (fnt : font) (size : xr) (rot : R) (t : str) (wh : R * R) : Prop :=
  exists x y w h, w_measure W fnt size (dpi E) t = Ret (rect x y w h) /\ 0 <= w /\ 0 <= h /\
    let c := Rabs (cos (rot * PI / 180)) in let s := Rabs (sin (rot * PI / 180)) in
    wh = (c * w + s * h, c * h + s * w).
(** Its extent across the axis: for the axes at the top and the bottom the height, else the width. *)
Definition across (g : axis_align) (wh : R * R) : R := if upright g then fst wh else snd wh.
Definition largest (l : list R) (m : R) : Prop := In m (0 :: l) /\ Forall (fun v => v <= m) (0 :: l).

(** The settings of an axis as numbers. *)
Record axis_look := mk_look {
  k_tick : R;          (* length of a tick *)
  k_tickoff : R; k_loff : R; k_toff : R;   (* offsets as given *)
  k_lpad : R; k_tpad : R;                  (* distances of labels and title *)
  k_labels : R;        (* the largest extent of a label *)
  k_title : R }.       (* the extent of the title *)
Definition looks (W : world) (E : env) (a : axis) (labs : list str) (k : axis_look) : Prop :=
  (exists dp, dpi E = Fin dp /\ length_or (a_ticklen a) (4 / 72 * dp) (k_tick k)) /\
  a_tickoff a = Fin (k_tickoff k) /\ a_loff a = Fin (k_loff k) /\ a_toff a = Fin (k_toff k) /\
  (exists em, a_lsize a = Fin em /\ length_or (a_lpad a) (8 / 10 * em) (k_lpad k)) /\
  (exists em, a_tsize a = Fin em /\ length_or (a_tpad a) ((if upright (a_align a) then 6 / 10 else 8 / 10) * em) (k_tpad k)) /\
  (exists rot sizes, a_lrotate a = Fin rot /\ Forall2 (text_size W E (a_lfont a) (a_lsize a) rot) labs sizes /\
     largest (map (across (a_align a)) sizes) (k_labels k)) /\
  (a_title a <> [] -> exists rot wh, a_trotate a = Fin rot /\
     text_size W E (a_tfont a) (a_tsize a) rot (a_title a) wh /\ k_title k = across (a_align a) wh).
(** The space beside the plot area. *)
Definition space (a : axis) (k : axis_look) : R :=
  k_lpad k + k_labels k + match a_title a with [] => 0 | _ => k_tpad k + k_title k end.
(** How far the middle of the title is from the axis: behind the labels if these are on the same
    side. *)
Definition title_distance (k : axis_look) (dist : R) : Prop :=
  let behind := cut (k_toff k) < 0 <-> cut (k_loff k) < 0 in
  (behind -> dist = k_lpad k + k_labels k + k_tpad k + k_title k / 2) /\
  (~ behind -> dist = k_tpad k + k_title k / 2).
(** The drawing, on the plot area x0 y0 w h: the line, the ticks at the positions [ts], the labels
    [ls] with their positions, the title. *)
Definition axis_drawn (W : world) (E : env) (x0 y0 w h : R) (a : axis) (k : axis_look) (ts : list R) (ls : list (R * str)) (out : list draw_command) : Prop :=
  let at_ := on_axis (a_align a) x0 y0 w h in
  exists texts title,
    out = stroke_line (at_ 0 0) (at_ 1 0) (a_border a) ::
          map (fun t => stroke_line (at_ t (k_tick k * (cut (k_tickoff k) - 1) / 2)) (at_ t (k_tick k * (cut (k_tickoff k) + 1) / 2)) (a_border a)) ts ++
          concat texts ++ title /\
    Forall2 (fun tl part => let (hx, vy) := anchor_of (a_attach a) in
       draw_text_ W E (a_lfont a) (a_lsize a) (a_lcolor a) (snd tl) (at_ (fst tl) (k_lpad k * cut (k_loff k))) hx vy (a_lrotate a) = Ret part) ls texts /\
    match a_title a with
    | [] => title = []
    | t => exists dist, title_distance k dist /\
             draw_text_ W E (a_tfont a) (a_tsize a) (a_tcolor a) t (at_ (1 / 2) (dist * cut (k_toff k))) HCenter VCenter (a_trotate a) = Ret title
    end.

(** The settings of an axis, each from its own options; [of n] are the names of the options for
    the setting n. *)
Definition axis_set (W : world) (E : env) (of : str -> list str) (g : axis_align) (e : list expr) (a : axis)
    (loff toff tickoff trot : R) (att : axis_attach) : Prop :=
  a_align a = g /\
  set_by (of (s_ "title")) expr_to_string e [] (a_title a) /\
  changed_by (of (s_ "title-color")) (rd_color W E) e (e_text_color E) (a_tcolor a) /\
  changed_by (of (s_ "label-color")) (rd_color W E) e (e_text_color E) (a_lcolor a) /\
  changed_by (of (s_ "title-font") ++ [s_ "font"]) (rd_font W) e (e_font E) (a_tfont a) /\
  changed_by (of (s_ "label-font") ++ [s_ "font"]) (rd_font W) e (e_font E) (a_lfont a) /\
  set_by (of (s_ "title-font-size") ++ [s_ "font-size"]) (rd_font_size W E) e (page_font_size W E) (a_tsize a) /\
  set_by (of (s_ "label-font-size") ++ [s_ "font-size"]) (rd_font_size W E) e (page_font_size W E) (a_lsize a) /\
  set_by (of (s_ "title-offset")) (rd_float W) e (Fin toff) (a_toff a) /\
  set_by (of (s_ "label-offset")) (rd_float W) e (Fin loff) (a_loff a) /\
  set_by (of (s_ "tick-offset")) (rd_float W) e (Fin tickoff) (a_tickoff a) /\
  set_by (of (s_ "title-rotate")) (rd_float W) e (Fin trot) (a_trotate a) /\
  set_by (of (s_ "label-rotate")) (rd_float W) e (Fin 0) (a_lrotate a) /\
  set_by (of (s_ "title-padding")) (rd_measure W) e (Fin 0) (a_tpad a) /\
  set_by (of (s_ "label-padding")) (rd_measure W) e (Fin 0) (a_lpad a) /\
  set_by (of (s_ "tick-length")) (rd_measure W) e (Fin 0) (a_ticklen a) /\
  set_by (of (s_ "label-attach")) (expr_to_enum attach_words) e att (a_attach a) /\
  set_by (of (s_ "label-placement")) (fun x => let* p := configure_layout (w_stod W) x in Ret (Some p)) e None (a_lplace a) /\
  set_by (of (s_ "tick-placement")) (fun x => let* p := configure_layout (w_stod W) x in Ret (Some p)) e None (a_tickplace a) /\
  set_by (of (s_ "label-format")) (fun x => let* p := format_configure (w_d W) (stod_val W) (w_strftime W) (w_read_file W) x in Ret (Some p)) e None (a_lformat a) /\
  changed_by (of (s_ "border-color")) (rd_color W E) e (e_fg E) (s_color (a_border a)) /\
  options (map (fun n => (n, fun x _ => rd_size W E x)) (of (s_ "border-width")) ++
           map (fun n => (n, fun x w => Ret (if is_word x "none" then Fin 0 else w))) (of (s_ "border-style"))) e
    (pt W E 1) = Ret (s_width (a_border a)).
(** The names of the options of axes for the side [g], and of axis. *)
Definition names_at (g : axis_align) (n : str) : list str :=
  [n; n ++ s_ "-" ++ s_ (dim_name g); n ++ s_ "-" ++ s_ (side_name g)].
Definition name_only (n : str) : list str := [n].
