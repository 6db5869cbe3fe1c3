(** Model of /repo/src/figure/legend.cc and of the geometry in legend_item.cc. [d] rounds
    double arithmetic. The size of a label's text is an input (text_measure_label). *)
From Verif Require Import Base Num Sexpr_Model Geo_Model.
Local Open Scope R_scope.

Section Legend.
  Variable d : R -> R.
  Notation add := (xadd d).
  Notation sub := (xsub d).

  (** legend_item_calculate_size, /repo/src/figure/legend_item.cc:34-64: width and height, from
      0, the measured label and the label's margin. *)
  Definition item_size (label_w label_h margin : xr) : xr * xr :=
    (add (add (Fin 0) label_w) margin, add (Fin 0) label_h).

  (** legend_layout_item_rows, legend.cc:54-100: the extent and the boxes (y counts downwards).
      [p_width] and [p_height] are not used there. *)
  Fixpoint rows_ (pad : xr) (items : list (xr * xr)) (mw mh : xr) : xr * xr * list rectangle :=
    match items with
    | [] => (mw, mh, [])
    | (w, h) :: r =>
        let mh := if xlt (Fin 0) mh then add mh pad else mh in
        let '(fw, fh, b) := rows_ pad r (xmax mw w) (add mh h) in
        (fw, fh, mk_rect (Fin 0) mh w h :: b)
    end.
  Definition layout_rows (row_pad : xr) (items : list (xr * xr)) := rows_ row_pad items (Fin 0) (Fin 0).

  (** legend_layout_item_flow, legend.cc:102-158. [done]: the boxes before r_begin; [row]: those
      from r_begin on, whose heights are set again for every item. *)
  Definition with_h (h : xr) (b : rectangle) : rectangle := mk_rect (rx b) (ry b) (rw b) h.
  Fixpoint flow_ (max_w : option xr) (row_pad col_pad : xr) (items : list (xr * xr))
      (mw mh rw rh : xr) (done row : list rectangle) : xr * xr * list rectangle :=
    match items with
    | [] => (mw, add mh rh, done ++ row)
    | (w, h) :: r =>
        let rw := if xlt (Fin 0) rw then add rw col_pad else rw in
        let wrap := match max_w with Some m => xlt m (add rw w) | None => false end in
        let '(mh, rw, rh, done, row) :=
          if wrap then (add mh (add rh row_pad), Fin 0, Fin 0, done ++ row, []) else (mh, rw, rh, done, row) in
        let box := mk_rect rw mh w h in
        let rw := add rw w in
        let rh := xmax rh h in
        let mw := xmax mw rw in
        flow_ max_w row_pad col_pad r mw mh rw rh done (map (with_h rh) (row ++ [box]))
    end.
  Definition layout_flow (max_w : option xr) (row_pad col_pad : xr) (items : list (xr * xr)) :=
    flow_ max_w row_pad col_pad items (Fin 0) (Fin 0) (Fin 0) (Fin 0) [] [].

  (** The numbers of a LegendConfig, legend.cc:36-48; the four sides are top, right, bottom,
      left. *)
  Record legend := mk_legend {
    lg_h : halign; lg_v : valign; lg_row_pad : xr; lg_col_pad : xr; lg_flow : bool;
    lg_margins : xr * xr * xr * xr; lg_padding : xr * xr * xr * xr; lg_borders : xr * xr * xr * xr }.

  (** legend_layout, legend.cc:160-212. The maximal height is computed from the width
      (by dereferencing max_width), which is undefined without one; it is not used afterwards. *)
  Definition legend_layout (c : legend) (items : list (xr * xr)) (max_w max_h : option xr)
      : outcome (xr * xr * list rectangle) :=
    let '(p0, p1, p2, p3) := lg_padding c in
    let max_w := match max_w with Some m => Some (sub m (add p1 p3)) | None => None end in
    match max_w, max_h with
    | None, Some _ => UB
    | _, _ =>
        let '(w, h, b) := if lg_flow c then layout_flow max_w (lg_row_pad c) (lg_col_pad c) items
                          else layout_rows (lg_row_pad c) items in
        Ret (add (add w p1) p3, add (add h p0) p2, b)
    end.

  (** plot_legend, legend.cc:297-384: the border box, the content box and the boxes of the
      items (plot_legend_items, legend.cc:277-295), for the plot area [clip]. *)
  Definition border_box (c : legend) (parent : rectangle) (ew eh : xr) : rectangle :=
    let bw := xmin ew (rw parent) in
    let bh := xmin eh (rh parent) in
    let half a := xmul d a (Fin (/ 2)) in
    mk_rect
      match lg_h c with
      | HLeft => rx parent
      | HCenter => sub (add (rx parent) (half (rw parent))) (half bw)
      | HRight => sub (add (rx parent) (rw parent)) bw
      end
      match lg_v c with
      | VTop => sub (add (ry parent) (rh parent)) bh
      | VCenter => sub (add (ry parent) (half (rh parent))) (half bh)
      | VBottom => ry parent
      end bw bh.
  Definition place (content b : rectangle) : rectangle :=
    mk_rect (add (rx content) (rx b)) (sub (sub (add (ry content) (rh content)) (ry b)) (rh b)) (rw b) (rh b).
  Definition plot_legend (c : legend) (clip : rectangle) (items : list (xr * xr))
      : outcome (rectangle * list rectangle) :=
    let '(m0, m1, m2, m3) := lg_margins c in
    let parent := layout_margin_box d clip m0 m1 m2 m3 in
    let* (ew, eh, boxes) := legend_layout c items (Some (rw parent)) (Some (rh parent)) in
    let border := border_box c parent ew eh in
    let '(p0, p1, p2, p3) := lg_padding c in
    let content := layout_margin_box d border p0 p1 p2 p3 in
    Ret (border, map (place content) boxes).

  (** plot_legend_borders, legend.cc:214-275: the lines that are drawn, with the index of the
      border's style. *)
  Definition borders (c : legend) (b : rectangle) : list (nat * (vec2 * vec2)) :=
    let '(b0, b1, b2, b3) := lg_borders c in
    let x1 := add (rx b) (rw b) in
    let y1 := add (ry b) (rh b) in
    (if xlt (Fin 0) b0 then [(0%nat, (mk_vec2 (rx b) (ry b), mk_vec2 x1 (ry b)))] else []) ++
    (if xlt (Fin 0) b1 then [(1%nat, (mk_vec2 x1 (ry b), mk_vec2 x1 y1))] else []) ++
    (if xlt (Fin 0) b2 then [(2%nat, (mk_vec2 (rx b) y1, mk_vec2 x1 y1))] else []) ++
    (if xlt (Fin 0) b3 then [(3%nat, (mk_vec2 (rx b) (ry b), mk_vec2 (rx b) y1))] else []).

  (** draw_label and draw_marker, legend_item.cc:65-126: where label and marker are put; no
      other alignments can be configured. *)
  Definition anchor (a : halign) (margin : xr) (b : rectangle) : vec2 :=
    let y := add (ry b) (xmul d (rh b) (Fin (/ 2))) in
    match a with
    | HRight => mk_vec2 (sub (add (rx b) (rw b)) margin) y
    | _ => mk_vec2 (add (rx b) margin) y
    end.
End Legend.

(** legend_configure_position, legend.cc:386-428: [expr_is_value] compares texts of literals
    and values; both flags start as false. *)
Definition is_word (e : expr) (w : string) : bool :=
  match e with ELit t | EVal t => str_eqb t (s_ w) | EList _ => false end.
Fixpoint position_ (l : list expr) (hs vs : bool) (p : halign * valign) : outcome (halign * valign) :=
  match l with
  | [] => Ret p
  | e :: r =>
      if is_word e "top" then position_ r hs true (fst p, VTop)
      else if is_word e "bottom" then position_ r hs true (fst p, VBottom)
      else if is_word e "left" then position_ r true vs (HLeft, snd p)
      else if is_word e "right" then position_ r true vs (HRight, snd p)
      else if is_word e "center" then
        position_ r hs vs (if hs then fst p else HCenter, if vs then snd p else VCenter)
      else Err
  end.
Definition configure_position (l : list expr) (p : halign * valign) := position_ l false false p.
