(** Model of text layout: /repo/src/graphics/text_support.cc, text_backend.cc,
    text_backend_freetype.cc, text_layout.cc, text_shaper.cc (font fallback), and of draw::text,
    /repo/src/draw/text.cc. fribidi, harfbuzz and freetype are parameters. *)
From Verif Require Import Base Num Geo_Model.
Local Open Scope nat_scope.

Inductive direction := LTR | RTL.
(** TextSpan, text_layout.h:37-45. The text is a list of code points (as decoded by fribidi);
    [sp_rest] stands for language, script, font, font size and id. *)
Record span := mk_span { sp_text : list Z; sp_dir : direction; sp_rest : nat }.

(* ---------------- text_analyze_bidi_line ---------------- *)
Section Analyze.
  (** fribidi_get_bidi_types and fribidi_get_par_embedding_levels: the level of every
      character, or failure. *)
  Variable fribidi : direction -> list Z -> option (list nat).

  (** fb_str with fb_to_span_map (indices for the pointers), text_backend_freetype.cc:46-67. *)
  Fixpoint span_map (k : nat) (l : list span) : list nat :=
    match l with [] => [] | s :: r => repeat k (length (sp_text s)) ++ span_map (S k) r end.
  (** run_bounds, :84-101: the positions where the level or the span changes. *)
  Definition differ (l : list nat) (i : nat) : bool :=
    negb (nth i l 0 =? nth (i - 1) l 0).
  Definition run_bounds (levels spans : list nat) : list nat :=
    filter (fun i => (0 <? i) && (differ levels i || differ spans i)) (seq 0 (length levels)).
  (** the runs, :103-124; fb_to_span_map[run_begin] of an empty text is out of bounds. *)
  Definition slice {A} (b e : nat) (l : list A) : list A := firstn (e - b) (skipn b l).
  Fixpoint runs_from (spans : list span) (chars : list Z) (levels map_ bounds : list nat) (b : nat) : outcome (list (span * nat)) :=
    let one e :=
      match nth_error map_ b with
      | None => UB
      | Some k =>
          match nth_error spans k with
          | None => UB
          | Some s => let v := nth b levels 0 in
                      Ret (mk_span (slice b e chars) (if Nat.odd v then RTL else LTR) (sp_rest s), v)
          end
      end in
    match bounds with
    | [] => let* r := one (length chars) in Ret [r]
    | e :: more => let* r := one e in let* q := runs_from spans chars levels map_ more e in Ret (r :: q)
    end.
  Definition analyze_freetype (spans : list span) (base : direction) : outcome (list (span * nat)) :=
    let chars := flat_map sp_text spans in
    match fribidi base chars with
    | None => Err
    | Some levels => runs_from spans chars levels (span_map 0 spans) (run_bounds levels (span_map 0 spans)) 0
    end.
  (** text_analyze_bidi_line, text_backend.cc:23-51, for the freetype backend; [bidi] is
      CLIP_TEXT_ENABLE_BIDI. *)
  Definition analyze (bidi : bool) (spans : list span) (base : direction) : outcome (list (span * nat)) :=
    if bidi then analyze_freetype spans base else Ret (map (fun s => (s, 0)) spans).
End Analyze.

(* ---------------- text_reorder_bidi_line, text_support.cc:22-102 ---------------- *)
(** The inner loop, :62-66. It reads bidi_levels[size] when it reaches the end (the vector is
    indexed before the bound is checked); the value read makes no difference. The second
    component tells whether that read happened. *)
Fixpoint range_end (fuel level : nat) (levels : list nat) (e : nat) : nat * bool :=
  match nth_error levels e with
  | None => (e, true)
  | Some v => if level <=? v then match fuel with O => (e, false) | S f => range_end f level levels (S e) end else (e, false)
  end.
(** std::reverse of a part of visual_order, :74-77. *)
Definition reverse_part (b e : nat) (l : list nat) : list nat := firstn b l ++ rev (slice b e l) ++ skipn e l.
(** The loop over the ranges, :59-81, with fuel for its steps. *)
Fixpoint ranges (fuel level : nat) (levels : list nat) (b : nat) (order : list nat) (past : bool) : list nat * bool :=
  match fuel with
  | O => (order, past)
  | S f =>
      if b <? length levels then
        let '(e, p) := range_end (length levels) level levels b in
        if e =? b then ranges f level levels (S b) order (past || p)
        else ranges f level levels e (reverse_part b e order) (past || p)
      else (order, past)
  end.
(** The loop over the levels, :58-82. *)
Fixpoint levels_down (level : nat) (levels order : list nat) (past : bool) : list nat * bool :=
  match level with
  | O => (order, past)
  | S l => let '(order, past) := ranges (length levels) level levels 0 order past in levels_down l levels order past
  end.
(** visual_order, :47-92; std::max_element of no levels must not be dereferenced. *)
Definition visual_order (base : direction) (levels : list nat) : outcome (list nat * bool) :=
  match levels with
  | [] => UB
  | _ =>
      let '(order, past) := levels_down (list_max levels) levels (seq 0 (length levels)) false in
      Ret (match base with LTR => order | RTL => rev order end, past)
  end.
(** text_reorder_bidi_line as a whole; the flag of the read past the end is dropped. *)
Definition pick {A} (l : list A) (order : list nat) : list A :=
  flat_map (fun i => match nth_error l i with Some a => [a] | None => [] end) order.
Definition reorder (fribidi : direction -> list Z -> option (list nat)) (bidi : bool) (spans : list span) (base : direction)
    : outcome (list span) :=
  let* runs := analyze fribidi bidi spans base in
  let* (order, _) := visual_order base (map snd runs) in
  Ret (pick (map fst runs) order).

(* ---------------- text_layout.cc ---------------- *)
Local Open Scope R_scope.
(** GlyphInfo, text_shaper.h:24-31 (the vertical advance is not used), and GlyphPlacement,
    text_layout.h:78-84. *)
Record glyph := mk_glyph { g_font : nat; g_code : N; g_advance : xr; g_asc : xr; g_desc : xr }.
Record placed := mk_placed { p_font : nat; p_code : N; p_x : xr; p_y : xr; p_rest : nat }.

Section Layout.
  Variable d : R -> R.
  (** text_shape_run: harfbuzz, for a font and a span. *)
  Variable shape : nat -> span -> outcome (list glyph).
  Notation add := (xadd d).
  Notation sub := (xsub d).

  (** text_shape_run_with_font_fallback, text_shaper.cc:105-149. *)
  Definition complete (l : list glyph) : bool := forallb (fun g => negb (g_code g =? 0)%N) l.
  Fixpoint fallback (fonts : list nat) (s : span) (last : list glyph) : outcome (list glyph) :=
    match fonts with
    | [] => Ret last
    | f :: r => let* l := shape f s in if complete l then Ret l else fallback r s l
    end.
  (** The loop in text_layout_span, text_layout.cc:45-57. *)
  Fixpoint place_span (rest : nat) (l : list glyph) (len top bottom : xr) : list placed * (xr * xr * xr) :=
    match l with
    | [] => ([], (len, top, bottom))
    | g :: r =>
        let '(q, res) := place_span rest r (add len (g_advance g)) (xmax (g_asc g) top) (xmin (g_desc g) bottom) in
        (mk_placed (g_font g) (g_code g) len (Fin 0) rest :: q, res)
    end.
  Definition shift (base : direction) (line_len span_len : xr) (p : placed) : placed :=
    mk_placed (p_font p) (p_code p)
      (match base with LTR => add (p_x p) line_len | RTL => sub (sub (p_x p) line_len) span_len end) (p_y p) (p_rest p).
  (** text_layout_line, text_layout.cc:62-126; every glyph is a group of its own. *)
  Fixpoint place_line (fonts : list nat) (base : direction) (l : list span) (len top bottom : xr)
      : outcome (list placed * (xr * xr * xr)) :=
    match l with
    | [] => Ret ([], (len, top, bottom))
    | s :: r =>
        let* gl := fallback fonts s [] in
        let '(ps, (slen, top, bottom)) := place_span (sp_rest s) gl (Fin 0) top bottom in
        let* (q, res) := place_line fonts base r (add len slen) top bottom in
        Ret (map (shift base len slen) ps ++ q, res)
    end.
  Definition layout_line (fonts : list nat) (base : direction) (l : list span) : outcome (list placed * rectangle) :=
    let* (ps, (len, top, bottom)) := place_line fonts base l (Fin 0) (Fin 0) (Fin 0) in
    Ret (ps, mk_rect (match base with LTR => Fin 0 | RTL => xneg len end) bottom len (sub top bottom)).

  (* ---------------- draw/text.cc:43-120 ---------------- *)
  (** font_get_glyph_path: freetype. *)
  Variable glyph_path : nat -> N -> outcome path.
  Variable fribidi : direction -> list Z -> option (list nat).
  Definition glyph_transform (transform : option mat3) (off : vec2) (g : placed) : mat3 :=
    let gt := translate2 (mk_vec2 (add (p_x g) (vx off)) (add (p_y g) (vy off))) in
    match transform with Some m => mmul d m gt | None => gt end.
  Fixpoint glyph_shapes (transform : option mat3) (off : vec2) (l : list placed) : outcome (list path) :=
    match l with
    | [] => Ret []
    | g :: r =>
        let* p := glyph_path (p_font g) (p_code g) in
        let* q := glyph_shapes transform off r in
        Ret (path_transform d p (glyph_transform transform off g) :: q)
    end.
  (** The shapes that are drawn, in order; those drawn before an error are not recorded. An error of the reordering is passed on as an error (:71-73). *)
  Definition draw_text_op (bidi : bool) (fonts : list nat) (text : list Z) (dir : direction) (rest : nat)
      (pos : vec2) (ax : halign) (ay : valign) (transform : option mat3) : outcome (list path) :=
    let* line := reorder fribidi bidi [mk_span text dir rest] dir in
    let* (gl, bbox) := layout_line fonts dir line in
    glyph_shapes transform (layout_align d bbox pos ax ay) gl.
  (** draw_text, /repo/src/graphics/draw_cmd.cc:110-135: the transformation of rotated text. *)
  Definition text_rotation (pos : vec2) (deg : xr) : option mat3 :=
    if xeq deg (Fin 0) then None
    else Some (mmul d (translate2 pos) (mmul d (rotate2 d deg) (translate2 (mk_vec2 (xneg (vx pos)) (xneg (vy pos)))))).
End Layout.
