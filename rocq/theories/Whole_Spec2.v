(** Programs with limits and several series, and their pictures (C106). Independent of the model of
    the commands. *)
From Coq Require Import Reals.
From Verif Require Import Base Num Csv_Spec Scale_Spec Color_Spec Plist_Spec Svg_Spec Source_Spec Whole_Spec.
Local Open Scope R_scope.

(** The numbers of a series are written in the program, list(1 2 3), or are a column of a CSV
    file, csv(FILE COLUMN), where both may be quoted. *)
Inductive source := Listed (ts : list str) | Column (file column : pval).
Definition source_val (s : source) : pval :=
  match s with Listed ts => VFn (s_ "list") (map VLit ts) | Column f c => VFn (s_ "csv") [f; c] end.
Definition names (v : pval) (t : str) : Prop := v = VLit t \/ v = VStr t.
(** The texts of a source, where [read] is the content of the files. A file must not end in a
    comma (see C08). *)
Inductive source_texts (read : str -> option str) : source -> list str -> Prop :=
| listed ts : source_texts read (Listed ts) ts
| column f c path name txt ts : names f path -> names c name -> read path = Some txt -> no_final_comma txt -> csv_values txt name ts ->
    source_texts read (Column f c) ts.
(** lines { data-x: list(...); data-y: list(...); [stroke-width: ...;] [color: ...;] },
    points { data-x: list(...); data-y: list(...); [size: ...;] [color: ...;] },
    bars { data-x: list(...); data-y: list(...); [width: ...;] [color: ...;] } or
    areas { data-x: list(...); data-y: list(...); [stroke-width: ...;] [color: ...;] } *)
Inductive style := Lines | Points | Bars | Areas.
Record series := mk_series { sr_style : style; sr_x : source; sr_y : source; sr_size : option str; sr_color : option str }.
Definition may {A} (f : A -> ptree) (o : option A) : list ptree := match o with Some a => [f a] | None => [] end.
Definition style_name (s : style) : string := match s with Lines => "lines" | Points => "points" | Bars => "bars" | Areas => "areas" end.
Definition size_name (s : style) : string := match s with Lines => "stroke-width" | Points => "size" | Bars => "width" | Areas => "stroke-width" end.
Definition series_tree (s : series) : ptree :=
  Block (s_ (style_name (sr_style s)))
    ([Prop_ (s_ "data-x") [source_val (sr_x s)]; Prop_ (s_ "data-y") [source_val (sr_y s)]] ++
     may (fun t => Prop_ (s_ (size_name (sr_style s))) [VLit t]) (sr_size s) ++
     may (fun t => Prop_ (s_ "color") [VLit t]) (sr_color s)).
(** limit-x: lo hi; and limit-y: lo hi; *)
Definition limits_tree (name : string) (o : option (str * str)) : list ptree :=
  may (fun q => Prop_ (s_ name) [VLit (fst q); VLit (snd q)]) o.

(** What a series means: its points, the size in pixels, the colour. *)
Record drawn_series := mk_drawn { ds_style : style; ds_x : list R; ds_y : list R; ds_size : R; ds_color : level }.

(** Without a size, lines are 1.5pt (4 pixels) wide, points have a diameter of 4pt, bars are 10pt
    wide, and areas have no lines at their borders. *)
Definition default_size (s : style) : R := match s with Lines => 4 | Points => 32 / 3 | Bars => 80 / 3 | Areas => 0 end.
(** #rrggbb *)
Inductive color_text : option str -> level -> Prop :=
| no_color : color_text None black_
| hex_color a1 a2 b1 b2 c1 c2 n1 n2 n3 n4 n5 n6 : hexd a1 n1 -> hexd a2 n2 -> hexd b1 n3 -> hexd b2 n4 -> hexd c1 n5 -> hexd c2 n6 ->
    color_text (Some ["#"%char; a1; a2; b1; b2; c1; c2]) (16 * n1 + n2, 16 * n3 + n4, 16 * n5 + n6)%nat.

(** A disc around (x, y), as four Bezier curves. *)
Definition disc (r : R) (q : R * R) : list (seg R) :=
  let '(x, y) := q in let k := r * (552284749831 / 1000000000000) in
  [SMove x (y + r); SCubic (x - k) (y + r) (x - r) (y + k) (x - r) y; SCubic (x - r) (y - k) (x - k) (y - r) x (y - r);
   SCubic (x + k) (y - r) (x + r) (y - k) (x + r) y; SCubic (x + r) (y + k) (x + k) (y + r) x (y + r); SClose].
(** A bar of width [s] between (x, y) and the height [b]. *)
Definition bar (s b : R) (q : R * R) : list (seg R) :=
  let '(x, y) := q in [SMove (x - s / 2) b; SLine (x - s / 2) y; SLine (x + s / 2) y; SLine (x + s / 2) b; SClose].
(** What is painted for a series whose points lie at [pts] if the zero of the y axis lies at [b]. *)
Definition series_paints (d : drawn_series) (b : R) (pts : list (R * R)) : list (paint R level) :=
  let foot := rev (map (fun q => (fst q, b)) pts) in
  match ds_style d with
  | Lines => [Stroke (through pts) (ds_color d) 1 (ds_size d) [] 0 false]
  | Points => map (fun q => Fill (disc (ds_size d / 2) q) (ds_color d) 1 false) pts
  | Bars => map (fun q => Fill (bar (ds_size d) b q) (ds_color d) 1 false) pts
  | Areas => Fill (through (pts ++ foot) ++ [SClose]) (ds_color d) 1 false ::
             (if Rlt_dec 0 (ds_size d) then [Stroke (through pts) (ds_color d) 1 (ds_size d) [] 0 false; Stroke (through foot) (ds_color d) 1 (ds_size d) [] 0 false] else [])
  end.
(** The zero of an axis, or the end of the axis that is nearest to it. *)
Definition nearest_zero (lo hi : R) : R := Rmax lo (Rmin hi 0).
(** A white page with the series in the order of the program, and nothing else. *)
Definition chart_picture (w h lx ux ly uy : R) (ds : list drawn_series) : list (paint R level) :=
  Fill (page_of_size w h) white_ 1 false ::
  flat_map (fun d => series_paints d (h - along ly uy h (nearest_zero ly uy)) (map (in_file lx ux ly uy w h) (combine (ds_x d) (ds_y d)))) ds.
