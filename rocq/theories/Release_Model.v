(** Model of the objects of fontconfig, freetype, harfbuzz and cairo that the code creates and gives back:
    /repo/src/graphics/font_lookup.cc (font_close, font_get_glyph_path, font_load, font_load_best,
    font_load_defaults), /repo/src/graphics/text_shaper.cc (text_shape_run) and
    /repo/src/graphics/rasterize.cc (Rasterizer, drawText), /repo/src/graphics/export_image.cc.

    A function is modelled by the calls it makes, in order, for the answers the libraries give. What is
    done with the glyphs, the names and the pictures is in Font_Model, Glyph_Model and Raster_Model. *)
From Verif Require Import Base.

(** The objects; a number names the object they were made from. *)
Inductive kind :=
  | Library | Face (library : nat) | Glyph                 (* freetype *)
  | HbFont (face : nat) | HbBuffer                          (* harfbuzz *)
  | Config | Pattern | ObjectSet | FontSet                  (* fontconfig *)
  | Surface | Context (surface : nat) | CairoFace (face : nat) | GlyphArray.  (* cairo *)
(** The calls: an object is made, is given as an argument, gets one more owner (cairo counts them), is given
    back by one owner; or a null pointer is given where an object is needed. *)
Inductive event := Create (id : nat) (k : kind) | Use (id : nat) | Keep (id : nat) | Release (id : nat) | Null.

(** FontStorage, font_lookup.cc:38-42: a null pointer is None. *)
Record storage := mk_storage { fs_ft : option nat; fs_face : option nat }.
(** font_close, font_lookup.cc:44-54. *)
Definition font_close (f : storage) : list event :=
  (match fs_face f with Some i => [Release i] | None => [] end) ++
  (match fs_ft f with Some i => [Release i] | None => [] end).
(** font_load, font_lookup.cc:239-252: FT_Init_FreeType and FT_New_Face may fail (and then leave null pointers);
    the storage is closed when its only reference goes out of scope. [n] is the first free number. *)
Definition font_load (n : nat) (init new : bool) : list event * option storage :=
  if init then
    let e := [Create n Library; Use n] in
    if new then (e ++ [Create (S n) (Face n)], Some (mk_storage (Some n) (Some (S n))))
    else (e ++ font_close (mk_storage (Some n) None), None)
  else (font_close (mk_storage None None), None).

(** text_shape_run, text_shaper.cc:29-102, for the answer of FT_Set_Char_Size. The two unique pointers are
    destroyed in the order opposite to their creation. *)
Definition shape_run (n face : nat) (size_ok : bool) : list event :=
  if size_ok then
    [Use face; Create n (HbFont face); Create (S n) HbBuffer; Use (S n); Use n; Use (S n); Use face;
     Release (S n); Release n]
  else [Use face].

(** font_get_glyph_path, font_lookup.cc:67-131: which call fails, or what the glyph is. *)
Inductive glyph_answer := SizeFails | LoadFails | GetFails | NotOutline | BadTag | GoodOutline.
Definition glyph_path (n face : nat) (g : glyph_answer) : list event :=
  match g with
  | SizeFails => [Use face]
  | LoadFails => [Use face; Use face]
  | GetFails => [Use face; Use face; Use face]
  | NotOutline | BadTag => [Use face; Use face; Use face; Create n Glyph; Use n]
  | GoodOutline => [Use face; Use face; Use face; Create n Glyph; Use n; Release n]
  end.

(** Rasterizer::drawText, rasterize.cc:129-186, one group of glyphs after the other: [cur] is the font face the
    context holds (cairo_set_font_face keeps the new one and gives the old one back). If the size cannot be
    set, the face is given back (:155) and the rest is left out. Two new numbers for each group. *)
Fixpoint draw_groups (ctx : nat) (cur : option nat) (m : nat) (groups : list (nat * bool)) : list event * option nat :=
  match groups with
  | [] => ([], cur)
  | (face, true) :: r =>
      let '(e, c) := draw_groups ctx (Some m) (S (S m)) r in
      ([Use face; Use ctx; Create m (CairoFace face); Use ctx; Keep m] ++
       (match cur with Some c => [Release c] | None => [] end) ++
       [Use ctx; Create (S m) GlyphArray; Use (S m); Use ctx; Use face; Release (S m); Release m] ++ e, c)
  | (face, false) :: _ => ([Use face; Release face], cur)
  end.
(** A rasterizer (rasterize.cc:23-41) that draws texts and is destroyed while their fonts are still held, as the
    one of page_export_png (export_image.cc:27-43) is at the end of the call. Simplified: the drawing of shapes,
    which uses only the context, is left out, and a rasterizer that outlives a font is not modelled. *)
Definition export_page (n : nat) (groups : list (nat * bool)) : list event :=
  let '(e, c) := draw_groups (S n) None (S (S n)) groups in
  [Create n Surface; Create (S n) (Context n); Use (S n)] ++ e ++
  (match c with Some c => [Release c] | None => [] end) ++ [Release (S n); Release n].

(** The answers of fontconfig: is the configuration, the pattern not null? FcFontMatch: a font or not, with
    FcResultMatch or not, with a file name or not. *)
Record fc_answer := mk_fc { fc_config : bool; fc_pattern : bool; fc_font : option (bool * bool) }.
Definition use_or_null (ok : bool) (i : nat) : event := if ok then Use i else Null.
(** font_load_best, font_lookup.cc:269-290: the calls, and whether there is a file name. FcPatternDestroy does
    nothing for a null pointer, FcConfigDestroy needs an object. *)
Definition lookup_font (n : nat) (a : fc_answer) : list event * bool :=
  ((if fc_config a then [Create n Config] else []) ++
   (if fc_pattern a then [Create (1 + n) Pattern] else []) ++
   [use_or_null (fc_pattern a) (1 + n); use_or_null (fc_pattern a) (1 + n); use_or_null (fc_pattern a) (1 + n)] ++
   (match fc_font a with
    | Some (true, _) => [Create (2 + n) Pattern; Use (2 + n); Release (2 + n)]
    | Some (false, _) => [Create (2 + n) Pattern]
    | None => []
    end) ++
   (if fc_pattern a then [Release (1 + n)] else []) ++
   (if fc_config a then [Release n] else [Null]),
   match fc_font a with Some (true, file) => file | _ => false end).

(** font_load_defaults, font_lookup.cc:313-343: [set] is the answer of FcFontSort. The object set (:314) is not
    used and not given back. *)
Definition list_fonts (n : nat) (config pattern : bool) (set : option nat) : list event :=
  (if config then [Create n Config] else []) ++ [Create (1 + n) ObjectSet] ++
  (if pattern then [Create (2 + n) Pattern] else []) ++
  [use_or_null pattern (2 + n); use_or_null pattern (2 + n); use_or_null pattern (2 + n)] ++
  (match set with
   | Some k => [Create (3 + n) FontSet] ++ repeat (Use (3 + n)) k ++ [Release (3 + n)]
   | None => []
   end) ++
  (if pattern then [Release (2 + n)] else []) ++
  (if config then [Release n] else [Null]).

(* ---------------- histories ---------------- *)
(** A reference (FontRef, a shared pointer) to a font that has been loaded. *)
Record font_ref := mk_ref { r_lib : nat; r_face : nat }.
Definition ref_of (s : storage) : option font_ref :=
  match fs_ft s, fs_face s with Some l, Some f => Some (mk_ref l f) | _, _ => None end.
(** The references in a process, wherever they are held, and the next free number. *)
Record state := mk_state { refs : list (option font_ref); next : nat }.
Definition held (s : state) (i : nat) : option font_ref := match nth_error (refs s) i with Some r => r | None => None end.
Fixpoint clear (i : nat) (l : list (option font_ref)) : list (option font_ref) :=
  match l, i with [], _ => [] | _ :: r, O => None :: r | x :: r, S i => x :: clear i r end.
Definition same (f : font_ref) (r : option font_ref) : bool := match r with Some g => (r_face g =? r_face f)%nat | None => false end.

(** What a program can do, with the answers of the libraries. *)
Inductive op :=
  | Load (init new : bool)
  | Copy (i : nat)
  | Drop (i : nat)
  | Shape (i : nat) (size_ok : bool)
  | Outline (i : nat) (g : glyph_answer)
  | Page (groups : list (nat * bool))
  | Best (a : fc_answer) (init new : bool)
  | Defaults (config pattern : bool) (set : option (list (option (bool * bool)))).
Definition loaded_ (s : state) (e : list event) (r : option storage) : list event * state :=
  (e, mk_state (match r with Some f => refs s ++ [ref_of f] | None => refs s end) (2 + next s)).
(** The loop of font_load_defaults, font_lookup.cc:345-356: it ends at the first font that cannot be loaded. *)
Fixpoint load_files (s : state) (l : list (option (bool * bool))) : list event * state :=
  match l with
  | [] => ([], s)
  | None :: r => load_files s r
  | Some (init, new) :: r =>
      let '(e, f) := font_load (next s) init new in
      let '(e, s') := loaded_ s e f in
      match f with
      | Some _ => let '(e', s'') := load_files s' r in (e ++ e', s'')
      | None => (e, s')
      end
  end.
Definition do_op (s : state) (o : op) : list event * state :=
  match o with
  | Load init new => let '(e, f) := font_load (next s) init new in loaded_ s e f
  | Copy i => ([], mk_state (refs s ++ [held s i]) (next s))
  | Drop i =>
      match held s i with
      | Some f =>
          let l := clear i (refs s) in
          ((if existsb (same f) l then [] else font_close (mk_storage (Some (r_lib f)) (Some (r_face f)))), mk_state l (next s))
      | None => ([], s)
      end
  | Shape i ok => match held s i with Some f => (shape_run (next s) (r_face f) ok, mk_state (refs s) (2 + next s)) | None => ([], s) end
  | Outline i g => match held s i with Some f => (glyph_path (next s) (r_face f) g, mk_state (refs s) (1 + next s)) | None => ([], s) end
  | Page groups =>
      let faces := flat_map (fun it => match held s (fst it) with Some f => [(r_face f, snd it)] | None => [] end) groups in
      (export_page (next s) faces, mk_state (refs s) (2 + 2 * length faces + next s))
  | Best a init new =>
      let '(e, found) := lookup_font (next s) a in
      let s1 := mk_state (refs s) (3 + next s) in
      if found then let '(e', f) := font_load (next s1) init new in loaded_ s1 (e ++ e') f else (e, s1)
  | Defaults config pattern set =>
      let e := list_fonts (next s) config pattern (option_map (@length _) set) in
      let '(e', s') := load_files (mk_state (refs s) (4 + next s)) (match set with Some l => l | None => [] end) in
      (e ++ e', s')
  end.
Fixpoint history (s : state) (l : list op) : list event * state :=
  match l with
  | [] => ([], s)
  | o :: r => let '(e, s1) := do_op s o in let '(e', s2) := history s1 r in (e ++ e', s2)
  end.
Definition start : state := mk_state [] 0.
