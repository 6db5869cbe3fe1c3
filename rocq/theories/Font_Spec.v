(** Which fonts are used, and for what: the specification of C108. *)
From Coq Require Import Reals ZArith.
From Flocq Require Import Core.
From Verif Require Import Base Num Geo_Model Text_Model Glyph_Model Cmd_Model Font_Model.

(** A name that is the path of a file: absolute, or with the ending of a font file. *)
Definition looks_like_file (name : str) : Prop :=
  (exists rest, name = "/"%char :: rest) \/ (exists base, name = base ++ s_ ".otf") \/ (exists base, name = base ++ s_ ".ttf").
(** The file of a font: the name itself, or what fontconfig finds for it. *)
Definition font_file (L : library) (name file : str) : Prop :=
  name <> [] /\ ((looks_like_file name /\ file = name) \/ (~ looks_like_file name /\ fc_match L name = Some file /\ file <> [])).
(** The font of that file. *)
Definition font_named (L : library) (name : str) (f : nat) : Prop :=
  exists file, font_file L name file /\ ft_open L file = Some f.
(** The fonts of the system, in the order of fontconfig, without those that have no file. *)
Inductive system_files : list (option str) -> list str -> Prop :=
| sf_nil : system_files [] []
| sf_file f l r : system_files l r -> system_files (Some f :: l) (f :: r)
| sf_none l r : system_files l r -> system_files (None :: l) r.
Definition system_fonts (L : library) (fs : list nat) : Prop :=
  exists files, system_files (fc_sorted L) files /\ Forall2 (fun file f => ft_open L file = Some f) files fs.

(** The size at which freetype is asked for glyphs: whole 64ths of a point, whole dots per inch. *)
Definition asked_size (size_pt dpi : R) (s q : Z) : Prop :=
  s = Ztrunc (size_pt * 64) /\ q = Ztrunc dpi /\ (- 2 ^ 63 <= s < 2 ^ 63)%Z /\ (0 <= q < 2 ^ 32)%Z.
(** A font has all glyphs of a run (glyph 0 stands for a missing character). *)
Definition has_all (L : library) (s q : Z) (f : nat) (run : span) : Prop :=
  ft_sizes L f s q = true /\ forall g, In g (hb_glyphs L f s q run) -> fst g <> 0%N.
Definition lacks (L : library) (s q : Z) (f : nat) (run : span) : Prop :=
  ft_sizes L f s q = true /\ exists g, In g (hb_glyphs L f s q run) /\ fst g = 0%N.
(** A shape is the outline of a glyph of the font, moved or turned. *)
Definition glyph_shape (L : library) (d : R -> R) (asserts : bool) (s q : Z) (f : nat) (code : N) (shape : path) : Prop :=
  exists o p m, ft_outline L f s q code = Some o /\ glyph_outline_path d asserts o = Ret p /\ shape = path_transform d p m.
