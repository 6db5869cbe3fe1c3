(** Model of pngWriteImageFile, /repo/src/graphics/png.cc:24-85. libpng is modelled by what it is asked to
    write: the header and the rows. *)
From Verif Require Import Base Image_Model.
From Coq Require Import ZArith.

(** PNG_COLOR_TYPE_RGB and PNG_COLOR_TYPE_RGB_ALPHA. *)
Inductive color_type := ColorRGB | ColorRGBA.
Record png := mk_png { png_width : Z; png_height : Z; png_depth : nat; png_color : color_type; png_rows : list (list Z) }.

(** Row i begins at image.getData() + i * getPixelSize() * getWidth(), png.cc:71-75; libpng reads as many
    bytes as a row of the header has. *)
Definition row (img : image) (i : nat) : list Z :=
  firstn (pixel_size (i_format img) * i_width img) (skipn (i * pixel_size (i_format img) * i_width img) (i_data img)).
(** The conversion of size_t to png_uint_32 in the call of png_set_IHDR. *)
Definition to_u32 (n : nat) : Z := (Z.of_nat n mod 2 ^ 32)%Z.
(** pngWriteImageFile. [opened]: fopen returns a file (it is not checked); [structs]: libpng could
    allocate its structures. png_set_IHDR refuses a width or height of 0 or above 2^31-1; no error
    handler is set up, so libpng ends the process (here: [UB], as writing to a null FILE). *)
Definition png_write_image_file (opened structs : bool) (img : image) : outcome png :=
  let '(depth, color) := match i_format img with RGB8 => (8, ColorRGB) | RGBA8 => (8, ColorRGBA) end in
  if negb opened then UB
  else if negb structs then Err
  else
    let w := to_u32 (i_width img) in let h := to_u32 (i_height img) in
    if ((w =? 0) || (2 ^ 31 <=? w) || (h =? 0) || (2 ^ 31 <=? h))%Z then UB
    else Ret (mk_png w h depth color (map (row img) (seq 0 (i_height img)))).
