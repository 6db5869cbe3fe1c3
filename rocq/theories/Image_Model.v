(** Model of /repo/src/graphics/image.cc. The pixel map is a list of bytes (0..255); char is
    signed, as on x86 and as gcc and clang have it there. *)
From Verif Require Import Base Num Color_Model.
Local Open Scope Z_scope.

(** PixelFormat and Image, image.h:22-65. *)
Inductive pixfmt := RGB8 | RGBA8.
Record image := mk_image { i_format : pixfmt; i_width : nat; i_height : nat; i_data : list Z }.

(** getPixelSize, image.cc:124-137. *)
Definition pixel_size (f : pixfmt) : nat := match f with RGB8 => 3 | RGBA8 => 4 end.
(** Conversion of a double to (signed) char: truncation, undefined outside of its range; as a
    byte. *)
Definition to_char (a : xr) : outcome Z :=
  match a with
  | Fin x => let z := Ztrunc x in if (-128 <=? z) && (z <? 128) then Ret (z mod 256) else UB
  | _ => UB
  end.
Definition signed (b : Z) : Z := if b <? 128 then b else b - 256.

Section Image.
  (** Rounding of double and of float arithmetic. *)
  Variables d f : R -> R.
  (** encodePixel_RGBA8, encodePixel, image.cc:139-164: the new bytes of the pixel. *)
  Definition encode (fmt : pixfmt) (c : color) (old : list Z) : outcome (list Z) :=
    match fmt with
    | RGBA8 =>
        let* r := to_char (xmul d (c_r c) (Fin 255)) in
        let* g := to_char (xmul d (c_g c) (Fin 255)) in
        let* b := to_char (xmul d (c_b c) (Fin 255)) in
        let* a := to_char (xmul d (c_a c) (Fin 255)) in
        Ret [r; g; b; a]
    | RGB8 => Ret old
    end.
  (** decodePixel_RGBA8, decodePixel, image.cc:166-191; Color{} is black and opaque
      (color.cc:31). *)
  Definition channel (b : Z) : xr := xdiv f (Fin (IZR (signed b))) (Fin 255).
  Definition decode (fmt : pixfmt) (px : list Z) : outcome color :=
    match fmt, px with
    | RGBA8, r :: g :: b :: a :: _ => Ret (mk_color (channel r) (channel g) (channel b) (channel a))
    | RGBA8, _ => UB
    | RGB8, _ => Ret black
    end.
  Definition pixel_bytes (img : image) (idx : nat) : list Z :=
    firstn (pixel_size (i_format img)) (skipn (idx * pixel_size (i_format img)) (i_data img)).
  (** getPixel, image.cc:84-96; the failure of the assertion aborts. *)
  Definition get_index (img : image) (idx : nat) : outcome color :=
    if (idx <? i_width img * i_height img)%nat then decode (i_format img) (pixel_bytes img idx) else Throw.
  Definition get_pixel (img : image) (x y : nat) : outcome color := get_index img (y * i_width img + x).
  (** setPixel, image.cc:98-111. *)
  Definition put_bytes (img : image) (idx : nat) (px : list Z) : image :=
    let s := pixel_size (i_format img) in
    mk_image (i_format img) (i_width img) (i_height img)
      (firstn (idx * s) (i_data img) ++ px ++ skipn (idx * s + s) (i_data img)).
  Definition set_index (img : image) (idx : nat) (c : color) : outcome image :=
    if (idx <? i_width img * i_height img)%nat
    then let* px := encode (i_format img) c (pixel_bytes img idx) in Ret (put_bytes img idx px) else Throw.
  Definition set_pixel (img : image) (x y : nat) (c : color) : outcome image := set_index img (y * i_width img + x) c.
  (** clear, image.cc:113-122. *)
  Fixpoint clear_from (n idx : nat) (img : image) (c : color) : outcome image :=
    match n with
    | O => Ret img
    | S k => let* px := encode (i_format img) c (pixel_bytes img idx) in clear_from k (S idx) (put_bytes img idx px) c
    end.
  Definition clear (img : image) (c : color) : outcome image := clear_from (i_width img * i_height img) 0 img c.
End Image.
(** convertImage_RGB8_RGBA8, convertImage_RGB8A_RGB8: image.cc:193-216. The pixel format of the
    source is not checked. *)
Fixpoint add_alpha (n : nat) (src : list Z) : list Z :=
  match n with O => [] | S k => firstn 3 src ++ [255] ++ add_alpha k (skipn 3 src) end.
Fixpoint drop_alpha (n : nat) (src : list Z) : list Z :=
  match n with O => [] | S k => firstn 3 src ++ drop_alpha k (skipn 4 src) end.
Definition rgb_to_rgba (img : image) : image :=
  mk_image RGBA8 (i_width img) (i_height img) (add_alpha (i_width img * i_height img) (i_data img)).
Definition rgba_to_rgb (img : image) : image :=
  mk_image RGB8 (i_width img) (i_height img) (drop_alpha (i_width img * i_height img) (i_data img)).
