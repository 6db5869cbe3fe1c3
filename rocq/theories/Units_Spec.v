(** Specification of lengths (doc/typographic.md): what a number followed by a unit means on
    the device. *)
From Verif Require Import Base.
From Coq Require Import Reals.
Local Open Scope R_scope.

(** The length in pixels of "v u", at a resolution of [dpi] pixels per inch (1 inch =
    25.4 mm = 72 pt), for the font size and the enclosing element's size [parent] in pixels. *)
Definition device_length (dpi font parent : R) (u : str) (v : R) : option R :=
  if str_eqb u (s_ "px") then Some v
  else if str_eqb u (s_ "mm") then Some (v / (254 / 10) * dpi)
  else if str_eqb u (s_ "pt") then Some (v / 72 * dpi)
  else if str_eqb u (s_ "em") then Some (v * font)
  else if str_eqb u (s_ "%") then Some (v / 100 * parent)
  else None.

(** ISO 216: (width, height) in mm of An, n = 0..6. *)
Fixpoint iso216 (n : nat) : Z * Z :=
  match n with
  | O => (841, 1189)%Z
  | S k => let '(w, h) := iso216 k in (h / 2, w)%Z
  end.
(** The digit n as text. *)
Definition digit (n : nat) : str := [ascii_of_nat (48 + n)].
