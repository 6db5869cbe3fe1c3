(** Specification of superscript numbers: the Unicode superscript digits (and minus sign), in
    UTF-8. *)
From Verif Require Import Base Utf8_Spec.
From Coq Require Import NArith.
Local Open Scope N_scope.

(** The superscript character for a digit or a minus sign. *)
Definition super_code (c : ascii) : N :=
  match c with
  | "0" => 0x2070 | "1" => 0xB9 | "2" => 0xB2 | "3" => 0xB3 | "4" => 0x2074 | "5" => 0x2075
  | "6" => 0x2076 | "7" => 0x2077 | "8" => 0x2078 | "9" => 0x2079 | "-" => 0x207B
  | _ => 0
  end%char.
Definition utf8 (c : N) : str := map ascii_of_N (utf8_std c).
Definition superscript (s : str) : str := flat_map (fun c => utf8 (super_code c)) s.
(** The multiplication sign. *)
Definition times : str := utf8 0xD7.
