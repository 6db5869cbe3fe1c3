(** Specification of colours, colour maps and palettes. *)
From Verif Require Import Base Num Color_Model.
Local Open Scope R_scope.

(** [c] is a hexadecimal digit of value [n]; [n] as lower case digits. *)
Definition hexd (c : ascii) (n : nat) : Prop :=
  nth_error (s_ "0123456789abcdef") n = Some c \/ nth_error (s_ "0123456789ABCDEF") n = Some c.
Definition low (n : nat) : ascii := nth n (s_ "0123456789abcdef") "?"%char.
(** The float nearest to a part of [scale]. *)
Definition part (n : nat) (scale : R) : xr := Fin (rnd32 (INR n / scale)).

(** The numeric value of a text of decimal digits. *)
Definition dec_value (s : str) : Z :=
  fold_left (fun a c => (10 * a + Z.of_nat (nat_of_ascii c - 48))%Z) s 0%Z.
Definition all_digits (s : str) : Prop := Forall (fun c => 48 <= nat_of_ascii c <= 57)%nat s.

(** A real limited to [0, 1]. *)
Definition limited (x : R) : R := Rmax 0 (Rmin 1 x).

(** Stops with real keys and colours with real components. *)
Record rgba := mk_rgba { q_r : R; q_g : R; q_b : R; q_a : R }.
Definition col (q : rgba) : color := mk_color (Fin (q_r q)) (Fin (q_g q)) (Fin (q_b q)) (Fin (q_a q)).
Notation rstops := (list (R * rgba)).
Definition to_stops (l : rstops) : list (xr * color) := map (fun p => (Fin (fst p), col (snd p))) l.
(** The same stops in the order of their keys. *)
Definition in_order (l l' : rstops) : Prop :=
  Permutation l l' /\ StronglySorted (fun a b => fst a <= fst b) l'.
(** Component-wise. *)
Definition each (P : R -> R -> R -> Prop) (c0 c1 c : rgba) : Prop :=
  P (q_r c0) (q_r c1) (q_r c) /\ P (q_g c0) (q_g c1) (q_g c) /\
  P (q_b c0) (q_b c1) (q_b c) /\ P (q_a c0) (q_a c1) (q_a c).
(** The point at [v] on the line from (k0, a) to (k1, b). *)
Definition on_line (k0 k1 v a b x : R) : Prop := x = a + (b - a) * ((v - k0) / (k1 - k0)).
Definition unit_interval (c : rgba) : Prop :=
  0 <= q_r c <= 1 /\ 0 <= q_g c <= 1 /\ 0 <= q_b c <= 1 /\ 0 <= q_a c <= 1.
Definition doubles (c : rgba) : Prop := is64 (q_r c) /\ is64 (q_g c) /\ is64 (q_b c) /\ is64 (q_a c).

(** Expressions for colours: the text of an expression; a number; (rgb r g b), (rgba r g b a). *)
From Verif Require Import Sexpr_Model.
Definition text (e : expr) (t : str) : Prop := e = ELit t \/ e = EVal t.
Definition num (stod : str -> option (xr * nat)) (e : expr) (x : xr) : Prop :=
  exists t n, text e t /\ stod t = Some (x, n).
Inductive color_list (stod : str -> option (xr * nat)) : list expr -> color -> Prop :=
| cl_rgb h a b c x y z : text h (s_ "rgb") -> num stod a x -> num stod b y -> num stod c z ->
    color_list stod [h; a; b; c] (mk_color x y z (Fin 1))
| cl_rgba h a b c e x y z w : text h (s_ "rgba") -> num stod a x -> num stod b y -> num stod c z -> num stod e w ->
    color_list stod [h; a; b; c; e] (mk_color x y z w).
