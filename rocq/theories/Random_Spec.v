(** Random strings (C102). *)
From Verif Require Import Base.
Local Open Scope Z_scope.

(** The number that bytes stand for, lowest byte first. *)
Fixpoint number (l : str) : Z :=
  match l with [] => 0 | c :: r => Z.of_nat (nat_of_ascii c) + 256 * number r end.
(** A text of hexadecimal digits is the bytes [l]. *)
Fixpoint hex_of (l : str) : str :=
  match l with
  | [] => []
  | c :: r => nth (nat_of_ascii c / 16) (s_ "0123456789abcdef") " "%char ::
              nth (nat_of_ascii c mod 16) (s_ "0123456789abcdef") " "%char :: hex_of r
  end.
(** The text [t] spells the numbers [l], eight bytes each. *)
Fixpoint spells (t : str) (l : list Z) : Prop :=
  match l with
  | [] => t = []
  | v :: r => exists b t', length b = 8%nat /\ number b = v /\ t = hex_of b ++ t' /\ spells t' r
  end.
(** The numbers that a generator delivers from some point on. *)
Definition from (g : nat -> Z) (pos n : nat) : list Z := map (fun i => g (pos + i)%nat) (seq 0 n).
Definition words64 (g : nat -> Z) : Prop := forall i, 0 < g i < 2 ^ 64.
Definition is_hex (c : ascii) : Prop := In c (s_ "0123456789abcdef").
Definition is_alphanumeric (c : ascii) : Prop := In c (s_ "0123456789ABCDEFGHIJKLMNOPQRSTUVWXYZ").
