(** Model of /repo/src/utils/random.cc. The generator (std::mt19937_64) is the sequence [g] of the
    numbers it delivers; the state of a Random object is the number of them used so far. *)
From Verif Require Import Base Str_Model.
Local Open Scope Z_scope.

Section Random.
  Variable g : nat -> Z.
  (** The eight bytes of a uint64_t in memory, lowest first (x86-64). *)
  Fixpoint le_bytes (n : nat) (v : Z) : str :=
    match n with O => [] | S m => ascii_of_N (Z.to_N (v mod 256)) :: le_bytes m (v / 256) end.
  (** Random::random64, random.cc:25-29; a failing assertion aborts: [Throw]. *)
  Definition random64 (pos : nat) : outcome (Z * nat) :=
    if 0 <? g pos then Ret (g pos, S pos) else Throw.
  (** The array val[n] of hex128, hex256 and hex512, filled in order. *)
  Fixpoint random_array (n : nat) (pos : nat) : outcome (list Z * nat) :=
    match n with
    | O => Ret ([], pos)
    | S m => let* (v, p) := random64 pos in let* (r, q) := random_array m p in Ret (v :: r, q)
    end.
  (** hexPrint(&val, sizeof(val), false), stringutil.cc:400-407. *)
  Definition hex_words (n : nat) (pos : nat) : outcome (str * nat) :=
    let* (l, p) := random_array n pos in Ret (hex_print (flat_map (le_bytes 8) l) false false, p).
  (** hex64, hex128, hex256, hex512, random.cc:31-66. *)
  Definition hex64 := hex_words 1.
  Definition hex128 := hex_words 2.
  Definition hex256 := hex_words 4.
  Definition hex512 := hex_words 8.
  (** alphanumericString, random.cc:68-80; [i] runs while i < nchars. *)
  Definition alphanumeric_chars : str := s_ "0123456789ABCDEFGHIJKLMNOPQRSTUVWXYZ".
  Fixpoint alnum_loop (n : nat) (pos : nat) (out : str) : str * nat :=
    match n with
    | O => (out, pos)
    | S m => alnum_loop m (S pos) (out ++ [nth (Z.to_nat (g pos mod 36)) alphanumeric_chars "0"%char])
    end.
  Definition alphanumeric_string (nchars : Z) (pos : nat) : outcome (str * nat) :=
    Ret (alnum_loop (Z.to_nat nchars) pos []).
End Random.
