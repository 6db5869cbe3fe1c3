(** Property theorems: UTF-8 (C10, C11, C12). *)
From Verif Require Import Base Utf8_Model Utf8_Spec Utf8_Proofs.
From Coq Require Import NArith.
Local Open Scope N_scope.

(** C10. Decoding an encoded code point below 2^24 (so: every Unicode code point) followed by
    anything gives the code point and leaves exactly what follows. Missing from C10: the
    values 2^24 .. 2^32-1 the encoder also accepts, see the refutations. *)
Theorem C10_roundtrip_partial : forall (c : N) (tail : list N),
  c < 2 ^ 24 -> next_codepoint (encode_codepoint c ++ tail) = Ret (c, tail).
Proof. exact roundtrip. Qed.
Print Assumptions C10_roundtrip_partial.

Example C10_example : 0x1F600 < 2 ^ 24 /\ encode_codepoint 0x1F600 = [0xF0; 0x9F; 0x98; 0x80]
  /\ next_codepoint [0xF0; 0x9F; 0x98; 0x80; 65] = Ret (0x1F600, [65]).
Proof. repeat split. Qed.

(** C10. The encoding of a scalar value is the standard's. *)
Theorem C10_standard : forall c : N, scalar c -> encode_codepoint c = utf8_std c.
Proof. exact (fun c H => encode_std c (scalar_bound c H)). Qed.
Print Assumptions C10_standard.

(** C10 is false between 2^24 and 2^26: every such value decodes to a smaller one. *)
Theorem C10_roundtrip_five_bytes_refuted : forall (c : N) (tail : list N),
  2 ^ 24 <= c < 2 ^ 26 ->
  exists d, next_codepoint (encode_codepoint c ++ tail) = Ret (d, tail) /\ d < c.
Proof. exact roundtrip_5. Qed.
Print Assumptions C10_roundtrip_five_bytes_refuted.

(** C10, from 2^26 on: exactly the values with bits 11..17 all equal and bit 31 clear
    survive. *)
Theorem C10_roundtrip_six_bytes_refuted : forall (c : N) (tail : list N),
  2 ^ 26 <= c < 2 ^ 32 ->
  (next_codepoint (encode_codepoint c ++ tail) = Ret (c, tail) <->
   c < 2 ^ 31 /\ c / 2 ^ 12 mod 64 = c / 2 ^ 11 mod 64).
Proof. exact roundtrip_6. Qed.
Print Assumptions C10_roundtrip_six_bytes_refuted.

Example C10_six_bytes_example : next_codepoint (encode_codepoint 0x4000800) = Ret (0x4001800, []).
Proof. reflexivity. Qed.

(** C10. Decoding any bytes returns a code point or throws; it never reads past the end. *)
Theorem C10_decode_total : forall s : list N,
  (exists c r, next_codepoint s = Ret (c, r) /\ (length r <= length s)%nat) \/ next_codepoint s = Throw.
Proof. exact next_total. Qed.
Print Assumptions C10_decode_total.

(** C11. Well-formed UTF-8 is accepted. *)
Theorem C11_accepts_well_formed_partial : forall (s : list N) (fuel : nat),
  well_formed s -> (length s < fuel)%nat -> is_valid fuel s = Ret true.
Proof. exact wf_valid. Qed.
Print Assumptions C11_accepts_well_formed_partial.

Example C11_example : well_formed [0xE2; 0x82; 0xAC; 0x41].
Proof.
  apply (wf_cons 0x20AC [0x41]); [left; reflexivity|].
  apply (wf_cons 0x41 []); [left; reflexivity|constructor].
Qed.

(** C11 is false: "yes" is answered exactly when the text starts with complete multi-byte
    units (judged by lead bytes alone) followed by nothing or by an ASCII byte and then
    anything at all. *)
Theorem C11_yes_refuted : forall (s : list N) (fuel : nat), bytes s -> (length s < fuel)%nat ->
  (is_valid fuel s = Ret true <->
   exists u r, s = u ++ r /\ units u /\ (r = [] \/ exists a t, r = a :: t /\ a < 128)).
Proof. exact valid_true_iff. Qed.
Print Assumptions C11_yes_refuted.

Example C11_yes_example : is_valid 3 [0x41; 0xFF] = Ret true /\ ~ well_formed [0x41; 0xFF].
Proof.
  split; [reflexivity|]. intro H. inversion H as [|c s Hc Hs E].
  assert (c = 0x41 /\ s = [0xFF]) as [-> ->].
  { unfold utf8_std in E.
    destruct (c <? 0x80) eqn:C1; [injection E; auto|exfalso].
    destruct (c <? 0x800) eqn:C2;
      [assert (192 + c / 64 = 0x41) as X by exact (f_equal (hd 0) E); generalize (c / 64), X; clear; lia|].
    destruct (c <? 0x10000) eqn:C3;
      [assert (224 + c / 4096 = 0x41) as X by exact (f_equal (hd 0) E); generalize (c / 4096), X; clear; lia|].
    assert (240 + c / 262144 = 0x41) as X by exact (f_equal (hd 0) E); generalize (c / 262144), X; clear; lia. }
  inversion Hs as [|c s' Hc' Hs' E'].
  unfold utf8_std in E'. destruct (N.ltb_spec c 0x80) as [C1|C1].
  - injection E'. intros; subst. discriminate C1.
  - destruct (c <? 0x800) eqn:C2; [discriminate E'|].
    destruct (c <? 0x10000) eqn:C3; discriminate E'.
Qed.

(** C11. "No" is answered exactly for a truncated last unit. *)
Theorem C11_no_partial : forall (s : list N) (fuel : nat), bytes s -> (length s < fuel)%nat ->
  (is_valid fuel s = Ret false <->
   exists u b r, s = u ++ b :: r /\ units u /\ (2 <= announced b)%nat /\
     (length (b :: r) < announced b)%nat).
Proof. exact valid_false_iff. Qed.
Print Assumptions C11_no_partial.

(** C11 is false: the check never returns exactly when complete units are followed by a byte
    that cannot start a unit. *)
Theorem C11_terminates_refuted : forall s : list N, bytes s ->
  ((forall fuel, is_valid fuel s = Diverge) <->
   exists u b r, s = u ++ b :: r /\ units u /\ announced b = 0%nat).
Proof. exact valid_loops_iff. Qed.
Print Assumptions C11_terminates_refuted.

Example C11_loops_example : forall fuel, is_valid fuel [0x80] = Diverge.
Proof. apply C11_terminates_refuted; [repeat constructor|]. exists [], 0x80, []. repeat split. constructor. Qed.

(** C12. Text of code points (no NUL, below 2^24) survives conversion to UTF-8 and back... *)
Theorem C12_utf32_roundtrip_partial : forall (t : list N) (fuel : nat),
  Forall (fun c => 0 < c < 2 ^ 24) t -> (length t < fuel)%nat ->
  utf8_to_32 fuel (utf32_to_8 t) = Ret t.
Proof. exact (fun t fuel H => to32_ok t H fuel). Qed.
Print Assumptions C12_utf32_roundtrip_partial.

(** ... and the count is the number of code points. *)
Theorem C12_count_partial : forall (t : list N) (fuel : nat),
  Forall (fun c => 0 < c < 2 ^ 24) t -> (length t < fuel)%nat ->
  count_code_points fuel (utf32_to_8 t) = Ret (length t).
Proof. exact (fun t fuel H => count_ok t H fuel). Qed.
Print Assumptions C12_count_partial.

(** C12 for 16-bit text. *)
Theorem C12_utf16_roundtrip_partial : forall (t : list N) (fuel : nat),
  Forall (fun c => 0 < c < 2 ^ 16) t -> (length t < fuel)%nat ->
  utf8_to_16 fuel (utf16_to_8 t) = Ret t.
Proof. exact (fun t fuel H => to16_ok t H fuel). Qed.
Print Assumptions C12_utf16_roundtrip_partial.

Example C12_example : Forall (fun c => 0 < c < 2 ^ 24) [0x48; 0x20AC; 0x1F600] /\
  utf8_to_32 4 (utf32_to_8 [0x48; 0x20AC; 0x1F600]) = Ret [0x48; 0x20AC; 0x1F600].
Proof. split; [repeat constructor|reflexivity]. Qed.

(** C12 is false: a text with a NUL character is cut there. *)
Theorem C12_nul_refuted : forall (t u : list N) (fuel : nat),
  Forall (fun c => 0 < c < 2 ^ 24) t -> (length t < fuel)%nat ->
  utf8_to_32 fuel (utf32_to_8 (t ++ 0 :: u)) = Ret t.
Proof. exact (fun t u fuel H => to32_nul t u H fuel). Qed.
Print Assumptions C12_nul_refuted.

(** C12 is false: characters beyond U+FFFF become one wrong 16-bit unit (or end the text)
    instead of a surrogate pair. *)
Theorem C12_astral_refuted : forall c : N, 2 ^ 16 <= c < 2 ^ 24 -> forall fuel : nat, (2 <= fuel)%nat ->
  utf8_to_16 fuel (utf32_to_8 [c]) = Ret (if c mod 2 ^ 16 =? 0 then [] else [c mod 2 ^ 16]).
Proof. exact to16_astral. Qed.
Print Assumptions C12_astral_refuted.

(** C12. Conversion of arbitrary bytes returns or throws. *)
Theorem C12_total : forall (fuel : nat) (s : list N), (length s < fuel)%nat ->
  (exists t, utf8_to_32 fuel s = Ret t) \/ utf8_to_32 fuel s = Throw.
Proof. exact to32_total. Qed.
Print Assumptions C12_total.
