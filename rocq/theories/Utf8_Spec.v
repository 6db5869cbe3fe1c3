From Verif Require Import Base.
From Coq Require Import NArith.
Local Open Scope N_scope.

(** The UTF-8 encoding form (Unicode standard, table 3-6; RFC 3629 section 3), by
    arithmetic on the code point. *)
Definition utf8_std (c : N) : list N :=
  if c <? 0x80 then [c]
  else if c <? 0x800 then [192 + c / 64; 128 + c mod 64]
  else if c <? 0x10000 then [224 + c / 4096; 128 + c / 64 mod 64; 128 + c mod 64]
  else [240 + c / 262144; 128 + c / 4096 mod 64; 128 + c / 64 mod 64; 128 + c mod 64].

(** Unicode scalar values. *)
Definition scalar (c : N) : Prop := c < 0xD800 \/ 0xE000 <= c < 0x110000.

(** Well-formed UTF-8: a concatenation of encodings of scalar values. *)
Inductive well_formed : list N -> Prop :=
| wf_nil : well_formed []
| wf_cons c s : scalar c -> well_formed s -> well_formed (utf8_std c ++ s).

(** Number of bytes the lead byte announces (0: not a lead byte). *)
Definition announced (b : N) : nat :=
  if b <? 128 then 1 else if b <? 192 then 0 else if b <? 224 then 2 else if b <? 240 then 3
  else if b <? 248 then 4 else if b <? 252 then 5 else if b <? 254 then 6 else 0.

(** A run of complete multi-byte units, judged by their lead bytes only. *)
Inductive units : list N -> Prop :=
| u_nil : units []
| u_cons b t s : (2 <= announced b)%nat -> length t = (announced b - 1)%nat -> units s ->
    units ((b :: t) ++ s).

Definition bytes (s : list N) : Prop := Forall (fun b => b < 256) s.
