(** Model of /repo/src/utils/UTF8.cc and the UTF conversions of
    /repo/src/utils/stringutil.cc. Bytes and code points are [N]; a pointer pair
    (cur, end) is the unread suffix. char32_t is 32 bits: inputs are taken below 2^32 by the
    theorems' hypotheses; no operation below can leave that range for such inputs. *)
From Verif Require Import Base.
From Coq Require Import NArith.
Local Open Scope N_scope.

Definition text8 := list N.

(** The mask tests of /repo/src/utils/UTF8.cc:31-96. *)
Definition lead2 (b : N) : bool := N.land b 224 =? 192.
Definition lead3 (b : N) : bool := N.land b 240 =? 224.
Definition lead4 (b : N) : bool := N.land b 248 =? 240.
Definition lead5 (b : N) : bool := N.land b 252 =? 248.
Definition lead6 (b : N) : bool := N.land b 254 =? 252.

(** UTF8::nextCodepoint, /repo/src/utils/UTF8.cc:19-99. Returns the code point and the
    advanced cursor. *)
Definition next_codepoint (s : text8) : outcome (N * text8) :=
  match s with
  | [] => Ret (0, [])
  | b :: r =>
      if b <? 128 then Ret (b, r)
      else if lead2 b then
        match r with
        | c1 :: r' =>
            Ret (N.lor (N.shiftl (N.land b 31) 6) (N.land c1 63), r')
        | _ => Throw
        end
      else if lead3 b then
        match r with
        | c1 :: c2 :: r' =>
            Ret (N.lor (N.lor (N.shiftl (N.land b 15) 12)
                              (N.shiftl (N.land c1 63) 6)) (N.land c2 63), r')
        | _ => Throw
        end
      else if lead4 b then
        match r with
        | c1 :: c2 :: c3 :: r' =>
            Ret (N.lor (N.lor (N.lor (N.shiftl (N.land b 7) 18)
                   (N.shiftl (N.land c1 63) 12)) (N.shiftl (N.land c2 63) 6))
                   (N.land c3 63), r')
        | _ => Throw
        end
      else if lead5 b then
        match r with
        | c1 :: c2 :: c3 :: c4 :: r' =>
            Ret (N.lor (N.lor (N.lor (N.lor (N.shiftl (N.land b 3) 14)
                   (N.shiftl (N.land c1 63) 18)) (N.shiftl (N.land c2 63) 12))
                   (N.shiftl (N.land c3 63) 6)) (N.land c4 63), r')
        | _ => Throw
        end
      else if lead6 b then
        match r with
        | c1 :: c2 :: c3 :: c4 :: c5 :: r' =>
            Ret (N.lor (N.lor (N.lor (N.lor (N.lor (N.shiftl (N.land b 1) 30)
                   (N.shiftl (N.land c1 63) 24)) (N.shiftl (N.land c2 63) 18))
                   (N.shiftl (N.land c3 63) 12)) (N.shiftl (N.land c4 63) 6))
                   (N.land c5 63), r')
        | _ => Throw
        end
      else Throw
  end.

(** UTF8::isValidUTF8, /repo/src/utils/UTF8.cc:105-162. The loop [continue]s with the
    cursor advanced, or falls through to its end with the cursor unchanged. *)
Fixpoint is_valid (fuel : nat) (s : text8) : outcome bool :=
  match s with
  | [] => Ret true
  | b :: r =>
      match fuel with
      | O => Diverge
      | S n =>
          if b <? 128 then Ret true                      (* lines 109-112 *)
          else if lead2 b then
            match r with _ :: r' => is_valid n r' | _ => Ret false end
          else if lead3 b then
            match r with _ :: _ :: r' => is_valid n r' | _ => Ret false end
          else if lead4 b then
            match r with _ :: _ :: _ :: r' => is_valid n r' | _ => Ret false end
          else if lead5 b then
            match r with _ :: _ :: _ :: _ :: r' => is_valid n r' | _ => Ret false end
          else if lead6 b then
            match r with _ :: _ :: _ :: _ :: _ :: r' => is_valid n r' | _ => Ret false end
          else is_valid n s
      end
  end.

(** The casts to char of encodeCodepoint keep the low byte; every operand below is already
    smaller than 256. *)
Definition cont (x : N) : N := N.lor 128 (N.land x 63).

(** UTF8::encodeCodepoint, /repo/src/utils/UTF8.cc:166-209: the bytes appended. *)
Definition encode_codepoint (c : N) : text8 :=
  if c <? 128 then [c]
  else if c <? 2048 then
    [N.lor 192 (N.land (N.shiftr c 6) 31); cont c]
  else if c <? 65536 then
    [N.lor 224 (N.land (N.shiftr c 12) 15); cont (N.shiftr c 6); cont c]
  else if c <? 2097152 then
    [N.lor 240 (N.land (N.shiftr c 18) 7); cont (N.shiftr c 12); cont (N.shiftr c 6); cont c]
  else if c <? 67108864 then
    [N.lor 248 (N.land (N.shiftr c 24) 3); cont (N.shiftr c 18); cont (N.shiftr c 12);
     cont (N.shiftr c 6); cont c]
  else
    [N.lor 252 (N.land (N.shiftr c 30) 1); cont (N.shiftr c 24); cont (N.shiftr c 18);
     cont (N.shiftr c 11); cont (N.shiftr c 6); cont c].

(** StringUtil::convertUTF32To8, /repo/src/utils/stringutil.cc:438-447, and
    convertUTF16To8, :449-458. *)
Fixpoint utf32_to_8 (t : list N) : text8 :=
  match t with
  | [] => []
  | c :: r => encode_codepoint c ++ utf32_to_8 r
  end.
Definition utf16_to_8 := utf32_to_8.

(** StringUtil::convertUTF8To32, /repo/src/utils/stringutil.cc:409-422. *)
Fixpoint utf8_to_32 (fuel : nat) (s : text8) : outcome (list N) :=
  match fuel with
  | O => Diverge
  | S n =>
      let* (c, r) := next_codepoint s in
      if c =? 0 then Ret [] else let* t := utf8_to_32 n r in Ret (c :: t)
  end.

(** StringUtil::convertUTF8To16, /repo/src/utils/stringutil.cc:424-436: the result of
    nextCodepoint is stored in a char16_t. *)
Fixpoint utf8_to_16 (fuel : nat) (s : text8) : outcome (list N) :=
  match fuel with
  | O => Diverge
  | S n =>
      let* (c, r) := next_codepoint s in
      let u := c mod 65536 in
      if u =? 0 then Ret [] else let* t := utf8_to_16 n r in Ret (u :: t)
  end.

(** StringUtil::countUTF8CodePoints, /repo/src/utils/stringutil.cc:460-469. *)
Fixpoint count_code_points (fuel : nat) (s : text8) : outcome nat :=
  match fuel with
  | O => Diverge
  | S n =>
      let* (c, r) := next_codepoint s in
      if c =? 0 then Ret O else let* k := count_code_points n r in Ret (S k)
  end.
