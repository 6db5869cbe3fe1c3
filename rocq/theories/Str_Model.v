(** Model of /repo/src/utils/stringutil.cc (without the UTF-8 conversions, see Utf8_Model.v)
    and of BufferUtil::hexPrint, /repo/src/utils/bufferutil.cc. A std::string is the list of
    its bytes; `size_t(-1)` and npos are [None]. *)
From Verif Require Import Base.

(* ---------------- std::string::find ---------------- *)
(** Does [s] start with [p]? *)
Fixpoint starts (p s : str) : bool :=
  match p, s with
  | [], _ => true
  | a :: p', b :: s' => Ascii.eqb a b && starts p' s'
  | _ :: _, [] => false
  end.
(** The first position of [p] in [s]. *)
Fixpoint find_sub (p s : str) : option nat :=
  if starts p s then Some 0
  else match s with
       | [] => None
       | _ :: s' => option_map S (find_sub p s')
       end.
(** std::string::find(p, pos): npos when pos is behind the end. *)
Definition find_from (p s : str) (pos : nat) : option nat :=
  if pos <=? length s then option_map (plus pos) (find_sub p (skipn pos s)) else None.

(* ---------------- split, join, replace ---------------- *)
(** StringUtil::split, /repo/src/utils/stringutil.cc:152-172. The assertion on an empty
    pattern is taken as compiled out. *)
Fixpoint split_loop (fuel : nat) (s pat : str) (begin : nat) (parts : list str) : outcome (list str) :=
  match fuel with
  | O => Diverge
  | S fuel' =>
      match find_from pat s begin with
      | None => Ret (parts ++ [skipn begin s])
      | Some e => split_loop fuel' s pat (e + length pat) (parts ++ [firstn (e - begin) (skipn begin s)])
      end
  end.
Definition split (fuel : nat) (s pat : str) : outcome (list str) := split_loop fuel s pat 0 [].

(** StringUtil::join, /repo/src/utils/stringutil.cc:174-186. *)
Fixpoint join_loop (l : list str) (i : nat) (sep out : str) : str :=
  match l with
  | [] => out
  | x :: l' => join_loop l' (S i) sep ((if 0 <? i then out ++ sep else out) ++ x)
  end.
Definition join (l : list str) (sep : str) : str := join_loop l 0 sep [].

(** StringUtil::replaceAll, /repo/src/utils/stringutil.cc:137-150; std::string::replace(cur,
    n, r) exchanges the n bytes from cur on. *)
Definition replace_at (s : str) (cur n : nat) (r : str) : str := firstn cur s ++ r ++ skipn (cur + n) s.
Fixpoint replace_loop (fuel : nat) (s pat r : str) (cur : nat) : outcome str :=
  match fuel with
  | O => Diverge
  | S fuel' =>
      match find_from pat s cur with
      | None => Ret s
      | Some c => replace_loop fuel' (replace_at s c (length pat) r) pat r (c + length r)
      end
  end.
Definition replace_all (fuel : nat) (s pat r : str) : outcome str :=
  if length s =? 0 then Ret s else replace_loop fuel s pat r 0.

(* ---------------- comparisons ---------------- *)
(** StringUtil::beginsWith and endsWith, /repo/src/utils/stringutil.cc:203-224;
    str.compare(pos, n, t) == 0 says that the n bytes from pos on are t. *)
Definition begins_with (s p : str) : bool :=
  if length s <? length p then false else str_eqb (firstn (length p) s) p.
Definition ends_with (s x : str) : bool :=
  if length s <? length x then false
  else str_eqb (firstn (length x) (skipn (length s - length x) s)) x.
(** StringUtil::compare, /repo/src/utils/stringutil.cc:226-246. *)
Fixpoint compare (a b : str) : Z :=
  match a, b with
  | x :: a', y :: b' =>
      if Ascii.eqb x y then compare a' b'
      else if nat_of_ascii x <? nat_of_ascii y then (-1)%Z else 1%Z
  | _ :: _, [] => 1%Z
  | [], _ :: _ => (-1)%Z
  | [], [] => 0%Z
  end.

(* ---------------- classes of strings ---------------- *)
Definition between (lo hi c : ascii) : bool :=
  (nat_of_ascii lo <=? nat_of_ascii c) && (nat_of_ascii c <=? nat_of_ascii hi).
(** isHexString, /repo/src/utils/stringutil.cc:249-261. *)
Definition hex_char (c : ascii) : bool :=
  between "0" "9" c || between "a" "f" c || between "A" "F" c.
Definition is_hex_string (s : str) : bool := forallb hex_char s.
(** isAlphanumeric, /repo/src/utils/stringutil.cc:263-280. *)
Definition alnum_char (c : ascii) : bool :=
  between "0" "9" c || between "a" "z" c || between "A" "Z" c.
Definition is_alphanumeric (s : str) : bool := forallb alnum_char s.
(** isShellSafe, /repo/src/utils/stringutil.cc:282-302. *)
Definition shell_safe_char (c : ascii) : bool :=
  between "0" "9" c || between "a" "z" c || between "A" "Z" c || Ascii.eqb c "_" || Ascii.eqb c "-" || Ascii.eqb c ".".
Definition is_shell_safe (s : str) : bool := forallb shell_safe_char s.
(** isDigitString, /repo/src/utils/stringutil.cc:304-316. *)
Definition digit_char (c : ascii) : bool := between "0" "9" c.
Definition is_digit_string (s : str) : bool := forallb digit_char s.
(** isNumber, /repo/src/utils/stringutil.cc:318-350: the first loop stops at a point (or at
    the end), so that the test for a comma behind it never holds. *)
Fixpoint number_int (s : str) : option str :=
  match s with
  | [] => Some []
  | c :: r => if Ascii.eqb c "." then Some s else if digit_char c then number_int r else None
  end.
Definition is_number (s : str) : bool :=
  let s1 := match s with c :: r => if Ascii.eqb c "-" then r else s | [] => s end in
  match number_int s1 with
  | None => false
  | Some s2 =>
      let s3 := match s2 with c :: r => if Ascii.eqb c "." || Ascii.eqb c "," then r else s2 | [] => s2 end in
      forallb digit_char s3
  end.
(** stripShell, /repo/src/utils/stringutil.cc:472-482. *)
Definition strip_shell (s : str) : str :=
  filter (fun c => alnum_char c || Ascii.eqb c "_" || Ascii.eqb c "-" || Ascii.eqb c ".") s.

(* ---------------- trimming ---------------- *)
(** ltrim, /repo/src/utils/stringutil.cc:113-117. front() of an empty string is undefined. *)
Fixpoint ltrim (s : str) : outcome str :=
  match s with
  | [] => UB
  | c :: r => if Ascii.eqb c c_sp then ltrim r else Ret s
  end.
(** The loops of rtrim, stripTrailingSlashes and chomp, /repo/src/utils/stringutil.cc:119-135,
    on the reversed string; back() of an empty string is undefined. *)
Fixpoint pop_back_while (strip : ascii -> bool) (rev_s : str) : outcome str :=
  match rev_s with
  | [] => UB
  | c :: r => if strip c then pop_back_while strip r else Ret (rev rev_s)
  end.
Definition rtrim (s : str) : outcome str := pop_back_while (fun c => Ascii.eqb c c_sp) (rev s).
Definition strip_trailing_slashes (s : str) : outcome str := pop_back_while (fun c => Ascii.eqb c "/") (rev s).
Definition chomp (s : str) : outcome str := pop_back_while (fun c => Ascii.eqb c c_nl || Ascii.eqb c c_cr) (rev s).
(** BufferUtil::stripTrailingBytes, /repo/src/utils/bufferutil.cc:18-27: here the loop checks
    for the beginning. *)
Fixpoint strip_bytes_rev (b : ascii) (rev_s : str) : str :=
  match rev_s with
  | [] => []
  | c :: r => if Ascii.eqb c b then strip_bytes_rev b r else rev_s
  end.
Definition strip_trailing_bytes (s : str) (b : ascii) : str := rev (strip_bytes_rev b (rev s)).

(* ---------------- searching ---------------- *)
(** find, /repo/src/utils/stringutil.cc:368-376. *)
Fixpoint find_char (s : str) (c : ascii) : option nat :=
  match s with
  | [] => None
  | x :: r => if Ascii.eqb x c then Some 0 else option_map S (find_char r c)
  end.
(** findLast, /repo/src/utils/stringutil.cc:378-386. The index is an int: a length above
    2^31 makes it negative. *)
Fixpoint find_down (s : str) (c : ascii) (n : nat) : option nat :=
  match n with
  | O => None
  | S i => match nth_error s i with
           | Some x => if Ascii.eqb x c then Some i else find_down s c i
           | None => find_down s c i
           end
  end.
Definition as_int (n : Z) : Z := ((n + 2 ^ 31) mod 2 ^ 32 - 2 ^ 31)%Z.
Definition find_last (s : str) (c : ascii) : option nat :=
  let i := as_int (Z.of_nat (length s) - 1) in
  if (i <? 0)%Z then None else find_down s c (Z.to_nat (i + 1)).
(** toLower and toUpper, /repo/src/utils/stringutil.cc:352-366, in the C locale. *)
Definition lower_char (c : ascii) : ascii :=
  if between "A" "Z" c then ascii_of_nat (nat_of_ascii c + 32) else c.
Definition upper_char (c : ascii) : ascii :=
  if between "a" "z" c then ascii_of_nat (nat_of_ascii c - 32) else c.
Definition to_lower (s : str) : str := map lower_char s.
Definition to_upper (s : str) : str := map upper_char s.
(** includes and includesi, /repo/src/utils/stringutil.cc:388-398. *)
Definition includes (s x : str) : bool := match find_sub x s with Some _ => true | None => false end.
Definition includesi (s x : str) : bool := includes (to_lower s) (to_lower x).

(* ---------------- printing ---------------- *)
(** BufferUtil::hexPrint, /repo/src/utils/bufferutil.cc:33-58, for fewer than 2^31 bytes. *)
Definition hex_table : str := s_ "0123456789abcdef".
Definition hex_digit (n : nat) : ascii := nth n hex_table c_sp.
Definition hex_byte (c : ascii) : str :=
  let n := nat_of_ascii c in [hex_digit (n / 16); hex_digit (n mod 16)].
Fixpoint hex_loop (l : str) (i : nat) (sep : bool) (out : str) : str :=
  match l with
  | [] => out
  | c :: l' => hex_loop l' (S i) sep ((if sep && (0 <? i) then out ++ [c_sp] else out) ++ hex_byte c)
  end.
(** The reverse loop runs over the same indices from the end; the separator is left out at
    the last index. *)
Definition hex_print (l : str) (sep reverse : bool) : str := hex_loop (if reverse then rev l else l) 0 sep [].

(** toString(double), /repo/src/utils/stringutil.cc:92-106. [f] is the text that "%f" stands
    for; snprintf returns its length also when the 128 bytes of the buffer do not suffice,
    and then the loop reads behind the buffer. *)
Fixpoint strip_zeros (rev_f : str) : str :=
  match rev_f with
  | a :: r =>
      match r with
      | b :: _ :: _ => if Ascii.eqb a "0" && negb (Ascii.eqb b ".") then strip_zeros r else rev_f
      | _ => rev_f
      end
  | [] => []
  end.
Definition double_to_string (f : str) : outcome str :=
  if 128 <=? length f then UB else Ret (rev (strip_zeros (rev f))).
