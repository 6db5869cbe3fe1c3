(** Model of /repo/src/utils/buffer.{h,cc}: buffers in a heap, with explicit allocation.

    Allocation never fails, except that realloc to 0 bytes frees the block and returns a null
    pointer (as glibc does); malloc(0) returns a block. memcpy of 0 bytes is harmless also
    for null pointers. size_t arithmetic does not wrap. *)
From Verif Require Import Base.

(** A byte of memory; [None] is indeterminate. *)
Notation cell := (option ascii).
(** A block, or [None] once freed; pointers are positions. *)
Notation heap := (list (option (list cell))).

(** Buffer, /repo/src/utils/buffer.h:56-60; an uninitialised mark_ is [None]. *)
Record buf := mk_buf { b_data : option nat; b_size : nat; b_alloc : nat; b_mark : option nat }.

(** The program's variables of type Buffer; [None] outside of their lifetime. *)
Record state := mk_state { st_heap : heap; st_vars : nat -> option buf }.
Definition set_var (v : nat -> option buf) (i : nat) (b : option buf) : nat -> option buf :=
  fun j => if j =? i then b else v j.

Definition malloc (h : heap) (n : nat) : heap * nat := (h ++ [Some (repeat None n)], length h).
Fixpoint put_block (h : heap) (p : nat) (b : option (list cell)) : heap :=
  match h, p with
  | _ :: h', O => b :: h'
  | x :: h', S p' => x :: put_block h' p' b
  | [], _ => []
  end.
(** free, undefined on a pointer that is not a live block. *)
Definition free (h : heap) (p : nat) : outcome heap :=
  match nth_error h p with
  | Some (Some _) => Ret (put_block h p None)
  | _ => UB
  end.
(** Reading [n] bytes from [off] on. *)
Definition load (h : heap) (p : option nat) (off n : nat) : outcome (list cell) :=
  if n =? 0 then Ret [] else
  match p with
  | None => UB
  | Some p => match nth_error h p with
              | Some (Some b) => if off + n <=? length b then Ret (firstn n (skipn off b)) else UB
              | _ => UB
              end
  end.
Definition store (h : heap) (p : option nat) (off : nat) (x : list cell) : outcome heap :=
  if length x =? 0 then Ret h else
  match p with
  | None => UB
  | Some p => match nth_error h p with
              | Some (Some b) =>
                  if off + length x <=? length b
                  then Ret (put_block h p (Some (firstn off b ++ x ++ skipn (off + length x) b))) else UB
              | _ => UB
              end
  end.
(** realloc: a new block with the old contents, as far as they fit. *)
Definition realloc (h : heap) (p : nat) (n : nat) : outcome (heap * option nat) :=
  match nth_error h p with
  | Some (Some b) =>
      let h1 := put_block h p None in
      if n =? 0 then Ret (h1, None)
      else Ret (h1 ++ [Some (firstn n b ++ repeat None (n - length b))], Some (length h1))
  | _ => UB
  end.

Inductive op :=
| New (i : nat)                          (* Buffer() *)
| NewSize (i n : nat)                    (* Buffer(n) *)
| NewFrom (i : nat) (x : str)            (* Buffer(data, size) *)
| NewCopy (i j : nat)                    (* Buffer(const Buffer&) *)
| NewMove (i j : nat)                    (* Buffer(Buffer&&) *)
| AssignCopy (i j : nat)
| AssignMove (i j : nat)
| Destroy (i : nat)
| Append (i : nat) (x : str)
| Truncate (i n : nat)
| Reserve (i n : nat)
| Clear (i : nat)
| SetMark (i n : nat).

(** The variables; using one outside of its lifetime is undefined. *)
Definition get (s : state) (i : nat) : outcome buf :=
  match st_vars s i with Some b => Ret b | None => UB end.
Definition dead (s : state) (i : nat) : outcome unit :=
  match st_vars s i with None => Ret tt | Some _ => UB end.
Definition upd (s : state) (h : heap) (i : nat) (b : buf) : state := mk_state h (set_var (st_vars s) i (Some b)).

(** Buffer::reserve, /repo/src/utils/buffer.cc:132-144; the flag says that it raised. *)
Definition reserve (h : heap) (b : buf) (n : nat) : outcome (heap * buf * bool) :=
  let a := b_alloc b + n in
  match b_data b with
  | None => let '(h', p) := malloc h a in Ret (h', mk_buf (Some p) (b_size b) a (b_mark b), false)
  | Some p =>
      let* (h', q) := realloc h p a in
      Ret (h', mk_buf q (b_size b) a (b_mark b), match q with None => true | _ => false end)
  end.

(** One operation: the new state and whether it raised an exception. *)
Definition step (s : state) (o : op) : outcome (state * bool) :=
  let h := st_heap s in
  match o with
  | New i =>                                                       (* buffer.cc:20 *)
      let* _ := dead s i in Ret (upd s h i (mk_buf None 0 0 (Some 0)), false)
  | NewSize i n =>                                                 (* buffer.cc:36-45 *)
      let* _ := dead s i in
      let '(h', p) := malloc h n in Ret (upd s h' i (mk_buf (Some p) n n (Some 0)), false)
  | NewFrom i x =>                                                 (* buffer.cc:22-34 *)
      let* _ := dead s i in
      let '(h1, p) := malloc h (length x) in
      let* h2 := store h1 (Some p) 0 (map Some x) in
      Ret (upd s h2 i (mk_buf (Some p) (length x) (length x) (Some 0)), false)
  | NewCopy i j =>                                                 (* buffer.cc:47-55 *)
      let* _ := dead s i in
      let* c := get s j in
      let '(h1, p) := malloc h (b_size c) in
      let* x := load h1 (b_data c) 0 (b_size c) in
      let* h2 := store h1 (Some p) 0 x in
      Ret (upd s h2 i (mk_buf (Some p) (b_size c) (b_size c) None), false)
  | NewMove i j =>                                                 (* buffer.cc:74-83 *)
      let* _ := dead s i in
      let* c := get s j in
      Ret (upd (upd s h j (mk_buf None 0 0 (b_mark c))) h i (mk_buf (b_data c) (b_size c) (b_alloc c) (Some 0)), false)
  | AssignCopy i j =>                                              (* buffer.cc:57-72 *)
      let* b := get s i in
      let* h1 := match b_data b with Some p => free h p | None => Ret h end in
      (* i and j may be the same object: the fields are set one after the other *)
      let* c := get s j in
      let '(h2, p) := malloc h1 (b_size c) in
      let s2 := upd s h2 i (mk_buf (Some p) (b_size c) (b_size c) (b_mark b)) in
      let* c2 := get s2 j in
      let* x := load h2 (b_data c2) 0 (b_size c) in
      let* h3 := store h2 (Some p) 0 x in
      Ret (mk_state h3 (st_vars s2), false)
  | AssignMove i j =>                                              (* buffer.cc:85-95 *)
      let* _ := get s i in
      let* c := get s j in
      Ret (upd (upd s h i c) h j (mk_buf None 0 0 (Some 0)), false)
  | Destroy i =>                                                   (* buffer.cc:97-101 *)
      let* b := get s i in
      let* h1 := match b_data b with Some p => free h p | None => Ret h end in
      Ret (mk_state h1 (set_var (st_vars s) i None), false)
  | Append i x =>                                                  (* buffer.cc:111-118 *)
      let* b := get s i in
      let* (h1, b1, raised) := if b_alloc b <? b_size b + length x
                               then reserve h b ((b_size b + length x) - b_alloc b)
                               else Ret (h, b, false) in
      if raised then Ret (upd s h1 i b1, true) else
      let* h2 := store h1 (b_data b1) (b_size b1) (map Some x) in
      Ret (upd s h2 i (mk_buf (b_data b1) (b_size b1 + length x) (b_alloc b1) (b_mark b1)), false)
  | Truncate i n =>                                                (* buffer.cc:124-130 *)
      let* b := get s i in
      if b_size b <? n then Ret (s, true)
      else Ret (upd s h i (mk_buf (b_data b) n (b_alloc b) (b_mark b)), false)
  | Reserve i n =>
      let* b := get s i in
      let* (h1, b1, raised) := reserve h b n in Ret (upd s h1 i b1, raised)
  | Clear i =>                                                     (* buffer.cc:146-149 *)
      let* b := get s i in Ret (upd s h i (mk_buf (b_data b) 0 (b_alloc b) (Some 0)), false)
  | SetMark i n =>                                                 (* buffer.cc:185-187 *)
      let* b := get s i in Ret (upd s h i (mk_buf (b_data b) (b_size b) (b_alloc b) (Some n)), false)
  end.

(** A history; exceptions are caught and the program goes on. The result lists which
    operations raised. *)
Fixpoint run (s : state) (ops : list op) : outcome (state * list bool) :=
  match ops with
  | [] => Ret (s, [])
  | o :: r => let* (s1, raised) := step s o in
              let* (s2, l) := run s1 r in Ret (s2, raised :: l)
  end.
Definition start : state := mk_state [] (fun _ => None).

(** toString, charAt, find, size, allocSize, mark: /repo/src/utils/buffer.cc:155-191. *)
Definition contents (s : state) (i : nat) : outcome (list cell) :=
  let* b := get s i in load (st_heap s) (b_data b) 0 (b_size b).
Definition char_at (s : state) (i pos : nat) : outcome cell :=
  let* b := get s i in
  if b_size b <=? pos then Throw
  else let* x := load (st_heap s) (b_data b) pos 1 in Ret (hd None x).
Fixpoint find_loop (s : state) (b : buf) (c : ascii) (n k : nat) : outcome (option nat) :=
  match k with
  | O => Ret None
  | S k' =>
      let* x := load (st_heap s) (b_data b) n 1 in
      match hd None x with
      | None => UB                       (* comparing an indeterminate byte *)
      | Some a => if Ascii.eqb a c then Ret (Some n) else find_loop s b c (S n) k'
      end
  end.
Definition find (s : state) (i : nat) (c : ascii) : outcome (option nat) :=
  let* b := get s i in find_loop s b c 0 (b_size b).
Definition size (s : state) (i : nat) : outcome nat := let* b := get s i in Ret (b_size b).
Definition mark (s : state) (i : nat) : outcome nat :=
  let* b := get s i in match b_mark b with Some m => Ret m | None => UB end.
