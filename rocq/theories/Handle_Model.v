(** Model of class File, /repo/src/utils/file.cc and file.h, over a small model of the operating system:
    files with names, open files with a position, descriptors. Programs are histories of operations. *)
From Verif Require Import Base.
From Coq Require Import NArith ZArith.

(** kOpenFlags, file.h:28-67. *)
Definition O_READ : N := 1. Definition O_WRITE : N := 2. Definition O_CREATE : N := 4. Definition O_CREATEOROPEN : N := 8.
Definition O_APPEND : N := 16. Definition O_TRUNCATE : N := 32. Definition O_AUTODELETE : N := 64. Definition O_ALLOWFORK : N := 128.
(** (flags & f) > 0 *)
Definition has (flags f : N) : bool := (0 <? N.land flags f)%N.

(** An open file description of the kernel: file, position, access; [of_append]: opened to append. *)
Record ofd := mk_ofd { of_file : nat; of_pos : nat; of_read : bool; of_write : bool; of_append : bool }.
(** The system: names of the files, contents by number, open file descriptions, and the descriptors
    of the process (number, description, close on exec). *)
Record sys := mk_sys { names : list (str * nat); contents : list (list ascii); ofds : list ofd; fds : list (nat * (nat * bool)) }.
(** A File object: fd_ (None: -1) and flags_. *)
Record file := mk_file { f_fd : option nat; f_flags : N }.

Fixpoint lookup {A B} (eqb : A -> A -> bool) (k : A) (l : list (A * B)) : option B :=
  match l with [] => None | (k', v) :: r => if eqb k k' then Some v else lookup eqb k r end.
Definition remove_key {A B} (eqb : A -> A -> bool) (k : A) (l : list (A * B)) : list (A * B) := filter (fun e => negb (eqb k (fst e))) l.
Fixpoint update {A} (i : nat) (a : A) (l : list A) : list A :=
  match l, i with [], _ => [] | _ :: r, O => a :: r | x :: r, S j => x :: update j a r end.

(** The lowest number that is not in use, as open and dup return it. *)
Fixpoint lowest (fuel n : nat) (l : list nat) : nat :=
  match fuel with O => n | S k => if existsb (Nat.eqb n) l then lowest k (S n) l else n end.
Definition new_fd (s : sys) : nat := lowest (S (list_max (map fst (fds s)))) 0 (map fst (fds s)).

(** open(2), with the flags that File::openFile can set. [allowed]: the system does not refuse (rights,
    limits). The close-on-exec flag is never set (file.cc:58 passes no O_CLOEXEC). *)
Definition sys_open (s : sys) (name : str) (rd wr creat excl trunc allowed : bool) : option (sys * nat) :=
  if negb allowed then None
  else
    let opened s i := let fd := new_fd s in
      Some (mk_sys (names s) (contents s) (ofds s ++ [mk_ofd i 0 rd wr false]) ((fd, (length (ofds s), false)) :: fds s), fd) in
    match lookup str_eqb name (names s) with
    | Some i => if creat && excl then None
                else opened (if trunc then mk_sys (names s) (update i [] (contents s)) (ofds s) (fds s) else s) i
    | None => if creat then opened (mk_sys ((name, length (contents s)) :: names s) (contents s ++ [[]]) (ofds s) (fds s)) (length (contents s))
              else None
    end.
Definition sys_unlink (s : sys) (name : str) : sys := mk_sys (remove_key str_eqb name (names s)) (contents s) (ofds s) (fds s).
Definition sys_close (s : sys) (fd : nat) : sys := mk_sys (names s) (contents s) (ofds s) (remove_key Nat.eqb fd (fds s)).
(** What a descriptor stands for. *)
Definition fd_ofd (s : sys) (fd : option nat) : option (nat * ofd) :=
  match fd with
  | None => None
  | Some n => match lookup Nat.eqb n (fds s) with
              | Some (o, _) => match nth_error (ofds s) o with Some d => Some (o, d) | None => None end
              | None => None
              end
  end.
Definition data_of (s : sys) (d : ofd) : list ascii := nth (of_file d) (contents s) [].
Definition set_pos (s : sys) (o : nat) (d : ofd) (p : nat) : sys :=
  mk_sys (names s) (contents s) (update o (mk_ofd (of_file d) p (of_read d) (of_write d) (of_append d)) (ofds s)) (fds s).
Definition set_data (s : sys) (d : ofd) (b : list ascii) : sys := mk_sys (names s) (update (of_file d) b (contents s)) (ofds s) (fds s).
(** Bytes written at a position: a gap before it is filled with zeros. *)
Definition patch (old : list ascii) (p : nat) (b : list ascii) : list ascii :=
  match b with [] => old | _ => firstn p old ++ repeat zero (p - length old) ++ b ++ skipn (p + length b) old end.

(** What an operation returns: a value, or an exception. The system may have changed either way. *)
Inductive answer := Done | Bytes (b : list ascii) | Size (n : nat) | Writable (b : bool) | Raised.
(** A program has variables that hold File objects; an operation names its variable. *)
Record state := mk_state { the_sys : sys; objects : list (nat * file) }.
Inductive op :=
| Open (v : nat) (name : str) (flags : N) (allowed : bool)  (** File v = File::openFile(name, flags) *)
| Move (v w : nat)                                          (** File v(std::move(w)) *)
| Clone (v w : nat)                                         (** File v = w.clone() *)
| Destroy (v : nat)                                         (** ~File of v *)
| Seek (v pos : nat)
| Read (v n k : nat)                                        (** the system delivers at most k bytes *)
| Write (v : nat) (b : list ascii) (k : nat)                (** the system takes at most k bytes *)
| Truncate (v n : nat)
| GetSize (v : nat)
| IsWritable (v : nat).

Definition put (v : nat) (f : file) (st : state) : state := mk_state (the_sys st) ((v, f) :: remove_key Nat.eqb v (objects st)).
Definition with_sys (st : state) (s : sys) : state := mk_state s (objects st).
Definition get (st : state) (v : nat) : option file := lookup Nat.eqb v (objects st).

(** File::openFile, file.cc:24-70, for a variable that does not exist yet. *)
Definition open_file (st : state) (v : nat) (name : str) (flags : N) (allowed : bool) : state * answer :=
  let m := N.land flags (N.lor O_READ O_WRITE) in
  if (m =? 0)%N then (st, Raised)
  else
    let rd := (m =? O_READ)%N || (m =? N.lor O_READ O_WRITE)%N in let wr := (m =? O_WRITE)%N || (m =? N.lor O_READ O_WRITE)%N in
    let creat := has flags O_CREATEOROPEN || has flags O_CREATE in
    let excl := negb (has flags O_CREATEOROPEN) && has flags O_CREATE in
    match sys_open (the_sys st) name rd wr creat excl (has flags O_TRUNCATE) allowed with
    | None => (st, Raised)
    | Some (s, fd) =>
        let s := if has flags O_AUTODELETE then sys_unlink s name else s in
        (put v (mk_file (Some fd) flags) (with_sys st s), Done)
    end.

(** One operation; an object that does not exist, or a variable used twice, is no C++ program
    ([None]). *)
Definition step (st : state) (o : op) : option (state * answer) :=
  match o with
  | Open v name flags allowed => match get st v with Some _ => None | None => Some (open_file st v name flags allowed) end
  | Move v w =>  (* File(File&&), file.cc:80-82 *)
      match get st v, get st w with
      | None, Some f => Some (put v f (put w (mk_file None (f_flags f)) st), Done)
      | _, _ => None
      end
  | Clone v w =>  (* clone, file.cc:134-142; dup fails for -1 *)
      match get st v, get st w with
      | None, Some f =>
          match f_fd f with
          | None => Some (st, Raised)
          | Some n => match lookup Nat.eqb n (fds (the_sys st)) with
                      | None => Some (st, Raised)
                      | Some (d, _) => let s := the_sys st in let fd := new_fd s in
                          Some (put v (mk_file (Some fd) (f_flags f)) (with_sys st (mk_sys (names s) (contents s) (ofds s) ((fd, (d, false)) :: fds s))), Done)
                      end
          end
      | _, _ => None
      end
  | Destroy v =>  (* ~File, file.cc:74-78 *)
      match get st v with
      | None => None
      | Some f => let st' := mk_state (the_sys st) (remove_key Nat.eqb v (objects st)) in
          Some (match f_fd f with Some n => with_sys st' (sys_close (the_sys st) n) | None => st' end, Done)
      end
  | Seek v pos =>  (* seekTo, file.cc:102-106 *)
      match get st v with
      | None => None
      | Some f => Some match fd_ofd (the_sys st) (f_fd f) with
                       | None => (st, Raised)
                       | Some (o, d) => if (Z.of_nat pos <? 2 ^ 63)%Z then (with_sys st (set_pos (the_sys st) o d pos), Done) else (st, Raised)
                       end
      end
  | Read v n k =>  (* read, file.cc:108-120 *)
      match get st v with
      | None => None
      | Some f => Some match fd_ofd (the_sys st) (f_fd f) with
                       | None => (st, Raised)
                       | Some (o, d) => if of_read d then
                             let b := firstn (Nat.min n k) (skipn (of_pos d) (data_of (the_sys st) d)) in
                             (with_sys st (set_pos (the_sys st) o d (of_pos d + length b)), Bytes b)
                           else (st, Raised)
                       end
      end
  | Write v b k =>  (* write, file.cc:122-132: less than all is an error *)
      match get st v with
      | None => None
      | Some f => Some match fd_ofd (the_sys st) (f_fd f) with
                       | None => (st, Raised)
                       | Some (o, d) => if of_write d then
                             let w := firstn k b in
                             let p := if of_append d then length (data_of (the_sys st) d) else of_pos d in
                             (with_sys st (set_pos (set_data (the_sys st) d (patch (data_of (the_sys st) d) p w)) o d (p + length w)),
                              if (length w =? length b)%nat then Done else Raised)
                           else (st, Raised)
                       end
      end
  | Truncate v n =>  (* truncate, file.cc:144-148 *)
      match get st v with
      | None => None
      | Some f => Some match fd_ofd (the_sys st) (f_fd f) with
                       | None => (st, Raised)
                       | Some (o, d) => if of_write d then
                             let old := data_of (the_sys st) d in
                             (with_sys st (set_data (the_sys st) d (firstn n old ++ repeat zero (n - length old))), Done)
                           else (st, Raised)
                       end
      end
  | GetSize v =>  (* size, file.cc:92-100 *)
      match get st v with
      | None => None
      | Some f => Some match fd_ofd (the_sys st) (f_fd f) with
                       | None => (st, Raised)
                       | Some (_, d) => (st, Size (length (data_of (the_sys st) d)))
                       end
      end
  | IsWritable v =>  (* isWritable, file.cc:88-90 *)
      match get st v with
      | None => None
      | Some f => Some (st, Writable (N.land (f_flags f) O_WRITE =? O_WRITE)%N)
      end
  end.
(** A history: the operations one after the other. *)
Inductive history : state -> list (op * answer) -> state -> Prop :=
| h_nil st : history st [] st
| h_cons st o a st1 l st2 : step st o = Some (st1, a) -> history st1 l st2 -> history st ((o, a) :: l) st2.
(** execve(2): the descriptors that another program gets. *)
Definition inherited (s : sys) : list nat := map fst (filter (fun e => negb (snd (snd e))) (fds s)).
