(** Model of /repo/src/utils/outputstream.cc. *)
From Verif Require Import Base.

(* ---------------- writing ---------------- *)
(** What a stream writes to. *)
Inductive target := ToString | ToBuffer | ToFile.
(** The kernel: for the n-th call and the number of bytes offered, how many of them it takes, or
    that it fails; for vdprintf, how many bytes went out before a failure. *)
Record kernel := { k_write : nat -> nat -> option nat; k_dprintf_fails : nat -> nat -> option nat }.
(** The bytes that are in the string, in the buffer or in the file, and the number of calls. *)
Record sink := mk_sink { s_bytes : str; s_calls : nat }.

Section Write.
  Variable K : kernel.
  (** StringOutputStream::write, outputstream.cc:132-135; BufferOutputStream::write, :144-147;
      FileOutputStream::write, :100-110: one call of ::write. *)
  Definition stream_write (k : target) (data : str) (s : sink) : outcome nat * sink :=
    match k with
    | ToString | ToBuffer => (Ret (length data), mk_sink (s_bytes s ++ data) (s_calls s))
    | ToFile =>
        match k_write K (s_calls s) (length data) with
        | None => (Throw, mk_sink (s_bytes s) (S (s_calls s)))
        | Some n => (Ret n, mk_sink (s_bytes s ++ firstn n data) (S (s_calls s)))
        end
    end.
  (** write(const std::string&) and write(const Buffer&), :36-42. *)
  Definition stream_write_string := stream_write.
  Definition stream_write_buffer := stream_write.
  (** OutputStream::printf, :45-64, and FileOutputStream::printf, :112-123, which overrides it.
      [None]: the format cannot be printed (vsnprintf returns a negative number). *)
  Definition stream_printf (k : target) (t : option str) (s : sink) : outcome nat * sink :=
    match t with
    | None => (Throw, s)
    | Some d =>
        match k with
        | ToString | ToBuffer =>
            if (Z.of_nat (length d) <? 8192)%Z then let '(_, s') := stream_write k d s in (Ret (length d), s') else (Throw, s)
        | ToFile =>
            match k_dprintf_fails K (s_calls s) (length d) with
            | None => (Ret (length d), mk_sink (s_bytes s ++ d) (S (s_calls s)))
            | Some n => (Throw, mk_sink (s_bytes s ++ firstn n d) (S (s_calls s)))
            end
        end
    end.
End Write.

(* ---------------- descriptors ---------------- *)
(** A stream on a descriptor: FileOutputStream(fd, close_on_destroy), :88-92. *)
Record fstream := mk_fstream { f_fd : nat; f_owns : bool }.
(** The open descriptors of the process, and the streams by number; [None]: destroyed. *)
Record process := mk_process { open_fds : list nat; streams : list (option fstream) }.
(** open() gives the lowest free descriptor. *)
Fixpoint lowest_from (fuel n : nat) (l : list nat) : nat :=
  match fuel with
  | O => n
  | S k => if existsb (Nat.eqb n) l then lowest_from k (S n) l else n
  end.
Definition lowest (l : list nat) : nat := lowest_from (length l) 0 l.
Definition with_stream (f : fstream) (p : process) : process := mk_process (open_fds p) (streams p ++ [Some f]).
(** openFile, :66-86; [ok]: open() succeeds. *)
Definition open_file (ok : bool) (p : process) : outcome unit * process :=
  if ok then
    let fd := lowest (open_fds p) in
    let p' := mk_process (fd :: open_fds p) (streams p) in
    if fd <? 1 then (Throw, p') else (Ret tt, with_stream (mk_fstream fd true) p')
  else (Throw, p).
(** getStdout and getStderr, :26-34. *)
Definition get_stdout (p : process) : outcome unit * process := (Ret tt, with_stream (mk_fstream 1 false) p).
Definition get_stderr (p : process) : outcome unit * process := (Ret tt, with_stream (mk_fstream 2 false) p).
(** ~FileOutputStream, :94-98, for the i-th stream. *)
Definition close_fd (fd : nat) (l : list nat) : list nat := remove Nat.eq_dec fd l.
Fixpoint set_nth {A} (i : nat) (x : A) (l : list A) : list A :=
  match l, i with [], _ => [] | _ :: r, O => x :: r | y :: r, S j => y :: set_nth j x r end.
Definition destroy (i : nat) (p : process) : outcome unit * process :=
  match nth_error (streams p) i with
  | Some (Some f) =>
      (Ret tt, mk_process (if f_owns f then close_fd (f_fd f) (open_fds p) else open_fds p) (set_nth i None (streams p)))
  | _ => (UB, p)
  end.
