(** Output streams (C101). *)
From Verif Require Import Base Stream_Model.

Inductive wcall := Write (d : str) | WriteString (d : str) | WriteBuffer (d : str) | Printf (t : option str).
Section Run.
  Variable K : kernel.
  Variable k : target.
  Definition wrun1 (c : wcall) (s : sink) : outcome nat * sink :=
    match c with
    | Write d => stream_write K k d s
    | WriteString d => stream_write_string K k d s
    | WriteBuffer d => stream_write_buffer K k d s
    | Printf t => stream_printf K k t s
    end.
  (** The results of the calls, and what there is in the end. *)
  Fixpoint wrun (l : list wcall) (s : sink) : list (outcome nat) * sink :=
    match l with
    | [] => ([], s)
    | c :: r => let '(o, s1) := wrun1 c s in let '(os, s2) := wrun r s1 in (o :: os, s2)
    end.
End Run.

(** What a call asks to be written; [None]: it has nothing to write. *)
Definition asked (c : wcall) : option str :=
  match c with Write d | WriteString d | WriteBuffer d => Some d | Printf t => t end.
(** In memory, everything is accepted but the texts of printf with 8192 characters or more. *)
Definition accepted (c : wcall) : option str :=
  match c with
  | Write d | WriteString d | WriteBuffer d => Some d
  | Printf (Some t) => if (Z.of_nat (length t) <? 8192)%Z then Some t else None
  | Printf None => None
  end.
Definition bytes_of (o : option str) : str := match o with Some d => d | None => [] end.
Definition answer (o : option str) : outcome nat := match o with Some d => Ret (length d) | None => Throw end.

(** A kernel never takes more than it is offered. *)
Definition sane (K : kernel) : Prop :=
  (forall i n m, k_write K i n = Some m -> m <= n) /\ (forall i n m, k_dprintf_fails K i n = Some m -> m <= n).
(** What arrives of a call with this answer: as many bytes as the answer says; on an exception
    nothing, or for printf some part. *)
Definition arrives (c : wcall) (o : outcome nat) (got : str) : Prop :=
  match o with
  | Ret n => exists d, asked c = Some d /\ n <= length d /\ got = firstn n d /\ match c with Printf _ => n = length d | _ => True end
  | Throw => match c with Printf (Some d) => exists n, n <= length d /\ got = firstn n d | _ => got = [] end
  | _ => False
  end.
Inductive all_arrive : list wcall -> list (outcome nat) -> list str -> Prop :=
| arrive_nil : all_arrive [] [] []
| arrive_cons c cs o os g gs : arrives c o g -> all_arrive cs os gs -> all_arrive (c :: cs) (o :: os) (g :: gs).

(** Opening and destroying streams. *)
Inductive pcall := OpenFile (ok : bool) | Stdout | Stderr | Destroy (i : nat).
Definition prun1 (c : pcall) (p : process) : outcome unit * process :=
  match c with
  | OpenFile ok => open_file ok p
  | Stdout => get_stdout p
  | Stderr => get_stderr p
  | Destroy i => destroy i p
  end.
Fixpoint prun (l : list pcall) (p : process) : process :=
  match l with [] => p | c :: r => prun r (snd (prun1 c p)) end.
(** The descriptors of the files that are open as streams. *)
Definition files (p : process) : list nat :=
  flat_map (fun o => match o with Some f => if f_owns f then [f_fd f] else [] | None => [] end) (streams p).
(** A process that has its three standard descriptors and no streams yet. *)
Definition started (p : process) : Prop :=
  NoDup (open_fds p) /\ In 0 (open_fds p) /\ In 1 (open_fds p) /\ In 2 (open_fds p) /\ streams p = [].
