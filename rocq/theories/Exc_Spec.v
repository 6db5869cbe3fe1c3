(** What an exception says (C100). *)
From Verif Require Import Base Exc_Model.

(** How an exception is made, and what is called on it, or on the copy that a call returned. *)
Inductive start := Empty | Printf (t : str) | Text (t : str).
Inductive call := Source (file : str) (line : Z) (func : str) | TypeName (n : str) | Errno (n : Z) | Append (t : str) | Copied.
Section Spec.
  Variable strerror : Z -> str.
  Definition made (s : start) : exc :=
    match s with Empty => exc_empty | Printf t => exc_printf t | Text t => exc_string t end.
  (** After a call: the object it was called on, or ([fresh]) the one it returned. *)
  Definition after (fresh : bool) (c : call) (x : exc) : outcome exc :=
    let pick (m : outcome (exc * exc)) := let* (y, z) := m in Ret (if fresh then z else y) in
    match c with
    | Source f l m => pick (set_source f l m x)
    | TypeName n => pick (set_type n x)
    | Errno n => pick (set_errno strerror n x)
    | Append t => exc_append t x
    | Copied => exc_copy x
    end.
  Fixpoint calls (l : list (bool * call)) (x : exc) : outcome exc :=
    match l with [] => Ret x | (f, c) :: r => let* y := after f c x in calls r y end.

  (** The texts, one after the other, and what fits of them. *)
  Definition first_text (s : start) : str := match s with Empty => [] | Printf t | Text t => t end.
  Definition added (c : call) : str :=
    match c with
    | Append t => t
    | Errno n => if (0 <? n)%Z then s_ ": " ++ strerror n else []
    | _ => []
    end.
  Definition message (s : start) (l : list (bool * call)) : str := first_text s ++ flat_map (fun fc => added (snd fc)) l.
  Definition fits (t : str) : str := firstn 1023 t.
  Definition last_type (l : list (bool * call)) : option str :=
    fold_left (fun o fc => match snd fc with TypeName n => Some n | _ => o end) l None.
  Definition last_source (l : list (bool * call)) : option (str * Z * str) :=
    fold_left (fun o fc => match snd fc with Source f n m => Some (f, n, m) | _ => o end) l None.
  (** C strings. *)
  Definition no_nul (t : str) : Prop := ~ In c_nul t.
  Definition plain_start (s : start) : Prop := no_nul (first_text s) /\ match s with Text t => length t < 1024 | _ => True end.
  Definition plain_call (fc : bool * call) : Prop := no_nul (added (snd fc)).
End Spec.
