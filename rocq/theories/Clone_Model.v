(** Model of expr_clone, /repo/src/sexpr.cc:187-205, on an explicit heap of nodes, so that
    sharing is visible. *)
From Verif Require Import Base.
Local Open Scope Z_scope.

(** ExprType and struct Expr, /repo/src/sexpr.cc:25-34. A pointer (unique_ptr or raw) is
    an optional address, an address is an index into the heap. *)
Inductive ety := LIST | VALUE_LITERAL | VALUE.
Record node := mk_node {
  n_type : ety; n_value : str; n_list : option nat; n_next : option nat }.
Definition heap := list node.

Definition set_list (n : node) (p : option nat) : node :=
  mk_node (n_type n) (n_value n) p (n_next n).
Definition set_next (n : node) (p : option nat) : node :=
  mk_node (n_type n) (n_value n) (n_list n) p.

(** Writing a node back at address a (out of range: undefined behaviour). *)
Fixpoint update (h : heap) (a : nat) (f : node -> node) : outcome heap :=
  match h, a with
  | [], _ => UB
  | n :: r, O => Ret (f n :: r)
  | n :: r, S k => let* r' := update r k f in Ret (n :: r')
  end.

Definition read (h : heap) (a : nat) : outcome node :=
  match nth_error h a with Some n => Ret n | None => UB end.

(** The slot [c] points to: the local variable [copy] (line 188) or the [next] field of a
    node (line 200). *)
Inductive slot := SRet | SNext (a : nat).

Definition write_slot (h : heap) (ret : option nat) (c : slot) (p : option nat)
  : outcome (heap * option nat) :=
  match c with
  | SRet => Ret (h, p)
  | SNext a => let* h' := update h a (fun n => set_next n p) in Ret (h', ret)
  end.

(** The loop of lines 191-202, from the state (heap, copy, c, e, count). [count] is an
    int; its wrap-around after 2^31 iterations is not modelled. *)
Fixpoint clone_loop (fuel : nat) (h : heap) (copy : option nat) (c : slot)
    (e : option nat) (count : Z) : outcome (heap * option nat) :=
  match fuel with
  | O => Diverge
  | S k =>
      match e with
      | None => Ret (h, copy)
      | Some a =>
          if count =? 0 then Ret (h, copy)
          else
            let* n := read h a in
            let fresh := length h in
            let h1 := h ++ [mk_node (n_type n) (n_value n) None None] in   (* 192-194 *)
            let* (h2, copy') := write_slot h1 copy c (Some fresh) in
            let* h3 :=
              match n_list n with                                          (* 196-198 *)
              | None => Ret h2
              | Some l =>
                  let* (h', p) := clone_loop k h2 None SRet (Some l) (-1) in
                  update h' fresh (fun m => set_list m p)
              end in
            clone_loop k h3 copy' (SNext fresh) (n_next n) (count - 1)     (* 200-201 *)
      end
  end.

(** expr_clone(e, count). *)
Definition expr_clone (fuel : nat) (h : heap) (e : option nat) (count : Z)
  : outcome (heap * option nat) := clone_loop fuel h None SRet e count.
