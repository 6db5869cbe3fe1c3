(** What an optional value is (C98): each Option is empty or holds one value; a move empties its
    source. *)
From Verif Require Import Base Opt_Model.

Section Spec.
  Context {V : Type}.
  (** None: there is no such Option; Some None: it is empty. *)
  Definition ideal : Type := nat -> option (option V).
  Definition upd_i (i : nat) (o : option (option V)) (m : ideal) : ideal := fun j => if Nat.eqb i j then o else m j.
  Definition value_in (i : nat) (m : ideal) : option V := match m i with Some o => o | None => None end.
  (** An operation, and what the caller sees. If the constructor of a value throws, nothing has
      happened. *)
  Inductive meaning (m : ideal) : op V -> ideal -> res V -> Prop :=
  | m_new i : meaning m (New V i) (upd_i i (Some None) m) (Done V)
  | m_value i v : meaning m (Value V i v false) (upd_i i (Some (Some v)) m) (Done V)
  | m_value_fails i v : meaning m (Value V i v true) m (Thrown V)
  | m_copy i j : meaning m (Copy V i j false) (upd_i i (Some (value_in j m)) m) (Done V)
  | m_move i j : meaning m (Move V i j false) (upd_i i (Some (value_in j m)) (upd_i j (Some None) m)) (Done V)
  | m_assign i j : meaning m (Assign V i j false) (upd_i i (Some (value_in j m)) m) (Done V)
  | m_move_assign i j : meaning m (MoveAssign V i j false) (upd_i i (Some (value_in j m)) (upd_i j (Some None) m)) (Done V)
  | m_nothing_to_copy o i j : In o [Copy V i j true; Move V i j true; Assign V i j true; MoveAssign V i j true] -> value_in j m = None ->
      meaning m o (upd_i i (Some None) m) (Done V)
  | m_fails o i j v : In o [Copy V i j true; Move V i j true; Assign V i j true; MoveAssign V i j true] -> value_in j m = Some v ->
      meaning m o m (Thrown V)
  | m_destroy i : meaning m (Destroy V i) (upd_i i None m) (Done V)
  | m_is_set i : meaning m (IsSet V i) m (Bool V (match value_in i m with Some _ => true | None => false end))
  | m_get i : meaning m (Get V i) m (match value_in i m with Some v => Val V v | None => Thrown V end)
  | m_deref i v : value_in i m = Some v -> meaning m (Deref V i) m (Val V v)
  | m_or i alt : meaning m (ValueOr V i alt) m (Val V (match value_in i m with Some v => v | None => alt end)).

  (** A call that the language allows: constructors make a new Option, everything else is for
      existing ones, * and -> for those with a value. *)
  Definition allowed (m : ideal) (o : op V) : Prop :=
    match o with
    | New _ i | Value _ i _ _ => m i = None
    | Copy _ i j _ | Move _ i j _ => m i = None /\ m j <> None
    | Assign _ i j _ | MoveAssign _ i j _ => m i <> None /\ m j <> None
    | Deref _ i => value_in i m <> None
    | Destroy _ i | IsSet _ i | Get _ i | ValueOr _ i _ => m i <> None
    end.
  (** Neither the assignment of an Option to itself, nor an assignment over a value during which
      the copy of the new value throws. *)
  Definition harmless (m : ideal) (o : op V) : Prop :=
    match o with
    | Assign _ i j f | MoveAssign _ i j f => i <> j /\ (f = true -> value_in i m = None \/ value_in j m = None)
    | _ => True
    end.
  Inductive history (P : ideal -> op V -> Prop) (m : ideal) : list (op V) -> ideal -> list (res V) -> Prop :=
  | h_nil : history P m [] m []
  | h_cons o l m1 m2 x xs : allowed m o -> P m o -> meaning m o m1 x -> history P m1 l m2 xs -> history P m (o :: l) m2 (x :: xs).
  Definition nothing : ideal := fun _ => None.
End Spec.
