(** Model of Option<T>, /repo/src/utils/option.h and option_impl.h: histories of operations on
    any number of Option objects. *)
From Verif Require Import Base.

Section Opt.
  Variable V : Type.
  (** The member value_data_ holds an object of type T or no object; the objects have numbers,
      given in the order of construction, so that it can be said which of them are destroyed. *)
  Definition cell : Type := option (nat * V).
  (** Option<T>, option.h:25-51: [o_ptr]: value_ is not null (it always points to value_data_). *)
  Record opt := mk_opt { o_ptr : bool; o_cell : cell }.
  (** The Option objects that exist, the number of objects of type T constructed so far, and the
      destructor calls so far (newest first). *)
  Record ost := mk_ost { st_opts : nat -> option opt; st_next : nat; st_gone : list nat }.
  Definition st0 : ost := mk_ost (fun _ => None) 0 [].
  Definition put (i : nat) (o : option opt) (s : ost) : ost :=
    mk_ost (fun j => if Nat.eqb i j then o else st_opts s j) (st_next s) (st_gone s).

  (** What a call does to its caller. *)
  Inductive res := Done | Thrown | Val (v : V) | Bool (b : bool).
  Definition step_out : Type := outcome (ost * res).

  (** value_->~T(): the object in the cell is destroyed. Undefined if there is none. *)
  Definition destroy_cell (i : nat) (s : ost) : outcome ost :=
    match st_opts s i with
    | Some (mk_opt p (Some (n, v))) =>
        Ret (mk_ost (fun j => if Nat.eqb i j then Some (mk_opt p None) else st_opts s j) (st_next s) (n :: st_gone s))
    | _ => UB
    end.
  (** *other.value_ *)
  Definition read_cell (i : nat) (s : ost) : outcome V :=
    match st_opts s i with Some (mk_opt _ (Some (_, v))) => Ret v | _ => UB end.
  (** new (value_data_) T(v), and value_ set to it. *)
  Definition construct (i : nat) (v : V) (s : ost) : ost :=
    mk_ost (fun j => if Nat.eqb i j then Some (mk_opt true (Some (st_next s, v))) else st_opts s j) (S (st_next s)) (st_gone s).
  Definition has_ptr (i : nat) (s : ost) : outcome bool :=
    match st_opts s i with Some o => Ret (o_ptr o) | None => UB end.
  Definition set_ptr (i : nat) (b : bool) (s : ost) : outcome ost :=
    match st_opts s i with Some o => Ret (put i (Some (mk_opt b (o_cell o))) s) | None => UB end.

  (** Option(), Option(nullptr), option_impl.h:19-23. *)
  Definition opt_new (i : nat) (s : ost) : step_out := Ret (put i (Some (mk_opt false None)) s, Done).
  (** Option(const T&), Option(T&&), option_impl.h:25-33. [fails]: the constructor of T throws; the
      Option then does not exist. *)
  Definition opt_value (i : nat) (v : V) (fails : bool) (s : ost) : step_out :=
    if fails then Ret (s, Thrown) else Ret (construct i v s, Done).
  (** Option(const Option&), option_impl.h:35-42. *)
  Definition opt_copy (i j : nat) (fails : bool) (s : ost) : step_out :=
    let* p := has_ptr j s in
    if p then let* v := read_cell j s in
              if fails then Ret (s, Thrown) else Ret (construct i v s, Done)
    else Ret (put i (Some (mk_opt false None)) s, Done).
  (** Option(Option&&), option_impl.h:44-53. *)
  Definition opt_move (i j : nat) (fails : bool) (s : ost) : step_out :=
    let* p := has_ptr j s in
    if p then let* v := read_cell j s in
              if fails then Ret (s, Thrown)
              else let* s := destroy_cell j (construct i v s) in
                   let* s := set_ptr j false s in
                   Ret (s, Done)
    else Ret (put i (Some (mk_opt false None)) s, Done).
  (** ~Option(), option_impl.h:55-60. *)
  Definition opt_destroy (i : nat) (s : ost) : step_out :=
    let* p := has_ptr i s in
    let* s := if p then destroy_cell i s else Ret s in
    Ret (put i None s, Done).
  (** operator=(const Option&), option_impl.h:62-75. When the copy throws, value_ stays. *)
  Definition opt_assign (i j : nat) (fails : bool) (s : ost) : step_out :=
    let* p := has_ptr i s in
    let* s := if p then destroy_cell i s else Ret s in
    let* q := has_ptr j s in
    if q then let* v := read_cell j s in
              if fails then Ret (s, Thrown) else Ret (construct i v s, Done)
    else let* s := set_ptr i false s in Ret (s, Done).
  (** operator=(Option&&), option_impl.h:77-92. *)
  Definition opt_move_assign (i j : nat) (fails : bool) (s : ost) : step_out :=
    let* p := has_ptr i s in
    let* s := if p then destroy_cell i s else Ret s in
    let* q := has_ptr j s in
    if q then let* v := read_cell j s in
              if fails then Ret (s, Thrown)
              else let* s := destroy_cell j (construct i v s) in
                   let* s := set_ptr j false s in
                   Ret (s, Done)
    else let* s := set_ptr i false s in Ret (s, Done).
  (** operator bool, !isEmpty(), option_impl.h:94-102 and 144-147. *)
  Definition opt_bool (i : nat) (s : ost) : step_out := let* p := has_ptr i s in Ret (s, Bool p).
  (** get(), option_impl.h:124-131, which throws for an empty Option; operator* and operator->,
      option_impl.h:104-122, which do not look. *)
  Definition opt_get (i : nat) (s : ost) : step_out :=
    let* p := has_ptr i s in
    if p then let* v := read_cell i s in Ret (s, Val v) else Ret (s, Thrown).
  Definition opt_deref (i : nat) (s : ost) : step_out :=
    let* p := has_ptr i s in
    if p then let* v := read_cell i s in Ret (s, Val v) else UB.
  (** value_or, option_impl.h:133-142. *)
  Definition opt_or (i : nat) (alt : V) (s : ost) : step_out :=
    let* p := has_ptr i s in
    if p then let* v := read_cell i s in Ret (s, Val v) else Ret (s, Val alt).

  (** Histories. *)
  Inductive op :=
  | New (i : nat) | Value (i : nat) (v : V) (fails : bool)
  | Copy (i j : nat) (fails : bool) | Move (i j : nat) (fails : bool)
  | Assign (i j : nat) (fails : bool) | MoveAssign (i j : nat) (fails : bool)
  | Destroy (i : nat) | IsSet (i : nat) | Get (i : nat) | Deref (i : nat) | ValueOr (i : nat) (alt : V).
  Definition step (o : op) (s : ost) : step_out :=
    match o with
    | New i => opt_new i s | Value i v f => opt_value i v f s
    | Copy i j f => opt_copy i j f s | Move i j f => opt_move i j f s
    | Assign i j f => opt_assign i j f s | MoveAssign i j f => opt_move_assign i j f s
    | Destroy i => opt_destroy i s | IsSet i => opt_bool i s | Get i => opt_get i s
    | Deref i => opt_deref i s | ValueOr i v => opt_or i v s
    end.
  Fixpoint run_ops (l : list op) (s : ost) : outcome (ost * list res) :=
    match l with
    | [] => Ret (s, [])
    | o :: r => let* (s1, x) := step o s in let* (s2, xs) := run_ops r s1 in Ret (s2, x :: xs)
    end.
End Opt.
