(** Specification: buffers as plain byte sequences. A byte is [None] where the program never
    wrote it. *)
From Verif Require Import Base Buffer_Model.

(** The value of a buffer variable: its bytes. *)
Definition env := nat -> option (list (option ascii)).
Definition bind_var (e : env) (i : nat) (v : option (list (option ascii))) : env := fun j => if j =? i then v else e j.
Definition alive (e : env) (i : nat) : Prop := e i <> None.

(** What an operation does to the sequences; the flag says that it is reported as an error. *)
Inductive plain : env -> op -> env -> bool -> Prop :=
| p_new e i : e i = None -> plain e (New i) (bind_var e i (Some [])) false
| p_new_size e i n : e i = None -> plain e (NewSize i n) (bind_var e i (Some (repeat None n))) false
| p_new_from e i x : e i = None -> plain e (NewFrom i x) (bind_var e i (Some (map Some x))) false
| p_new_copy e i j v : e i = None -> e j = Some v -> plain e (NewCopy i j) (bind_var e i (Some v)) false
| p_new_move e i j v : e i = None -> e j = Some v ->
    plain e (NewMove i j) (bind_var (bind_var e j (Some [])) i (Some v)) false
| p_assign_copy e i j v : alive e i -> e j = Some v -> plain e (AssignCopy i j) (bind_var e i (Some v)) false
| p_assign_move e i j v : alive e i -> e j = Some v -> i <> j ->
    plain e (AssignMove i j) (bind_var (bind_var e i (Some v)) j (Some [])) false
| p_assign_self e i : alive e i -> plain e (AssignMove i i) e false
| p_destroy e i : alive e i -> plain e (Destroy i) (bind_var e i None) false
| p_append e i v x : e i = Some v -> plain e (Append i x) (bind_var e i (Some (v ++ map Some x))) false
| p_truncate e i v n : e i = Some v -> n <= length v -> plain e (Truncate i n) (bind_var e i (Some (firstn n v))) false
| p_truncate_error e i v n : e i = Some v -> length v < n -> plain e (Truncate i n) e true
| p_reserve e i n : alive e i -> plain e (Reserve i n) e false
| p_clear e i : alive e i -> plain e (Clear i) (bind_var e i (Some [])) false
| p_mark e i n : alive e i -> plain e (SetMark i n) e false.

Inductive plain_run : env -> list op -> env -> list bool -> Prop :=
| pr_nil e : plain_run e [] e []
| pr_cons e o e1 r ops e2 l : plain e o e1 r -> plain_run e1 ops e2 l -> plain_run e (o :: ops) e2 (r :: l).

(** No buffer is assigned to itself, and space is reserved in non-zero amounts. *)
Definition proper (o : op) : Prop :=
  match o with
  | AssignCopy i j | AssignMove i j => i <> j
  | Reserve _ n => n <> 0
  | _ => True
  end.
Definition empty_env : env := fun _ => None.
