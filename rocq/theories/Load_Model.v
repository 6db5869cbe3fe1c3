(** Model of data_load_as, /repo/src/data_impl.h:18-39. *)
From Verif Require Import Base Sexpr_Model Dispatch_Model Data_Model.

Section Load.
  Context {T : Type}.
  Variable read_file : str -> option str.
  (** What is converted into a T. *)
  Variable conv : str -> outcome T.
  (** The loop, data_impl.h:28-35: [dst] is what *dst holds, also after an error. *)
  Fixpoint load_each (data : list str) (dst : list T) : list T * outcome unit :=
    match data with
    | [] => (dst, Ret tt)
    | v :: r => match conv v with
                | Ret x => load_each r (dst ++ [x])
                | Err => (dst, Err) | Throw => (dst, Throw) | UB => (dst, UB) | Diverge => (dst, Diverge)
                end
    end.
  Definition data_load_as (e : list expr) (dst : list T) : list T * outcome unit :=
    let '(data, o) := data_load_strings read_file e [] in
    match o with
    | Ret _ => load_each data dst
    | Err => (dst, Err) | Throw => (dst, Throw) | UB => (dst, UB) | Diverge => (dst, Diverge)
    end.
End Load.
