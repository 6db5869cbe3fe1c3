(** What a chain of nodes in a heap represents, and what "no sharing" means. *)
From Verif Require Import Base Sexpr_Model Clone_Model.

(** [chain lo h p es]: following [next] from p in h gives the expressions es, and every
    node used, at any depth, has an address >= lo. *)
Inductive chain (lo : nat) (h : heap) : option nat -> list expr -> Prop :=
| ch_nil : chain lo h None []
| ch_lit a v nx es : lo <= a -> nth_error h a = Some (mk_node VALUE_LITERAL v None nx) ->
    chain lo h nx es -> chain lo h (Some a) (ELit v :: es)
| ch_val a v nx es : lo <= a -> nth_error h a = Some (mk_node VALUE v None nx) ->
    chain lo h nx es -> chain lo h (Some a) (EVal v :: es)
| ch_list a l xs nx es : lo <= a -> nth_error h a = Some (mk_node LIST [] l nx) ->
    chain lo h l xs -> chain lo h nx es -> chain lo h (Some a) (EList xs :: es).

(** The first [count] elements; a negative count means all. *)
Definition take (count : Z) (es : list expr) : list expr :=
  if (count <? 0)%Z then es else firstn (Z.to_nat count) es.

(** Number of nodes of a forest, an upper bound on the steps needed to walk it. *)
Fixpoint esize (e : expr) : nat :=
  match e with
  | EList l => S (fold_right (fun x n => esize x + n) 1 l)
  | _ => 1
  end.
Definition fsize (l : list expr) : nat := fold_right (fun x n => esize x + n) 1 l.
