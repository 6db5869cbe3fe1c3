(** What the libraries demand: an object is used and given back only while it exists, and not before the
    objects made from it. *)
From Verif Require Import Base Release_Model.

(** The objects that exist, with the number of their owners. *)
Record object := mk_object { o_id : nat; o_kind : kind; o_owners : nat }.
(** The object that must stay as long as this one. *)
Definition needs (k : kind) : option nat :=
  match k with Face i | HbFont i | Context i | CairoFace i => Some i | _ => None end.
Definition exists_ (l : list object) (i : nat) : bool := existsb (fun o => o_id o =? i)%nat l.
Definition needed (l : list object) (i : nat) : bool :=
  existsb (fun o => match needs (o_kind o) with Some j => (j =? i)%nat | None => false end) l.
Definition change_owners (f : nat -> nat) (i : nat) (l : list object) : list object :=
  map (fun o => if (o_id o =? i)%nat then mk_object (o_id o) (o_kind o) (f (o_owners o)) else o) l.
Definition gone (i : nat) (l : list object) : list object := filter (fun o => negb (o_id o =? i)%nat) l.
(** One call: None if it is not allowed. *)
Definition call (l : list object) (e : event) : option (list object) :=
  match e with
  | Create i k =>
      if exists_ l i then None
      else match needs k with
           | Some j => if exists_ l j then Some (mk_object i k 1 :: l) else None
           | None => Some (mk_object i k 1 :: l)
           end
  | Use i => if exists_ l i then Some l else None
  | Keep i => if exists_ l i then Some (change_owners S i l) else None
  | Release i =>
      match find (fun o => o_id o =? i)%nat l with
      | None => None
      | Some o => if (o_owners o <=? 1)%nat
                  then if needed l i then None else Some (gone i l)
                  else Some (change_owners pred i l)
      end
  | Null => None
  end.
Fixpoint calls (l : list object) (es : list event) : option (list object) :=
  match es with [] => Some l | e :: r => match call l e with Some l' => calls l' r | None => None end end.

(** The answers for which the property is claimed: sizes can be set on pages, and fontconfig has a
    configuration and understands the pattern. *)
Definition usual (o : op) : Prop :=
  match o with
  | Page groups => forall it, In it groups -> snd it = true
  | Best a _ _ => fc_config a = true /\ fc_pattern a = true
  | Defaults config pattern _ => config = true /\ pattern = true
  | _ => True
  end.
(** The answers after which something is left behind. *)
Definition tidy (o : op) : Prop :=
  match o with
  | Outline _ g => g <> NotOutline /\ g <> BadTag
  | Best a _ _ => forall file, fc_font a <> Some (false, file)
  | Defaults _ _ _ => False
  | _ => True
  end.
Definition all_dropped (s : state) : Prop := forall i, held s i = None.
