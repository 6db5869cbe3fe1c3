(** Vocabulary for lists of options such as (k1 ...) (k2 ...). *)
From Coq Require Import Reals.
From Verif Require Import Base Num Sexpr_Model Dispatch_Model Dispatch_Spec Scale_Model Geo_Model Cmd_Model.
Local Open Scope R_scope.

(** The keyword and the arguments of an option. *)
Definition option_of (e : expr) : option (str * list expr) :=
  match e with EList (ELit k :: a) | EList (EVal k :: a) => Some (k, a) | _ => None end.
(** The arguments of the last option [k] of a list. *)
Fixpoint last_args (k : str) (l : list expr) : option (list expr) :=
  match l with
  | [] => None
  | e :: r => match last_args k r with
              | Some a => Some a
              | None => match option_of e with
                        | Some (k', a) => if str_eqb k' k then Some a else None
                        | None => None
                        end
              end
  end.
(** The options of [l] that the table has, in order; the others are left out. *)
Definition options {S} (tbl : list (str * cmd S)) (l : list expr) (s : S) : outcome S :=
  let* (s', _) := run_collect tbl l s in Ret s'.

(** The scale an element uses for an axis: the scale of the plot changed by the options
    limit-x, limit-x-min, limit-x-max, scale-x, scale-x-padding (or the same with y). *)
Definition scale_options (W : world) (axis : string) : list (str * cmd scale) :=
  [(s_ "limit-" ++ s_ axis, fun e s => rd_limits W e s);
   (s_ "limit-" ++ s_ axis ++ s_ "-min", fun e s => let* v := rd_float W e in Ret (with_min v s));
   (s_ "limit-" ++ s_ axis ++ s_ "-max", fun e s => let* v := rd_float W e in Ret (with_max v s));
   (s_ "scale-" ++ s_ axis, fun e s => rd_kind W e s);
   (s_ "scale-" ++ s_ axis ++ s_ "-padding", fun e s => let* v := rd_float W e in Ret (with_padding v s))].
Definition element_scale (W : world) (axis : string) (e : list expr) (s : scale) : outcome scale :=
  options (scale_options W axis) e s.

(** The end points of the segments of a path, in order. *)
Fixpoint vertices (p : path) : list vec2 :=
  match p with
  | [] => []
  | (MoveTo q | LineTo q | QuadTo _ q | CubicTo _ _ q) :: r => q :: vertices r
  | Close :: r => vertices r
  end.
(** One stroke of the pen through the given points. *)
Inductive open_line : list vec2 -> path -> Prop :=
| ol_nil : open_line [] []
| ol_cons p ps : open_line (p :: ps) (MoveTo p :: map LineTo ps).
