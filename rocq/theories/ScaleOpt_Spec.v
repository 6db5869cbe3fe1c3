(** The options of a scale (C105). *)
From Verif Require Import Base Sexpr_Model Num Scale_Model.

(** What an option can say. *)
Inductive said := SaysLinear | SaysLog | SaysLogBase (b : xr) | SaysInvert | SaysCategorical | SaysCategories (source : list expr).
(** A word, written with or without quotes. *)
Definition word (e : expr) (w : string) : Prop := e = EVal (s_ w) \/ e = ELit (s_ w).
Inductive says (number : str -> option (xr * nat)) : expr -> said -> Prop :=
| says_linear e : word e "linear" -> says number e SaysLinear
| says_log e : word e "log" \/ word e "logarithmic" -> says number e SaysLog
| says_base w x rest v b n : word w "log" \/ word w "logarithmic" -> x = EVal v \/ x = ELit v -> number v = Some (b, n) ->
    says number (EList (w :: x :: rest)) (SaysLogBase b)
| says_invert e : word e "invert" \/ word e "inverted" -> says number e SaysInvert
| says_cat e : word e "categorical" -> says number e SaysCategorical
| says_cats w source : word w "categorical" -> says number (EList (w :: source)) (SaysCategories source).

(** What is said last counts. *)
Definition last_said {A} (f : said -> option A) (os : list said) (before : A) : A :=
  fold_left (fun a o => match f o with Some x => x | None => a end) os before.
Definition kind_said (o : said) : option skind :=
  match o with
  | SaysLinear => Some Linear
  | SaysLog | SaysLogBase _ => Some Logarithmic
  | SaysCategorical | SaysCategories _ => Some Categorical
  | SaysInvert => None
  end.
Definition base_said (o : said) : option xr := match o with SaysLogBase b => Some b | _ => None end.
Definition invert_said (o : said) : option bool := match o with SaysInvert => Some true | _ => None end.
Definition padding_said (o : said) : option xr := match o with SaysCategorical | SaysCategories _ => Some (Fin (1 / 2)) | _ => None end.
(** The lists of categories that are given. *)
Definition sources (os : list said) : list (list expr) := flat_map (fun o => match o with SaysCategories a => [a] | _ => [] end) os.
(** The lists are read one after the other. *)
Inductive loaded (load : list expr -> list str -> list str * outcome unit) : list (list expr) -> list str -> list str -> Prop :=
| loaded_nil c : loaded load [] c c
| loaded_cons a r c c' c'' : load a c = (c', Ret tt) -> loaded load r c' c'' -> loaded load (a :: r) c c''.
