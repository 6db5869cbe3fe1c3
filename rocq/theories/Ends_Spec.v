(** Programs that use none of the features that can fail in an undefined way. *)
From Coq Require Import Reals.
From Verif Require Import Base Num Sexpr_Model Dispatch_Model Data_Model Scale_Model Color_Model Geo_Model Svg_Model Plist_Model
  Cmd_Model Cmd_Spec Style_Model Plot_Model Axis_Model Eval_Model Eval_Spec Safe_Spec.
Local Open Scope R_scope.

(** The words of a program, wherever they stand. *)
Fixpoint atoms (x : expr) : list str :=
  match x with ELit t | EVal t => [t] | EList l => flat_map atoms l end.
Definition says (e : list expr) (w : string) : Prop := In (s_ w) (flat_map atoms e).

(** The words of the features that are left out: labels at points, gradients, vectors and
    logarithmic scales. *)
Definition left_out (w : str) : Prop :=
  In w (map s_ ["labels"; "gradient"; "vectors"; "log"; "logarithmic"]%string).

(** All lists of a program, with those inside. *)
Fixpoint lists (x : expr) : list (list expr) :=
  match x with ELit _ | EVal _ => [] | EList l => l :: flat_map lists l end.
(** A word that is read as a whole number that is not negative and below 2^32. *)
Definition count_word (W : world) (x : expr) : Prop :=
  match x with
  | ELit t | EVal t => exists r n, w_stod W t = Some (Fin r, n) /\ 0 <= r < 2 ^ 32
  | EList _ => False
  end.
Definition word_ (x : expr) (w : string) : Prop := x = ELit (s_ w) \/ x = EVal (s_ w).
(** Where ticks and labels of an axis may be: none, or a number of equal parts. *)
Definition plain_place (W : world) (args : list expr) : Prop :=
  (exists x, args = [x] /\ word_ x "none") \/
  (exists h, args = [EList [h]] /\ word_ h "subdivide") \/
  (exists h n, args = [EList [h; n]] /\ word_ h "subdivide" /\ count_word W n).
(** How the labels of an axis may be printed: with a fixed number of digits, or as given. *)
Definition plain_format (W : world) (args : list expr) : Prop :=
  (exists x, args = [x] /\ word_ x "fixed") \/
  (exists h, args = [EList [h]] /\ word_ h "fixed") \/
  (exists h n, args = [EList [h; n]] /\ word_ h "fixed" /\ count_word W n) \/
  (exists h ws, args = [EList (h :: ws)] /\ word_ h "custom").
Definition starts (w : string) (k : str) : Prop := exists r, k = s_ w ++ r.
(** What an option says about an axis, if it is about ticks and labels. *)
Definition plain_option (W : world) (k : str) (args : list expr) : Prop :=
  (starts "label-placement" k \/ starts "tick-placement" k -> plain_place W args) /\
  (starts "label-format" k -> plain_format W args).

(** Categories are given as a list of one or more words: (categorical a b c). *)
Definition is_atom (x : expr) : bool := match x with EList _ => false | _ => true end.
Definition is_categorical (x : expr) : bool :=
  match x with ELit t | EVal t => str_eqb t (s_ "categorical") | EList _ => false end.
Fixpoint named_categories (x : expr) : Prop :=
  match x with
  | ELit _ | EVal _ => is_categorical x = false
  | EList [] => True
  | EList (h :: args) =>
      (if is_categorical h
       then args <> [] /\ forallb is_atom args = true /\ (Z.of_nat (length args) < 2 ^ 53)%Z
       else named_categories h) /\
      fold_right (fun y P => named_categories y /\ P) True args
  end.

Record modest (W : world) (e : list expr) : Prop := {
  m_words : forall w, In w (flat_map atoms e) -> ~ left_out w;
  m_categories : Forall named_categories e;
  m_ticks : forall l k args, In l (flat_map lists e) -> option_of (EList l) = Some (k, args) -> plain_option W k args;
  (** Polygons only if no scale has categories. *)
  m_polygons : says e "polygons" -> ~ says e "categorical";
  (** Every file that is mentioned, read as GeoJSON, is either accepted or rejected. *)
  m_maps : forall path, In path (flat_map atoms e) -> defined (geojson_shapes W path) }.
(** Some command is not a setting of the page. *)
Definition has_command (e : list expr) : Prop := exists x, In x e /\ is_setting x = false.

(** The text of the program named on the command line. *)
Definition program_text (W : world) (stdin : str) (args : list str) : option str :=
  match args with
  | [path] => if str_eqb path (s_ "-") then Some stdin else w_read_file W path
  | _ => None
  end.
