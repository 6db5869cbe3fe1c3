(** What it means that a call ends in a defined way, and under which conditions on the data the
    elements of a plot do. *)
From Coq Require Import Reals.
From Verif Require Import Base Num Sexpr_Model Dispatch_Model Data_Model Data_Spec Scale_Model Color_Model Geo_Model Svg_Model Geojson_Model
  Cmd_Model Cmd_Spec Style_Model Plot_Model Plot_Spec.
Local Open Scope R_scope.

(** The call returns, reports an error or throws: it neither has undefined behaviour nor runs
    for ever. *)
Definition defined {A} (o : outcome A) : Prop := o <> UB /\ o <> Diverge.

(** The libraries for texts and fonts behave. *)
Definition tame (W : world) : Prop :=
  (forall n old, defined (w_font_load W n old)) /\
  (forall fn sz dp t p h v r, defined (w_text W fn sz dp t p h v r)) /\
  (forall fn sz dp t, defined (w_measure W fn sz dp t)).

(** The option [k] with the arguments [a] is in the list. *)
Definition given (e : list expr) (k : string) (a : list expr) : Prop :=
  exists x, In x e /\ option_of x = Some (s_ k, a).
(** A path that an option data mentions: (data path) or (data (format path)). *)
Definition mentions (e : list expr) (path : str) : Prop :=
  exists a, given e "data" a /\
    (value_of a = Some path \/ exists h b r, a = EList (h :: b) :: r /\ value_of b = Some path).
(** The files that are mentioned, taken as GeoJSON, are either read or rejected. *)
Definition maps_read (W : world) (e : list expr) : Prop :=
  forall path, mentions e path -> defined (geojson_shapes W path).
(** There are no more labels than points (the options are collected as Plot_Spec says). *)
Definition labels_of (W : world) (e : list expr) : outcome (list str) := options [(s_ "labels", rd_strings W)] e [].
Definition few_labels (W : world) (e : list expr) (points : nat -> Prop) : Prop :=
  forall ls n, labels_of W e = Ret ls -> points n -> (length ls <= n)%nat.
(** The number of points of the element lines, of the elements points, labels and vectors, and
    of bars. *)
Definition line_points (W : world) (e : list expr) (n : nat) : Prop :=
  exists b g, load_lines W (source_of e) = Ret (b, g) /\ n = databuf_len xr (fst b).
Definition data_points (W : world) (e : list expr) (n : nat) : Prop :=
  exists b, load_points W (source_of e) empty empty = Ret b /\ n = databuf_len xr (fst b).
Definition column_points (W : world) (keys : list string) (e : list expr) (n : nat) : Prop :=
  exists b, column W keys e = Ret b /\ n = databuf_len xr b.
(** Doubles represent small whole numbers exactly. *)
Definition counts (W : world) : Prop :=
  forall n : Z, (0 <= n <= 2 ^ 53)%Z -> w_d W (IZR n) = IZR n.
(** A categorical scale has categories, and fewer than 2^53 of them. *)
Definition usable (s : scale) : Prop :=
  s_kind s = Categorical ->
  s_categories s <> [] /\ (Z.of_nat (length (s_categories s)) < 2 ^ 53)%Z /\
  Forall (fun q : str * nat => (Z.of_nat (snd q) < 2 ^ 53)%Z) (s_cmap s).
(** The scales an element ends up with. *)
Definition scales_usable (W : world) (p : plot) (e : list expr) : Prop :=
  (forall s, element_scale W "x" e (p_sx p) = Ret s -> usable s) /\
  (forall s, element_scale W "y" e (p_sy p) = Ret s -> usable s).
(** The gradients given as color-map have a stop at 1 or beyond. *)
Definition gradients_full (W : world) (E : env) (e : list expr) : Prop :=
  forall a stops, given e "color-map" a ->
    color_map_read (w_f W) (w_stod W) (e_palette E) a = Ret (Gradient, stops) ->
    w_sort_stops W stops = [] \/ exists key c, In (key, c) (w_sort_stops W stops) /\ xle (Fin 1) key = true.
