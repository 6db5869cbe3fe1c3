(** Which shapes a GeoJSON document (RFC 7946) denotes, on JSON trees. *)
From Verif Require Import Base Json_Spec Geojson_Model.
From Coq Require Import Permutation.

Section Spec.
  Variable num : Type.
  Variable zero : num.
  Variable stod : str -> option num.
  Notation vec3 := (num * num * num)%type.
  Notation shape := (shape num).

  (** A two-dimensional position. *)
  Inductive pos2 : json -> vec3 -> Prop :=
  | pos2_i a b x y : stod a = Some x -> stod b = Some y ->
      pos2 (JArr [JNum a; JNum b]) (x, y, zero).
  (** An array of (at least one) things. *)
  Inductive arr {A} (item : json -> A -> Prop) : json -> list A -> Prop :=
  | arr_i js l : l <> [] -> Forall2 item js l -> arr item (JArr js) l.

  Inductive polygon : json -> list vec3 * list (list vec3) -> Prop :=
  | poly_i j r holes : arr (arr pos2) j (r :: holes) -> polygon j (r, holes).

  (** geometry type, "coordinates" member, shape *)
  Inductive geometry : str -> json -> shape -> Prop :=
  | g_multipoint c ps : arr pos2 c ps -> geometry (s_ "MultiPoint") c (Points ps)
  | g_line c ps : arr pos2 c ps -> geometry (s_ "LineString") c (Lines [ps])
  | g_multiline c ls : arr (arr pos2) c ls -> geometry (s_ "MultiLineString") c (Lines ls)
  | g_polygon c p : polygon c p -> geometry (s_ "Polygon") c (Polygons [p])
  | g_multipolygon c ps : arr polygon c ps -> geometry (s_ "MultiPolygon") c (Polygons ps).

  (** Member names with a meaning of their own; all others are foreign. *)
  Definition foreign (p : str * json) : Prop :=
    fst p <> s_ "type" /\ fst p <> s_ "coordinates" /\ fst p <> s_ "geometry" /\
    fst p <> s_ "features".

  (** Members may come in any order, with any foreign members between them. *)
  Inductive geo_doc : json -> list shape -> Prop :=
  | gd_geometry ms t c other sh :
      Permutation ms ((s_ "type", JStr t) :: (s_ "coordinates", c) :: other) ->
      Forall foreign other -> geometry t c sh -> geo_doc (JObj ms) [sh]
  | gd_feature ms g other shs :
      Permutation ms ((s_ "type", JStr (s_ "Feature")) :: (s_ "geometry", g) :: other) ->
      Forall foreign other -> geo_doc g shs -> geo_doc (JObj ms) shs
  | gd_collection ms fs other shs :
      Permutation ms ((s_ "type", JStr (s_ "FeatureCollection")) :: (s_ "features", JArr fs) :: other) ->
      Forall foreign other -> geo_docs fs shs -> geo_doc (JObj ms) shs
  with geo_docs : list json -> list shape -> Prop :=
  | gds_nil : geo_docs [] []
  | gds_cons v vs sh shs : geo_doc v sh -> geo_docs vs shs -> geo_docs (v :: vs) (sh ++ shs).

  (** All points / all lines of the delivered shapes, in order. *)
  Definition all_points (shs : list shape) : list vec3 :=
    flat_map (fun sh => match sh with Points ps => ps | _ => [] end) shs.
  Definition all_lines (shs : list shape) : list (list vec3) :=
    flat_map (fun sh => match sh with Lines ls => ls | _ => [] end) shs.

  Definition xy (p : vec3) : num * num := (fst (fst p), snd (fst p)).
  Fixpoint starts (off : nat) (ls : list (list vec3)) : list nat :=
    match ls with [] => [] | l :: r => off :: starts (off + length l) r end.
  (** A position with two or three numbers. *)
  Inductive pos23 : json -> num * num * option num -> Prop :=
  | pos23_2 a b x y : stod a = Some x -> stod b = Some y ->
      pos23 (JArr [JNum a; JNum b]) (x, y, None)
  | pos23_3 a b c x y z : stod a = Some x -> stod b = Some y -> stod c = Some z ->
      pos23 (JArr [JNum a; JNum b; JNum c]) (x, y, Some z).
  Definition has_z (p : num * num * option num) : Prop := snd p <> None.
End Spec.
