(** Property theorems: JSON and GeoJSON (C13, C14, C15, and the GeoJSON half of C51). *)
From Verif Require Import Base Json_Model Json_Spec Json_Proofs Geojson_Model Geojson_Spec Geojson_Proofs.
From Coq Require Import ZArith Permutation.

(** C13. A JSON document (RFC 8259), between any white space, is delivered as its tokens and
    nothing but white space is left. Missing from C13: escapes are delivered unresolved (see
    below), and a document that is a bare number needs a character other than a space
    behind it (see below). *)
Theorem C13_tokens_partial : forall (v : json) (s w1 w2 : str), ws w1 -> ws w2 -> value_text v s ->
  (forall l, v = JNum l -> exists w3 c w4, w2 = w3 ++ c :: w4 /\ Forall (eq c_sp) w3 /\ c <> c_sp) ->
  exists s', delivers (tokens v) (w1 ++ s ++ w2) s' /\ ws s'.
Proof. exact document_delivers. Qed.
Print Assumptions C13_tokens_partial.

(** Reading one token at a time, as the callers do. *)
Theorem C13_delivers_meaning : forall t ts s s',
  delivers (t :: ts) s s' <-> exists m, json_parse s = (Ret t, m) /\ delivers ts m s'.
Proof.
  intros t ts s s'. split.
  - intro D. inversion D; subst. eauto.
  - intros (m & J & D). econstructor; eauto.
Qed.
Print Assumptions C13_delivers_meaning.

Example C13_example : value_text (JObj [(s_ "a", JArr [JNum (s_ "-1.5e3"); JNull])]) (s_ "{""a"": [-1.5e3,null]}")
  /\ tokens (JObj [(s_ "a", JArr [JNum (s_ "-1.5e3"); JNull])]) =
     [TObjB; TStr (s_ "a"); TArrB; TNum (s_ "-1.5e3"); TNull; TArrE; TObjE].
Proof.
  split; [|reflexivity]. apply (vt_obj _ (s_ """a"": [-1.5e3,null]")).
  apply (mt_one [] [] (s_ " ") [] (s_ "a") _ (s_ "[-1.5e3,null]")); try (repeat constructor; fail).
  - apply sb_plain; [cbn; lia|discriminate|discriminate|constructor].
  - apply (vt_arr _ (s_ "-1.5e3,null")).
    apply (et_cons [] [] _ (s_ "-1.5e3") _ (s_ "null")); try (repeat constructor; fail).
    + apply vt_num. apply (nl (s_ "-") (s_ "1") (s_ ".5") (s_ "e3")); auto.
      * constructor; [reflexivity|discriminate|constructor].
      * apply (fp_some (s_ "5")). split; [discriminate|repeat constructor].
      * apply (ep_some "e"%char [] (s_ "3")); auto. split; [discriminate|repeat constructor].
    + apply (et_one [] [] _ (s_ "null")); repeat constructor.
Qed.

(** C13 is false of escapes: the token holds the text between the quotes as written ... *)
Theorem C13_string_verbatim : forall (r rest : str), string_body r ->
  json_parse (c_dq :: r ++ c_dq :: rest) = (Ret (TStr r), rest).
Proof.
  intros r rest H. rewrite json_parse_eq. cbn. now rewrite parse_str_body.
Qed.
Print Assumptions C13_string_verbatim.

(** ... which differs from the string it denotes whenever it contains an escape. *)
Theorem C13_escapes_refuted : forall r v : str, resolved r v -> In c_bs r -> r <> v.
Proof. exact resolved_raw. Qed.
Print Assumptions C13_escapes_refuted.

Example C13_escape_example : resolved (s_ "a\nb") (s_ "a" ++ [c_nl] ++ s_ "b")
  /\ fst (json_parse (s_ """a\nb""")) = Ret (TStr (s_ "a\nb")).
Proof.
  split; [|reflexivity]. apply rs_plain; [discriminate|]. apply (rs_esc "n"%char); [reflexivity|].
  apply rs_plain; [discriminate|constructor].
Qed.

(** C13 is false of termination: a read never returns exactly when what is next is a string
    that is never closed. *)
Theorem C13_termination_refuted : forall s : str,
  fst (json_parse s) = Diverge <-> exists w b, s = w ++ c_dq :: b /\ gap w /\ unclosed b.
Proof. exact json_parse_diverge. Qed.
Print Assumptions C13_termination_refuted.

Example C13_unclosed_example : unclosed (s_ "abc") /\ fst (json_parse (s_ ", ""abc")) = Diverge.
Proof. split; [|reflexivity]. repeat (apply uc_plain; try discriminate). constructor. Qed.

(** In every other case a read returns a token, having consumed at least one byte, or an error. *)
Theorem C13_total : forall s : str,
  (exists t r, json_parse s = (Ret t, r) /\ length r < length s) \/
  fst (json_parse s) = Err \/ fst (json_parse s) = Diverge.
Proof. exact json_parse_total. Qed.
Print Assumptions C13_total.

(** C13 is false of a number that ends the document: it is an error. *)
Theorem C13_number_at_end_refuted : forall l sp : str, number_lexeme l -> Forall (eq c_sp) sp ->
  fst (json_parse (l ++ sp)) = Err.
Proof. exact number_eof. Qed.
Print Assumptions C13_number_at_end_refuted.

(** C14. Skipping consumes exactly the tokens of one value, whatever follows: every text from
    which the tokens of [v] can be read (in particular every RFC 8259 text of [v], C13) is
    left where reading them would leave it. *)
Theorem C14_skip : forall (v : json) (s m : str) (fuel : nat),
  delivers (tokens v) s m -> length s <= fuel -> json_skip fuel s = (Ret tt, m).
Proof. exact skip_ok. Qed.
Print Assumptions C14_skip.

(** C14, on texts: behind the skipped text the reader is where the text ends, except that
    spaces after a number are consumed as well. *)
Theorem C14_skip_text : forall (v : json) (t rest : str), value_text v t -> may_follow v rest ->
  exists s', json_skip (length (t ++ rest)) (t ++ rest) = (Ret tt, s') /\ behind v rest s'.
Proof.
  intros v t rest V F. destruct (value_delivers v t V rest F) as (s' & D & B). exists s'. split; auto.
  apply (skip_ok v); auto.
Qed.
Print Assumptions C14_skip_text.

Example C14_example : json_skip 40 (s_ "{""a"":[1,{""b"":[]}],""c"":""]""}, ""next"": 1") = (Ret tt, s_ ", ""next"": 1").
Proof. reflexivity. Qed.

Section C15.
  Variable num : Type.
  Variable zero : num.
  Variable stod : str -> option num.

  (** C15. A document whose positions are two-dimensional is delivered faithfully: the
      shapes it denotes, in document order, with members in any order, foreign members
      ignored, any nesting of features, any white space. Missing from C15: Point, positions
      with three numbers, GeometryCollection (all refuted below), and malformed input. *)
  Theorem C15_geojson_partial : forall (v : json) (shs : list (shape num)) (txt w1 w2 : str),
    geo_doc num zero stod v shs -> ws w1 -> ws w2 -> value_text v txt ->
    exists rest, geojson_read num zero stod (w1 ++ txt ++ w2) = (Ret tt, rest, shs).
  Proof. exact (geojson_text_ok num zero stod). Qed.

  (** C15 is false of every Point with two coordinates: the reader uses coords[2], which
      does not exist ... *)
  Theorem C15_point_refuted : forall ms a b x y o txt w1 w2, ws w1 -> ws w2 ->
    stod a = Some x -> stod b = Some y ->
    Permutation ms ((s_ "type", JStr (s_ "Point")) :: (s_ "coordinates", JArr [JNum a; JNum b]) :: o) ->
    Forall foreign o -> value_text (JObj ms) txt ->
    fst (fst (geojson_read num zero stod (w1 ++ txt ++ w2))) = UB.
  Proof. exact (point2_ub num zero stod). Qed.

  (** ... and of every Point with three: z is delivered as zero. *)
  Theorem C15_point_z_refuted : forall ms a b c x y z o txt w1 w2, ws w1 -> ws w2 ->
    stod a = Some x -> stod b = Some y -> stod c = Some z ->
    Permutation ms ((s_ "type", JStr (s_ "Point")) :: (s_ "coordinates", JArr [JNum a; JNum b; JNum c]) :: o) ->
    Forall foreign o -> value_text (JObj ms) txt ->
    exists rest, geojson_read num zero stod (w1 ++ txt ++ w2) = (Ret tt, rest, [Points [(x, y, zero)]]).
  Proof. exact (point3_z num zero stod). Qed.

  (** C15 is false of every other geometry in which some position has three numbers: it is
      rejected. *)
  Theorem C15_line_3d_refuted : forall ms ty cs o ps txt w1 w2, ws w1 -> ws w2 ->
    ty = s_ "LineString" \/ ty = s_ "MultiPoint" ->
    Permutation ms ((s_ "type", JStr ty) :: (s_ "coordinates", JArr cs) :: o) -> Forall foreign o ->
    Forall2 (pos23 num stod) cs ps -> Exists (has_z num) ps -> value_text (JObj ms) txt ->
    fst (fst (geojson_read num zero stod (w1 ++ txt ++ w2))) <> Ret tt.
  Proof. exact (line_3d num zero stod). Qed.

  Theorem C15_rings_3d_refuted : forall ms ty cs o rs txt w1 w2, ws w1 -> ws w2 ->
    ty = s_ "MultiLineString" \/ ty = s_ "Polygon" ->
    Permutation ms ((s_ "type", JStr ty) :: (s_ "coordinates", JArr cs) :: o) -> Forall foreign o ->
    Forall2 (arr (pos23 num stod)) cs rs -> Exists (Exists (has_z num)) rs -> value_text (JObj ms) txt ->
    fst (fst (geojson_read num zero stod (w1 ++ txt ++ w2))) <> Ret tt.
  Proof. exact (rings_3d num zero stod). Qed.

  Theorem C15_multipolygon_3d_refuted : forall ms cs o rs txt w1 w2, ws w1 -> ws w2 ->
    Permutation ms ((s_ "type", JStr (s_ "MultiPolygon")) :: (s_ "coordinates", JArr cs) :: o) -> Forall foreign o ->
    Forall2 (arr (arr (pos23 num stod))) cs rs -> Exists (Exists (Exists (has_z num))) rs -> value_text (JObj ms) txt ->
    fst (fst (geojson_read num zero stod (w1 ++ txt ++ w2))) <> Ret tt.
  Proof. exact (mpoly_3d num zero stod). Qed.

  (** C15 is false of a GeometryCollection: whatever its geometries, nothing is delivered and
      the result is success. *)
  Theorem C15_collection_refuted : forall ms v o txt w1 w2, ws w1 -> ws w2 ->
    Permutation ms ((s_ "type", JStr (s_ "GeometryCollection")) :: (s_ "geometries", v) :: o) ->
    Forall foreign o -> value_text (JObj ms) txt ->
    exists rest, geojson_read num zero stod (w1 ++ txt ++ w2) = (Ret tt, rest, []).
  Proof. exact (collection_empty num zero stod). Qed.

  (** C15 is false of malformed input: a MultiPolygon with an empty outer ring before another
      ring is undefined behaviour. *)
  Theorem C15_malformed_refuted : forall ms a b x y o txt w1 w2, ws w1 -> ws w2 -> stod a = Some x -> stod b = Some y ->
    Permutation ms ((s_ "type", JStr (s_ "MultiPolygon")) ::
      (s_ "coordinates", JArr [JArr [JArr []; JArr [JArr [JNum a; JNum b]]]]) :: o) ->
    Forall foreign o -> value_text (JObj ms) txt ->
    fst (fst (geojson_read num zero stod (w1 ++ txt ++ w2))) = UB.
  Proof. exact (mpoly_ub num zero stod). Qed.

  (** C15 is false of malformed input: text that is not JSON is accepted in a foreign member,
      and a feature without a geometry ("geometry": null) is rejected. *)
  Theorem C15_not_json_refuted :
    geojson_read num zero stod (s_ "{""type"":""Feature"",""x"":trux}") = (Ret tt, [], []) /\
    geojson_read num zero stod (s_ "{""type"":""Feature"",""x"":]}") = (Ret tt, [], []) /\
    fst (fst (geojson_read num zero stod (s_ "{""type"":""Feature"",""geometry"":null}"))) = Err.
  Proof. repeat split. Qed.

  (** C51, GeoJSON: loading points appends the x and y of every delivered point, in order. *)
  Theorem C51_points_geojson_partial : forall (v : json) (shs : list (shape num)) (txt w1 w2 : str),
    geo_doc num zero stod v shs -> ws w1 -> ws w2 -> value_text v txt ->
    exists rest ev, geojson_read num zero stod (w1 ++ txt ++ w2) = (Ret tt, rest, ev) /\
      points_xy num ev = map (xy num) (all_points num shs).
  Proof.
    intros v shs txt w1 w2 G H1 H2 V. destruct (geojson_text_ok num zero stod v shs txt w1 w2 G H1 H2 V) as (m & ->).
    exists m, shs. split; auto. apply points_all.
  Qed.

  (** C15/C51: loading lines into empty columns gives all vertices in order; the index holds
      the offsets at which the lines start, apart from offset 0. *)
  Theorem C15_lines_index : forall (v : json) (shs : list (shape num)) (txt w1 w2 : str),
    geo_doc num zero stod v shs -> ws w1 -> ws w2 -> value_text v txt ->
    exists rest ev, geojson_read num zero stod (w1 ++ txt ++ w2) = (Ret tt, rest, ev) /\
      lines_xy num ev [] [] = (map (xy num) (concat (all_lines num shs)),
                               filter (fun k => 0 <? k) (starts num 0 (all_lines num shs))).
  Proof.
    intros v shs txt w1 w2 G H1 H2 V. destruct (geojson_text_ok num zero stod v shs txt w1 w2 G H1 H2 V) as (m & ->).
    exists m, shs. split; auto. apply lines_all.
  Qed.
End C15.
Print Assumptions C15_geojson_partial.
Print Assumptions C15_point_refuted.
Print Assumptions C15_point_z_refuted.
Print Assumptions C15_line_3d_refuted.
Print Assumptions C15_rings_3d_refuted.
Print Assumptions C15_multipolygon_3d_refuted.
Print Assumptions C15_collection_refuted.
Print Assumptions C15_malformed_refuted.
Print Assumptions C15_not_json_refuted.
Print Assumptions C51_points_geojson_partial.
Print Assumptions C15_lines_index.

(** A feature collection with members out of order and a foreign member. *)
Example C15_example : geo_doc str [] Some
  (JObj [(s_ "features", JArr [JObj [(s_ "geometry",
     JObj [(s_ "coordinates", JArr [JArr [JNum (s_ "1"); JNum (s_ "2")]; JArr [JNum (s_ "3"); JNum (s_ "4")]]);
           (s_ "type", JStr (s_ "LineString"))]);
     (s_ "type", JStr (s_ "Feature")); (s_ "properties", JNull)]]);
    (s_ "type", JStr (s_ "FeatureCollection"))])
  [Lines [[(s_ "1", s_ "2", []); (s_ "3", s_ "4", [])]]].
Proof.
  eapply gd_collection; [apply perm_swap|constructor|].
  change [Lines [[(s_ "1", s_ "2", []); (s_ "3", s_ "4", [])]]] with
    ([Lines [[(s_ "1", s_ "2", @nil ascii); (s_ "3", s_ "4", [])]]] ++ []).
  constructor; [|constructor].
  eapply gd_feature; [apply perm_swap|repeat constructor; discriminate|].
  eapply gd_geometry; [apply perm_swap|constructor|].
  apply g_line. constructor; [discriminate|]. repeat constructor.
Qed.

Example C15_text_example : geojson_read str [] Some
  (s_ "{""features"": [{""geometry"": {""coordinates"": [[1,2],[3,4]], ""type"": ""LineString""},
       ""type"": ""Feature"", ""properties"": null}], ""type"": ""FeatureCollection""}")
  = (Ret tt, [], [Lines [[(s_ "1", s_ "2", []); (s_ "3", s_ "4", [])]]]).
Proof. vm_compute. reflexivity. Qed.
