(** Theorems about data options: C91, GeoJSON files. *)
From Verif Require Import Base Num Json_Spec Geojson_Model Geojson_Spec Geojson_Proofs Json_Props Sexpr_Model Dispatch_Model
  Csv_Model Data_Model Geo_Model Cmd_Model Cmd_Proofs Style_Spec Source_Spec Source_Props Plot_Model.
From Verif Require Import Demo.

(** The file at [path] is a GeoJSON document with these shapes (see C15). *)
Definition geojson_file (W : world) (path : str) (shs : list (shape xr)) : Prop :=
  exists v t w1 w2, w_read_file W path = Some (w1 ++ t ++ w2) /\ ws w1 /\ ws w2 /\ value_text v t /\
    geo_doc xr (Fin 0) (fun s => match w_stod W s with Some (x, _) => Some x | None => None end) v shs.
(** A column of numbers. *)
Definition numbers (b : databuf xr) (l : list xr) : Prop :=
  (forall parse, databuf_to_numbers xr parse b [] = Ret l) /\ (forall show, databuf_to_text xr show b [] = Ret (map show l)).
Definition polygons (shs : list (shape xr)) : list poly2 :=
  flat_map (fun sh => match sh with
                      | Polygons ps => map (fun p => (map (fun q => mk_vec2 (fst (xy xr q)) (snd (xy xr q))) (fst p),
                                                      map (map (fun q => mk_vec2 (fst (xy xr q)) (snd (xy xr q)))) (snd p))) ps
                      | _ => [] end) shs.

Lemma shapes_read W path shs : geojson_file W path shs -> geojson_shapes W path = Ret shs.
Proof.
  intros (v & t & w1 & w2 & R & A & B & V & G). unfold geojson_shapes. rewrite R.
  destruct (geojson_text_ok _ _ _ v shs t w1 w2 G A B V) as (m & H). unfold stod_val. rewrite H. reflexivity.
Qed.
Definition column (l : list xr) : databuf xr := fold_left (databuf_add_num xr) l (empty_buf xr).
Lemma column_snoc l x : column (l ++ [x]) = databuf_add_num xr (column l) x.
Proof. unfold column. now rewrite fold_left_app. Qed.
Lemma column_is l : numeric xr (column l) = l /\ index xr (column l) = map (fun i => (Number, i)) (seq 0 (length l)).
Proof.
  induction l as [|x l [IH1 IH2]] using rev_ind; [split; reflexivity|]. rewrite column_snoc. cbn [databuf_add_num numeric index].
  rewrite IH1, IH2, app_length. cbn [length]. rewrite seq_app, map_app. split; reflexivity.
Qed.
Lemma column_numbers l : numbers (column l) l.
Proof.
  destruct (column_is l) as [N I]. unfold numbers, databuf_to_numbers, databuf_to_text. rewrite I.
  assert (G : forall m k acc, skipn k l = m -> (forall parse, to_numbers_loop xr parse (column l) (map (fun i => (Number, i)) (seq k (length m))) acc = Ret (acc ++ m)) /\
     (forall show acc', to_text_loop xr show (column l) (map (fun i => (Number, i)) (seq k (length m))) acc' = Ret (acc' ++ map show m))).
  { induction m as [|x m IH]; intros k acc E; cbn [length seq map to_numbers_loop to_text_loop].
    - split; intros; now rewrite app_nil_r.
    - assert (X : nth_error l k = Some x).
      { clear - E. revert k E. induction l as [|y l' IH]; intros [|k] E; cbn [skipn] in E; try discriminate; [now injection E as <-|cbn; auto]. }
      assert (Y : skipn (S k) l = m).
      { clear - E. revert k E. induction l as [|y l' IH]; intros [|k] E; cbn [skipn] in E |- *; try discriminate; [now injection E|]. now apply IH. }
      rewrite N, X. split; [intro parse|intros show acc'].
      + destruct (IH (S k) (acc ++ [x]) Y) as [A _]. rewrite A. now rewrite <- app_assoc.
      + destruct (IH (S k) acc Y) as [_ A]. rewrite A. cbn [map]. now rewrite <- app_assoc. }
  destruct (G l 0 [] eq_refl) as [A B]. split; [exact A|intro show; exact (B show [])].
Qed.
Lemma add_pts_column pts l m : add_pts pts (column l, column m) = (column (l ++ map fst pts), column (m ++ map snd pts)).
Proof.
  revert l m. induction pts as [|p pts IH]; intros l m; cbn [add_pts fold_left map]; [now rewrite !app_nil_r|].
  cbn [fst snd]. rewrite <- !column_snoc. specialize (IH (l ++ [fst p]) (m ++ [snd p])). unfold add_pts in IH. rewrite IH, <- !app_assoc. reflexivity.
Qed.
Lemma column_len l : databuf_len xr (column l) = length l.
Proof. unfold databuf_len. destruct (column_is l) as [_ ->]. now rewrite map_length, seq_length. Qed.
Lemma lines_column ev : forall pts ix, add_line_shapes ev (column (map fst pts), column (map snd pts)) ix =
  let '(pts', ix') := lines_xy xr ev pts ix in ((column (map fst pts'), column (map snd pts')), ix').
Proof.
  assert (L : forall ls pts ix, add_lines ls (column (map fst pts), column (map snd pts)) ix =
    let '(pts', ix') := lines_cb xr ls pts ix in ((column (map fst pts'), column (map snd pts')), ix')).
  { induction ls as [|l ls IH]; intros pts ix; cbn [add_lines lines_cb]; [reflexivity|].
    cbn [fst snd]. rewrite !column_len, !map_length, Nat.min_id, add_pts_column, <- !map_app. apply IH. }
  induction ev as [|[ps|ls|ps] ev IH]; intros pts ix; cbn [add_line_shapes lines_xy]; try apply IH; [reflexivity|].
  rewrite L. destruct (lines_cb xr ls pts ix) as [pts' ix']. apply IH.
Qed.
Lemma no_inline W ref b : (forall l r, ref <> EList l :: r) -> load_inline_ref W ref b = Ret b.
Proof. intro N. unfold load_inline_ref. destruct ref as [|[l|v|v] r]; try reflexivity. destruct (N l r eq_refl). Qed.

(** C91, points from a GeoJSON file: all its points, in order, behind the earlier ones. *)
Theorem C91_points_geojson : forall W path fmt rx ry shs, path <> [] -> detect_format path fmt = s_ "geojson" ->
  (forall l r, rx <> EList l :: r) -> (forall l r, ry <> EList l :: r) -> geojson_file W path shs ->
  exists bx by_, load_points W (mk_src path fmt rx ry) (empty_buf xr) (empty_buf xr) = Ret (bx, by_) /\
    numbers bx (map fst (map (xy xr) (all_points xr shs))) /\ numbers by_ (map snd (map (xy xr) (all_points xr shs))).
Proof.
  intros W path fmt rx ry shs NE D NX NY F. apply shapes_read in F. unfold load_points, data_load_points2. cbn [d_x d_y d_ref d_fmt].
  assert (X : forall e (T : Type) (a b : T), (forall l r, e <> EList l :: r) -> (if match e with EList _ :: _ => true | _ => false end then a else b) = b).
  { intros e T a b N. destruct e as [|[l|v|v] r]; try reflexivity. destruct (N l r eq_refl). }
  rewrite !X by assumption. destruct path as [|c path]; [congruence|]. rewrite D. change (str_eqb (s_ "geojson") (s_ "geojson")) with true. cbv iota.
  unfold load_geojson_points. rewrite F. change (empty_buf xr) with (column []). rewrite add_pts_column, points_all. cbn [app ended].
  eexists _, _. split; [reflexivity|]. split; apply column_numbers.
Qed.
Print Assumptions C91_points_geojson.

(** C91, lines from a GeoJSON file: the vertices of all its lines, in order, and where the
    second, third, ... line begins. *)
Theorem C91_lines_geojson : forall W path fmt rx ry shs, path <> [] -> detect_format path fmt = s_ "geojson" ->
  (forall l r, rx <> EList l :: r) -> (forall l r, ry <> EList l :: r) -> geojson_file W path shs ->
  let ls := all_lines xr shs in
  exists bx by_ ix, load_lines W (mk_src path fmt rx ry) = Ret ((bx, by_), ix) /\
    numbers bx (map fst (map (xy xr) (concat ls))) /\ numbers by_ (map snd (map (xy xr) (concat ls))) /\
    (forall l, In l ls -> l <> []) /\ (ls <> [] -> 0 :: ix = starts xr 0 ls) /\ (ls = [] -> ix = []).
Proof.
  intros W path fmt rx ry shs NE D NX NY F. pose proof F as F0. apply shapes_read in F. unfold load_lines. cbn [d_x d_y d_ref d_fmt].
  rewrite !no_inline by assumption. cbn [bind]. destruct path as [|c path]; [congruence|]. rewrite D.
  change (str_eqb (s_ "geojson") (s_ "csv")) with false. change (str_eqb (s_ "geojson") (s_ "geojson")) with true. cbv iota zeta.
  rewrite F. cbn [bind]. change (empty, empty) with (column (map fst (@nil (xr * xr))), column (map snd (@nil (xr * xr)))). rewrite (lines_column shs [] []). rewrite lines_all. cbn [app map length].
  assert (NEl : forall l, In l (all_lines xr shs) -> l <> []).
  { destruct F0 as (v & t & w1 & w2 & _ & _ & _ & _ & G). clear - G. set (stod := fun s => _) in G.
    assert (A : forall j l, arr (pos2 xr (Fin 0) stod) j l -> l <> []) by (intros j l H; now inversion H).
    assert (B : forall t c sh, geometry xr (Fin 0) stod t c sh -> forall l, In l (all_lines xr [sh]) -> l <> []).
    { intros t c sh H l I. destruct H; cbn in I; rewrite ?app_nil_r in I; try (destruct I; fail).
      - destruct I as [<-|[]]. eauto.
      - inversion H as [js l0 Hn HF]; subst. clear - HF I A. induction HF as [|j x js l1 Hx HF IH]; [destruct I|]. destruct I as [<-|I]; eauto. }
    revert v shs G. apply (geo_doc_ind2 xr (Fin 0) stod (fun _ shs => forall l, In l (all_lines xr shs) -> l <> []) (fun _ shs => forall l, In l (all_lines xr shs) -> l <> [])).
    - intros. eauto.
    - intros. auto.
    - intros. auto.
    - intros l [].
    - intros v vs sh shs _ H1 _ H2 l I. unfold all_lines in I. rewrite flat_map_app in I. apply in_app_or in I as [I|I]; [now apply H1|now apply H2]. }
  eexists _, _, _. split; [reflexivity|]. split; [apply column_numbers|]. split; [apply column_numbers|]. split; [exact NEl|].
  destruct (all_lines xr shs) as [|l ls]; [split; [congruence|reflexivity]|]. split; [intros _|congruence].
  assert (Pos : 0 < length l) by (specialize (NEl l (or_introl eq_refl)); destruct l; [congruence|cbn; lia]).
  cbn [starts filter]. change (0 <? 0) with false. cbv iota. f_equal. cbn [plus].
  assert (G : forall n m, 0 < n -> filter (fun k => 0 <? k) (starts xr n m) = starts xr n m).
  { intros n m. revert n. induction m as [|x m IH]; intros n P; cbn [starts filter]; [reflexivity|].
    destruct (Nat.ltb_spec 0 n); [|lia]. f_equal. apply IH. lia. }
  now apply G.
Qed.
Print Assumptions C91_lines_geojson.

(** C91, polygons from a GeoJSON file: all its polygons, with their holes, in order, behind the
    earlier ones. Nothing else can be given as the data of polygons. *)
Theorem C91_polygons_geojson : forall W w p path shs r old, word "geojson" w -> is_text p path -> geojson_file W path shs ->
  load_polys W (EList [w; p] :: r) old = (match w with ELit _ => Ret (old ++ polygons shs) | _ => Err end).
Proof.
  intros W w p path shs r old Hw Hp F. apply shapes_read in F.
  destruct Hw as [-> | ->]; cbn [load_polys]; [reflexivity|]. change (str_eqb (s_ "geojson") (s_ "geojson")) with true. cbv iota.
  apply (is_text_value p []) in Hp. rewrite Hp, F. reflexivity.
Qed.
Print Assumptions C91_polygons_geojson.

(** A file with a polygon. *)
Example C91_polygons_example : exists shs, geojson_file demo (s_ "p.json") shs /\
  polygons shs = [([mk_vec2 (Fin 0) (Fin 0); mk_vec2 (Fin 4) (Fin 0); mk_vec2 (Fin 4) (Fin 6); mk_vec2 (Fin 0) (Fin 0)], [])].
Proof.
  pose (z := s_ "0"). pose (four := s_ "4"). pose (six := s_ "6").
  exists [Polygons [([(Fin 0, Fin 0, Fin 0); (Fin 4, Fin 0, Fin 0); (Fin 4, Fin 6, Fin 0); (Fin 0, Fin 0, Fin 0)], [])]].
  split; [|reflexivity].
  exists (JObj [(s_ "type", JStr (s_ "Polygon")); (s_ "coordinates",
     JArr [JArr [JArr [JNum z; JNum z]; JArr [JNum four; JNum z]; JArr [JNum four; JNum six]; JArr [JNum z; JNum z]]])]),
   (s_ "{""type"":""Polygon"",""coordinates"":[[[0,0],[4,0],[4,6],[0,0]]]}"), [], [].
  split; [reflexivity|]. split; [constructor|]. split; [constructor|].
  assert (N : forall c, is_digit c = true -> c <> "0"%char -> value_text (JNum [c]) [c]).
  { intros c D C. apply vt_num. apply (nl [] [c] [] []); [now left|apply ip_nz; [assumption|assumption|constructor]|constructor|constructor]. }
  assert (N0 : value_text (JNum z) z) by (apply vt_num; apply (nl [] z [] []); [now left|constructor|constructor|constructor]).
  assert (N4 : value_text (JNum four) four) by (apply N; [reflexivity|discriminate]).
  assert (N6 : value_text (JNum six) six) by (apply N; [reflexivity|discriminate]).
  assert (Pair : forall a b : str, value_text (JNum a) a -> value_text (JNum b) b -> value_text (JArr [JNum a; JNum b]) (s_ "[" ++ (a ++ s_ "," ++ b) ++ s_ "]")).
  { intros a b A B. apply vt_arr. apply (et_cons [] [] _ a _ b); [constructor|constructor|assumption|].
    rewrite <- (app_nil_r b) at 2. apply (et_one [] [] _ b); [constructor|constructor|assumption]. }
  split.
  - apply (vt_obj _ (s_ """type"":""Polygon"",""coordinates"":[[[0,0],[4,0],[4,6],[0,0]]]")).
    assert (SB : forall t : str, Forall (fun c => 32 <= nat_of_ascii c /\ c <> c_dq /\ c <> c_bs) t -> string_body t).
    { induction 1 as [|c t (A & B & C) _ IH]; constructor; assumption. }
    apply (mt_cons [] [] [] [] (s_ "type") _ (s_ """Polygon""") _ (s_ """coordinates"":[[[0,0],[4,0],[4,6],[0,0]]]")); try (constructor; fail).
    + apply SB. repeat constructor; cbn; lia || discriminate.
    + apply (vt_str (s_ "Polygon")). apply SB. repeat constructor; cbn; lia || discriminate.
    + apply (mt_one [] [] [] [] (s_ "coordinates") _ (s_ "[[[0,0],[4,0],[4,6],[0,0]]]")); try (constructor; fail).
      * apply SB. repeat constructor; cbn; lia || discriminate.
      * apply (vt_arr _ (s_ "[[0,0],[4,0],[4,6],[0,0]]")). apply (et_one [] [] _ (s_ "[[0,0],[4,0],[4,6],[0,0]]")); try (constructor; fail).
        apply (vt_arr _ (s_ "[0,0],[4,0],[4,6],[0,0]")).
        apply (et_cons [] [] _ (s_ "[0,0]") _ (s_ "[4,0],[4,6],[0,0]")); try (constructor; fail); [now apply Pair|].
        apply (et_cons [] [] _ (s_ "[4,0]") _ (s_ "[4,6],[0,0]")); try (constructor; fail); [now apply Pair|].
        apply (et_cons [] [] _ (s_ "[4,6]") _ (s_ "[0,0]")); try (constructor; fail); [now apply Pair|].
        apply (et_one [] [] _ (s_ "[0,0]")); try (constructor; fail). now apply Pair.
  - eapply gd_geometry; [reflexivity|constructor|]. apply g_polygon. constructor. constructor; [discriminate|]. constructor; [|constructor].
    constructor; [discriminate|]. repeat constructor.
Qed.
