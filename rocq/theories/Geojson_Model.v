(** Model of /repo/src/utils/geojson.cc, and of the GeoJSON loaders of /repo/src/data.cc. *)
From Verif Require Import Base Json_Model.
From Coq Require Import ZArith.

Section Geo.
  (** double, the literal 0, and std::stod (an exception, caught by the caller, is None). *)
  Variable num : Type.
  Variable zero : num.
  Variable stod : str -> option num.

  (** GeoJSONCoord, /repo/src/utils/geojson.cc:21-24. *)
  Notation coord := (num * Z)%type.
  Notation vec3 := (num * num * num)%type.

  (** geojson_read_coords, /repo/src/utils/geojson.cc:29-75: the loop. *)
  Fixpoint coords_loop (n : nat) (s : str) (level rlevel : Z) (coords : list coord)
    : jres (list coord) :=
    if (level <? 0)%Z then (Ret coords, s)
    else
    match n with
    | O => (Diverge, s)
    | S n =>
        jbind (json_parse s) (fun t s =>
        match t with
        | TNum d =>
            match stod d with
            | None => (Err, s)
            | Some v => coords_loop n s level level (coords ++ [(v, rlevel)])
            end
        | TArrB => coords_loop n s (level + 1)%Z rlevel coords
        | TArrE => coords_loop n s (level - 1)%Z (level - 1)%Z coords
        | _ => (Err, s)
        end)
    end.
  Definition read_coords (n : nat) (s : str) (coords : list coord) : jres (list coord) :=
    jbind (read_array_begin s) (fun _ s => coords_loop n s 0 0 coords).

  (** What the reader's callbacks receive. *)
  Inductive shape :=
  | Points (ps : list vec3)
  | Lines (ls : list (list vec3))
  | Polygons (ps : list (list vec3 * list (list vec3))).     (* boundary, holes *)

  (** rings.back().vertices.emplace_back(v); UB when there is no ring. *)
  Fixpoint push_last (rings : list (list vec3)) (v : vec3) : outcome (list (list vec3)) :=
    match rings with
    | [] => UB
    | [r] => Ret [r ++ [v]]
    | r :: rs => let* rs' := push_last rs v in Ret (r :: rs')
    end.

  (** The loop of geojson_read_polygon, :81-101. [l] is the part of coords from index i. *)
  Fixpoint polygon_loop (n : nat) (l : list coord) (rings : list (list vec3))
    : outcome (list (list vec3)) :=
    match n with
    | O => Diverge
    | S n =>
        match l with
        | [] => Ret rings
        | a :: t =>
            let rings := if (snd a =? 0)%Z then rings ++ [[]] else rings in
            match t with
            | [] => Err
            | b :: r =>
                if negb (snd b =? 2)%Z || (match rings with [] => true | _ => false end) then Err
                else
                  let v := match r with
                           | c :: _ => if (snd c =? 2)%Z then (fst a, fst c, fst c)
                                       else (fst a, fst b, zero)
                           | [] => (fst a, fst b, zero)
                           end in
                  let* rings := push_last rings v in
                  polygon_loop n r rings
            end
        end
    end.

  (** geojson_read_polygon, :77-120. *)
  Definition read_polygon (coords : list coord) : outcome shape :=
    let* rings := polygon_loop (S (length coords)) coords [] in
    match rings with
    | [] => Err
    | r :: holes => Ret (Polygons [(r, holes)])
    end.

  (** rings.back().emplace_back() and rings.back().back().vertices.emplace_back(v). *)
  Fixpoint open_ring (polys : list (list (list vec3))) : outcome (list (list (list vec3))) :=
    match polys with
    | [] => UB
    | [p] => Ret [p ++ [[]]]
    | p :: ps => let* ps' := open_ring ps in Ret (p :: ps')
    end.
  Fixpoint push_last2 (polys : list (list (list vec3))) (v : vec3) : outcome (list (list (list vec3))) :=
    match polys with
    | [] => UB
    | [p] => let* p' := push_last p v in Ret [p']
    | p :: ps => let* ps' := push_last2 ps v in Ret (p :: ps')
    end.

  (** The loop of geojson_read_multi_polygon, :126-151. *)
  Fixpoint multi_polygon_loop (n : nat) (l : list coord) (polys : list (list (list vec3)))
    : outcome (list (list (list vec3))) :=
    match n with
    | O => Diverge
    | S n =>
        match l with
        | [] => Ret polys
        | a :: t =>
            let* polys := if (snd a =? 0)%Z then open_ring (polys ++ [[]])
                          else if (snd a =? 1)%Z then open_ring polys
                          else Ret polys in
            match t with
            | [] => Err
            | b :: r =>
                if negb (snd b =? 3)%Z || (match polys with [] => true | _ => false end) then Err
                else
                  let v := match r with
                           | c :: _ => if (snd c =? 3)%Z then (fst a, fst c, fst c)
                                       else (fst a, fst b, zero)
                           | [] => (fst a, fst b, zero)
                           end in
                  let* polys := push_last2 polys v in
                  multi_polygon_loop n r polys
            end
        end
    end.

  (** Lines 153-166. *)
  Fixpoint build_polys (polys : list (list (list vec3))) : outcome (list (list vec3 * list (list vec3))) :=
    match polys with
    | [] => Ret []
    | [] :: _ => Err
    | (r :: holes) :: ps => let* ps' := build_polys ps in Ret ((r, holes) :: ps')
    end.

  (** geojson_read_multi_polygon, :122-175. *)
  Definition read_multi_polygon (coords : list coord) : outcome shape :=
    let* polys := multi_polygon_loop (S (length coords)) coords [] in
    let* ps := build_polys polys in Ret (Polygons ps).

  (** geojson_read_point, :177-212: the first branch reads coords[2] of a vector of size 2. *)
  Definition read_point (coords : list coord) : outcome shape :=
    match coords with
    | [a; b] =>
        if (snd a =? 0)%Z && (snd b =? 0)%Z then
          match nth_error coords 2 with
          | Some c => Ret (Points [(fst a, fst b, fst c)])
          | None => UB
          end
        else Err
    | [a; b; c] =>
        if (snd a =? 0)%Z && (snd b =? 0)%Z && (snd c =? 0)%Z
        then Ret (Points [(fst a, fst b, zero)]) else Err
    | _ => Err
    end.

  (** The common loop of geojson_read_multi_point (:218-234) and geojson_read_line_string
      (:253-269). *)
  Fixpoint positions_loop (n : nat) (l : list coord) (points : list vec3) : outcome (list vec3) :=
    match n with
    | O => Diverge
    | S n =>
        match l with
        | [] => Ret points
        | [_] => Err
        | a :: b :: r =>
            if negb (snd a =? 0)%Z || negb (snd b =? 1)%Z then Err
            else
              let v := match r with
                       | c :: _ => if (snd c =? 1)%Z then (fst a, fst b, fst c)
                                   else (fst a, fst b, zero)
                       | [] => (fst a, fst b, zero)
                       end in
              positions_loop n r (points ++ [v])
        end
    end.

  (** geojson_read_multi_point, :214-247; geojson_read_line_string, :249-282. *)
  Definition read_multi_point (coords : list coord) : outcome shape :=
    let* ps := positions_loop (S (length coords)) coords [] in
    match ps with [] => Err | _ => Ret (Points ps) end.
  Definition read_line_string (coords : list coord) : outcome shape :=
    let* ps := positions_loop (S (length coords)) coords [] in
    match ps with [] => Err | _ => Ret (Lines [ps]) end.

  (** geojson_read_multi_line_string, :284-321. *)
  Fixpoint lines_loop (n : nat) (l : list coord) (lines : list (list vec3))
    : outcome (list (list vec3)) :=
    match n with
    | O => Diverge
    | S n =>
        match l with
        | [] => Ret lines
        | a :: t =>
            let lines := if (snd a =? 0)%Z then lines ++ [[]] else lines in
            match t with
            | [] => Err
            | b :: r =>
                if negb (snd b =? 2)%Z || (match lines with [] => true | _ => false end) then Err
                else
                  let v := match r with
                           | c :: _ => if (snd c =? 2)%Z then (fst a, fst b, fst c)
                                       else (fst a, fst b, zero)
                           | [] => (fst a, fst b, zero)
                           end in
                  let* lines := push_last lines v in
                  lines_loop n r lines
            end
        end
    end.
  Definition read_multi_line_string (coords : list coord) : outcome shape :=
    let* ls := lines_loop (S (length coords)) coords [] in
    match ls with [] => Err | _ => Ret (Lines ls) end.

  (** The dispatch on the object type, :379-409; None: nothing is delivered. *)
  Definition finish_object (type : str) (coords : list coord) : outcome (option shape) :=
    let some (o : outcome shape) := let* x := o in Ret (Some x) in
    if str_eqb type (s_ "Feature") || str_eqb type (s_ "FeatureCollection")
       || str_eqb type (s_ "GeometryCollection") then Ret None
    else if str_eqb type (s_ "Point") then some (read_point coords)
    else if str_eqb type (s_ "MultiPoint") then some (read_multi_point coords)
    else if str_eqb type (s_ "Polygon") then some (read_polygon coords)
    else if str_eqb type (s_ "MultiPolygon") then some (read_multi_polygon coords)
    else if str_eqb type (s_ "LineString") then some (read_line_string coords)
    else if str_eqb type (s_ "MultiLineString") then some (read_multi_line_string coords)
    else Err.

  (** State of the reader: the unread input and the shapes delivered to the callbacks so
      far (the callbacks of data.cc always return OK). *)
  Definition gres : Type := (outcome unit * str * list shape)%type.
  Definition gbind (m : gres) (k : str -> list shape -> gres) : gres :=
    match m with
    | (Ret _, s, ev) => k s ev
    | _ => m
    end.
  (** Running a function that delivers nothing. *)
  Definition gpure {A} (m : jres A) (ev : list shape) (k : A -> str -> gres) : gres :=
    match m with
    | (Ret a, s) => k a s
    | (Err, s) => (Err, s, ev) | (Throw, s) => (Throw, s, ev) | (UB, s) => (UB, s, ev)
    | (Diverge, s) => (Diverge, s, ev)
    end.

  (** geojson_read_object_data (:323-410), geojson_read_objects (:412-440) and
      geojson_read_object (:442-454). [type], [coords] are the locals of the running call.
      The result of json_skip (line 376) is not looked at; only a json_skip that never
      returns keeps the loop from continuing. *)
  Fixpoint object_data (n : nat) (s : str) (ev : list shape) (type : str) (coords : list coord) : gres :=
    match n with
    | O => (Diverge, s, ev)
    | S n =>
        gpure (json_parse s) ev (fun t s =>
        match t with
        | TObjE =>
            match finish_object type coords with
            | Ret None => (Ret tt, s, ev)
            | Ret (Some x) => (Ret tt, s, ev ++ [x])
            | Err => (Err, s, ev) | Throw => (Throw, s, ev) | UB => (UB, s, ev)
            | Diverge => (Diverge, s, ev)
            end
        | TStr key =>
            if str_eqb key (s_ "type") then
              gpure (read_string s) ev (fun v s => object_data n s ev v coords)
            else if str_eqb key (s_ "features") then
              gbind (read_objects n s ev) (fun s ev => object_data n s ev type coords)
            else if str_eqb key (s_ "geometry") then
              gbind (read_object n s ev) (fun s ev => object_data n s ev type coords)
            else if str_eqb key (s_ "coordinates") then
              gpure (read_coords n s coords) ev (fun coords s => object_data n s ev type coords)
            else
              match json_skip n s with
              | (Diverge, s) => (Diverge, s, ev)
              | (_, s) => object_data n s ev type coords
              end
        | _ => (Err, s, ev)
        end)
    end
  with objects_loop (n : nat) (s : str) (ev : list shape) : gres :=
    match n with
    | O => (Diverge, s, ev)
    | S n =>
        gpure (json_parse s) ev (fun t s =>
        match t with
        | TObjB => gbind (object_data n s ev [] []) (fun s ev => objects_loop n s ev)
        | TArrE => (Ret tt, s, ev)
        | _ => (Err, s, ev)
        end)
    end
  with read_objects (n : nat) (s : str) (ev : list shape) : gres :=
    match n with
    | O => (Diverge, s, ev)
    | S n => gpure (read_array_begin s) ev (fun _ s => objects_loop n s ev)
    end
  with read_object (n : nat) (s : str) (ev : list shape) : gres :=
    match n with
    | O => (Diverge, s, ev)
    | S n => gpure (read_object_begin s) ev (fun _ s => object_data n s ev [] [])
    end.

  (** geojson_read_file, :456-465, for a file that opens. *)
  Definition geojson_read (s : str) : gres := read_object (4 * length s + 4) s [].

  (** data_load_points2_geojson, /repo/src/data.cc:461-476: what is appended to data_x and
      data_y; other shapes have no callback. *)
  Fixpoint points_xy (ev : list shape) : list (num * num) :=
    match ev with
    | [] => []
    | Points ps :: r => map (fun p => (fst (fst p), snd (fst p))) ps ++ points_xy r
    | _ :: r => points_xy r
    end.

  (** data_load_polylines2_geojson, /repo/src/data.cc:333-356: the points appended to an
      initial column of [len0] points and the new entries of *index. *)
  Fixpoint lines_cb (ls : list (list vec3)) (pts : list (num * num)) (index : list nat)
    : list (num * num) * list nat :=
    match ls with
    | [] => (pts, index)
    | l :: r =>
        let index := if 0 <? length pts then index ++ [length pts] else index in
        lines_cb r (pts ++ map (fun p => (fst (fst p), snd (fst p))) l) index
    end.
  Fixpoint lines_xy (ev : list shape) (pts : list (num * num)) (index : list nat)
    : list (num * num) * list nat :=
    match ev with
    | [] => (pts, index)
    | Lines ls :: r => let '(pts, index) := lines_cb ls pts index in lines_xy r pts index
    | _ :: r => lines_xy r pts index
    end.
End Geo.
Arguments Points {num}. Arguments Lines {num}. Arguments Polygons {num}.
