(** Model of /repo/src/data.cc (column buffers, grouping, CSV/inline loaders). *)
From Verif Require Import Base Sexpr_Model Dispatch_Model Csv_Model.

Section Databuf.
  (** double, std::to_string(double) and parse_f64 (/repo/src/utils/algo.cc) are abstract. *)
  Variable num : Type.
  Variable show : num -> str.
  Variable parse_f64 : str -> num.

  (** DataBuffer, /repo/src/data.h:34-39. *)
  Inductive dtype := Number | Text.
  Record databuf := mk_buf {
    index : list (dtype * nat); numeric : list num; text : list str }.
  Definition empty_buf : databuf := mk_buf [] [] [].

  (** databuf_len, /repo/src/data.cc:26-28. *)
  Definition databuf_len (b : databuf) : nat := length (index b).

  (** databuf_add(double), /repo/src/data.cc:30-33. *)
  Definition databuf_add_num (b : databuf) (v : num) : databuf :=
    mk_buf (index b ++ [(Number, length (numeric b))]) (numeric b ++ [v]) (text b).

  (** databuf_add(string), /repo/src/data.cc:35-38. *)
  Definition databuf_add_text (b : databuf) (v : str) : databuf :=
    mk_buf (index b ++ [(Text, length (text b))]) (numeric b) (text b ++ [v]).

  (** databuf_to_text, /repo/src/data.cc:40-53. *)
  Fixpoint to_text_loop (b : databuf) (ix : list (dtype * nat)) (values : list str)
    : outcome (list str) :=
    match ix with
    | [] => Ret values
    | (Number, pos) :: r =>
        match nth_error (numeric b) pos with
        | Some v => to_text_loop b r (values ++ [show v]) | None => UB end
    | (Text, pos) :: r =>
        match nth_error (text b) pos with
        | Some v => to_text_loop b r (values ++ [v]) | None => UB end
    end.
  Definition databuf_to_text (b : databuf) (values : list str) := to_text_loop b (index b) values.

  (** databuf_to_numbers, /repo/src/data.cc:55-68. *)
  Fixpoint to_numbers_loop (b : databuf) (ix : list (dtype * nat)) (values : list num)
    : outcome (list num) :=
    match ix with
    | [] => Ret values
    | (Number, pos) :: r =>
        match nth_error (numeric b) pos with
        | Some v => to_numbers_loop b r (values ++ [v]) | None => UB end
    | (Text, pos) :: r =>
        match nth_error (text b) pos with
        | Some v => to_numbers_loop b r (values ++ [parse_f64 v]) | None => UB end
    end.
  Definition databuf_to_numbers (b : databuf) (values : list num) :=
    to_numbers_loop b (index b) values.

  (** expr_get_value of any node, /repo/src/sexpr.cc:179-185: a LIST node has an empty
      value. *)
  Definition raw_value (e : expr) : str :=
    match e with ELit v | EVal v => v | EList _ => [] end.

  (** data_load_simple_inline, /repo/src/data.cc:224-232. *)
  Definition load_inline (e : list expr) (b : databuf) : databuf :=
    fold_left (fun b x => databuf_add_text b (raw_value x)) e b.

  Section Files.
  (** read_file, /repo/src/utils/fileutil.cc:212-229: contents of a path, or an error. *)
  Variable read_file : str -> option str.

  (** The common part of data_load_strings_csv (/repo/src/data.cc:136-189) and
      data_load_simple_csv (:234-286): the values delivered, in order, and how it ended. *)
  Definition load_csv (e : list expr) : list str * outcome unit :=
    match e with
    | [p; c] =>
        match value_of [p; c], value_of [c] with
        | Some path, Some column =>
            match read_file path with
            | None => ([], Err)
            | Some txt =>
                match csv_parse (length txt) txt with
                | Ret data => csv_extract_column data column
                | Err => ([], Err)
                | Throw => ([], Throw)
                | UB => ([], UB)
                | Diverge => ([], Diverge)
                end
            end
        | _, _ => ([], Err)
        end
    | _ => ([], Err)
    end.

  (** expr_is_list(expr, head), /repo/src/sexpr.cc:123-125, and expr_get_list_tail. *)
  Definition list_headed (e : list expr) (head : str) : option (list expr) :=
    match e with
    | EList items :: _ =>
        match value_of items with
        | Some v => if str_eqb v head then Some (tl items) else None
        | None => None
        end
    | _ => None
    end.

  (** data_load_strings, /repo/src/data.cc:214-222: new contents of *values. *)
  Definition data_load_strings (e : list expr) (values : list str) : list str * outcome unit :=
    match list_headed e (s_ "csv") with
    | Some args => let '(vs, o) := load_csv args in (values ++ vs, o)
    | None => expr_to_strings e values
    end.

  (** data_load_simple, /repo/src/data.cc:288-300. *)
  Definition data_load_simple (e : list expr) (b : databuf) : databuf * outcome unit :=
    match list_headed e (s_ "csv") with
    | Some args => let '(vs, o) := load_csv args in (fold_left databuf_add_text vs b, o)
    | None =>
        match list_headed e (s_ "list") with
        | Some args => (load_inline args b, Ret tt)
        | None => (load_inline e b, Ret tt)
        end
    end.

  (** StringUtil::endsWith, /repo/src/utils/stringutil.cc:215-224. *)
  Definition ends_with (s suffix : str) : bool :=
    if length s <? length suffix then false
    else str_eqb (skipn (length s - length suffix) s) suffix.

  (** The format detection of data_load_polylines2 (/repo/src/data.cc:384-392) and
      data_load_points2 (:503-511). *)
  Definition detect_format (path format : str) : str :=
    match format with
    | [] => let f := if ends_with path (s_ ".csv") then s_ "csv" else [] in
            if ends_with path (s_ ".geojson") then s_ "geojson" else f
    | _ => format
    end.

  Variable load_geojson : str -> databuf -> databuf -> (databuf * databuf) * outcome unit.
  Variable load_geojson_points : str -> databuf -> databuf -> (databuf * databuf) * outcome unit.

  (** data_load_points2, /repo/src/data.cc:478-533. *)
  Definition data_load_points2 (path format : str) (ref_x ref_y : list expr) (bx by_ : databuf)
    : (databuf * databuf) * outcome unit :=
    let is_list e := match e with EList _ :: _ => true | _ => false end in
    let '(bx1, o1) := if is_list ref_x then data_load_simple ref_x bx else (bx, Ret tt) in
    match o1 with
    | Ret _ =>
        let '(by1, o2) := if is_list ref_y then data_load_simple ref_y by_ else (by_, Ret tt) in
        match o2 with
        | Ret _ =>
            match path with
            | [] => ((bx1, by1), Ret tt)
            | _ =>
                let f := detect_format path format in
                if str_eqb f (s_ "geojson") then load_geojson_points path bx1 by1
                else ((bx1, by1), Err)
            end
        | _ => ((bx1, by1), o2)
        end
    | _ => ((bx1, by_), o1)
    end.
  End Files.
End Databuf.

(** series_group, /repo/src/data.cc:115-134. The unordered_map is an association list whose
    lookup of a missing key yields 0 (operator[]). DataGroup is (key, index). *)
Fixpoint lookup0 (k : str) (m : list (str * nat)) : nat :=
  match m with
  | [] => 0
  | (k', v) :: r => if str_eqb k k' then v else lookup0 k r
  end.

(** groups[i].index.push_back(idx) *)
Fixpoint push_index (groups : list (str * list nat)) (i idx : nat) : outcome (list (str * list nat)) :=
  match groups, i with
  | [], _ => UB
  | (k, ix) :: r, O => Ret ((k, ix ++ [idx]) :: r)
  | g :: r, S j => let* r' := push_index r j idx in Ret (g :: r')
  end.

Fixpoint group_loop (data : list str) (idx : nat) (groups : list (str * list nat))
    (m : list (str * nat)) : outcome (list (str * list nat)) :=
  match data with
  | [] => Ret groups
  | v :: rest =>
      let g := lookup0 v m in
      let '(groups', m', g') :=
        if g =? 0 then (groups ++ [(v, [])], (v, S (length groups)) :: m, S (length groups))
        else (groups, m, g) in
      let* groups'' := push_index groups' (g' - 1) idx in
      group_loop rest (S idx) groups'' m'
  end.

Definition series_group (data : list str) : outcome (list (str * list nat)) :=
  group_loop data 0 [] [].

(** at_or, /repo/src/utils/algo_impl.h:18-25. *)
Definition at_or {T} (vec : list T) (idx : nat) (fb : T) : outcome T :=
  if idx <? length vec
  then match nth_error vec idx with Some v => Ret v | None => UB end   (* vec[idx] *)
  else Ret fb.

(** fallback, /repo/src/utils/algo_impl.h:63-93, for an argument list of vectors and
    options (an empty option contributes the empty vector). *)
Fixpoint fallback {H} (l : list (list H + option H)) : list H :=
  match l with
  | [] => []
  | [inl v] => v
  | [inr (Some x)] => [x]
  | [inr None] => []
  | inl v :: r => match v with [] => fallback r | _ => v end
  | inr (Some x) :: r => [x]
  | inr None :: r => fallback r
  end.
