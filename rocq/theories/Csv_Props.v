(** Property theorems: CSV (C07, C08, C09), columns and grouping (C18, C19, C51, C52). *)
From Verif Require Import Base Csv_Model Csv_Spec Csv_Proofs.
From Verif Require Import Sexpr_Model Dispatch_Model Data_Model Data_Spec Data_Proofs.

(** C07. Writing a table of arbitrary byte strings and reading it gives the table back. *)
Theorem C07_roundtrip : forall (e : str) (rows : list (list str)),
  eol e -> Forall (fun r => r <> []) rows ->
  csv_parse (length (write_table e rows)) (write_table e rows) = Ret rows.
Proof. exact csv_roundtrip. Qed.
Print Assumptions C07_roundtrip.

Example C07_example : eol [c_cr; c_nl] /\
  Forall (fun r => r <> []) [[[c_dq; c_comma; c_nl]; []]; [[]]] /\
  csv_parse 100 (write_table [c_cr; c_nl] [[[c_dq; c_comma; c_nl]; []]; [[]]])
    = Ret [[[c_dq; c_comma; c_nl]; []]; [[]]].
Proof. split; [right; reflexivity|]. split; [repeat constructor; discriminate|reflexivity]. Qed.

(** C08. On every text not ending in a comma: the reader returns rows exactly when the text
    is a CSV file with these rows (so it keeps every field). *)
Theorem C08_accepts_grammar_partial : forall (s : str) (rows : list (list str)),
  no_final_comma s -> (csv_parse (length s) s = Ret rows <-> file s rows).
Proof. exact csv_iff. Qed.
Print Assumptions C08_accepts_grammar_partial.

Example C08_example : no_final_comma (s_ "a,""b""") /\ file (s_ "a,""b""") [[s_ "a"; s_ "b"]].
Proof.
  assert (no_final_comma (s_ "a,""b""")) as H.
  { intros s0 E. change (s_ "a,""b""") with (s_ "a,""b" ++ [c_dq]) in E.
    apply app_inj_tail in E as [_ X]. discriminate. }
  split; [exact H|]. apply (proj1 (csv_iff _ _ H)). reflexivity.
Qed.

(** C08. It never loops, throws or reads out of bounds, on any text. *)
Theorem C08_total : forall s : str,
  (exists rows, csv_parse (length s) s = Ret rows) \/ csv_parse (length s) s = Err.
Proof. exact csv_total. Qed.
Print Assumptions C08_total.

(** C08 is false of texts ending in a comma: there the last row always loses its (empty)
    last field. *)
Theorem C08_final_comma_refuted : forall (s : str) (rows : list (list str)),
  file (s ++ [comma]) rows ->
  exists rows0 r, rows = rows0 ++ [r ++ [[]]] /\
    csv_parse (length (s ++ [comma])) (s ++ [comma]) = Ret (rows0 ++ [r]).
Proof. exact csv_final_comma. Qed.
Print Assumptions C08_final_comma_refuted.

Example C08_refuted_example : file (s_ "a" ++ [comma]) [[s_ "a"; []]].
Proof.
  apply file_last; [discriminate|]. apply (r_cons (s_ "a") (s_ "a") [] [[]]).
  - apply f_plain; [repeat constructor; discriminate|discriminate].
  - apply r_one. apply f_plain; [constructor|discriminate].
Qed.

(** C09. When every row has a field at the column's position, loading the column delivers
    exactly these fields in order. *)
Theorem C09_column_partial : forall (headers : list str) (rows : list (list str)) (column : str) (idx : nat),
  index_of column headers = Some idx -> Forall (fun r => idx < length r) rows ->
  exists vs, csv_extract_column (headers :: rows) column = (vs, Ret tt) /\
    Forall2 (fun row v => nth_error row idx = Some v) rows vs.
Proof. exact column_ok. Qed.
Print Assumptions C09_column_partial.

(** C09. The column's position is that of its first occurrence in the header. *)
Theorem C09_header_position : forall (k : str) (l : list str) (i : nat),
  index_of k l = Some i <-> nth_error l i = Some k /\ forall j, j < i -> nth_error l j <> Some k.
Proof. exact index_of_spec. Qed.
Print Assumptions C09_header_position.

(** C09. Rows shorter than the position are reported as errors... *)
Theorem C09_short_row_error_partial : forall (idx : nat) (rows : list (list str)),
  snd (extract_rows idx rows) = Err <->
  exists pre row post, rows = pre ++ row :: post /\ Forall (fun r => idx < length r) pre /\
    length row < idx.
Proof. exact extract_err. Qed.
Print Assumptions C09_short_row_error_partial.

(** C09 is false: a row missing exactly its last needed field aborts with an exception. *)
Theorem C09_no_crash_refuted : forall (idx : nat) (rows : list (list str)),
  snd (extract_rows idx rows) = Throw <->
  exists pre row post, rows = pre ++ row :: post /\ Forall (fun r => idx < length r) pre /\
    length row = idx.
Proof. exact extract_throw. Qed.
Print Assumptions C09_no_crash_refuted.

Example C09_refuted_example :
  snd (csv_extract_column [[s_ "x"; s_ "y"]; [s_ "1"]] (s_ "y")) = Throw.
Proof. reflexivity. Qed.

(** C09. The whole loader: file contents to column. *)
Theorem C09_loader_partial : forall (read : str -> option str) path column p c txt headers rows idx,
  value_of [p] = Some path -> value_of [c] = Some column ->
  read path = Some txt -> csv_parse (length txt) txt = Ret (headers :: rows) ->
  index_of column headers = Some idx -> Forall (fun r => idx < length r) rows ->
  exists vs, load_csv read [p; c] = (vs, Ret tt) /\
    Forall2 (fun row v => nth_error row idx = Some v) rows vs.
Proof. exact load_csv_ok. Qed.
Print Assumptions C09_loader_partial.

Example C09_loader_example :
  load_csv (fun _ => Some (s_ "x,y
1,2
")) [ELit (s_ "f.csv"); ELit (s_ "y")] = ([s_ "2"], Ret tt).
Proof. reflexivity. Qed.

(** C18. Any history of additions is read back in order, as text and as numbers. *)
Theorem C18_history : forall (num : Type) (show : num -> str) (parse_f64 : str -> num)
    (l : list (addition num)) (vals : list str) (nums : list num),
  let b := fold_left (do_add num) l (empty_buf num) in
  databuf_len num b = length l /\
  databuf_to_text num show b vals = Ret (vals ++ map (as_text num show) l) /\
  databuf_to_numbers num parse_f64 b nums = Ret (nums ++ map (as_num num parse_f64) l).
Proof. exact databuf_history. Qed.
Print Assumptions C18_history.

(** C18. Inline data adds the values of its elements in order (a nested list counts as the
    empty text). *)
Theorem C18_inline : forall (num : Type) (show : num -> str) e (l : list (addition num)) (vals : list str),
  databuf_to_text num show (load_inline num e (fold_left (do_add num) l (empty_buf num))) vals
  = Ret (vals ++ map (as_text num show) l ++ map raw_value e).
Proof. exact inline_text. Qed.
Print Assumptions C18_inline.

Example C18_example : databuf_to_text nat (fun _ => s_ "n")
   (fold_left (do_add nat) [AddText (s_ "a"); AddNum 3; AddText (s_ "b")] (empty_buf nat)) []
   = Ret [s_ "a"; s_ "n"; s_ "b"].
Proof. reflexivity. Qed.

(** C19. Grouping yields, for the distinct keys in order of first appearance, exactly the
    rows having that key in ascending order. *)
Theorem C19_grouping : forall data : list str, series_group data = Ret (grouped data).
Proof. exact series_group_ok. Qed.
Print Assumptions C19_grouping.

(** C19, in words: distinct keys, every row in the group of its key and in no other. *)
Theorem C19_partition : forall (data : list str) groups, series_group data = Ret groups ->
  NoDup (map fst groups) /\
  (forall k ix, In (k, ix) groups -> ix <> [] /\ forall i, In i ix <-> nth_error data i = Some k) /\
  (forall i k, nth_error data i = Some k -> exists ix, In (k, ix) groups /\ In i ix).
Proof. exact group_partition. Qed.
Print Assumptions C19_partition.

Example C19_example : series_group [s_ "a"; s_ "b"; s_ "a"] = Ret [(s_ "a", [0; 2]); (s_ "b", [1])].
Proof. reflexivity. Qed.

(** C51. Loading points from a CSV file can never succeed, whatever the file holds. *)
Theorem C51_points_csv_refuted : forall num read geo path format bx by_ x y,
  path <> [] -> detect_format path format = s_ "csv" ->
  snd (data_load_points2 num read geo path format x y bx by_) <> Ret tt.
Proof. exact points2_csv. Qed.
Print Assumptions C51_points_csv_refuted.

(** C51. Points given as two columns, without a file: each of the two is a column on its own, as for every
    other data (C18), and what is not a list of expressions leaves its column as it was. *)
Theorem C51_points_inline : forall num read geo format bx by_ cx cy,
  data_load_points2 num read geo [] format cx cy bx by_ =
  let column c b := match c with EList _ :: _ => data_load_simple num read c b | _ => (b, Ret tt) end in
  match column cx bx with
  | (bx', Ret tt) => match column cy by_ with (by', r) => ((bx', by'), r) end
  | (bx', r) => ((bx', by_), r)
  end.
Proof.
  intros. unfold data_load_points2. destruct cx as [|[lx|vx|vx] rx], cy as [|[ly|vy|vy] ry]; try reflexivity; cbv zeta;
    repeat match goal with |- context [data_load_simple num read ?e ?b] => destruct (data_load_simple num read e b) as [? [[]| | | |]] end; reflexivity.
Qed.
Print Assumptions C51_points_inline.

Example C51_example : detect_format (s_ "a.csv") [] = s_ "csv" /\ detect_format (s_ "a.geojson") [] = s_ "geojson"
  /\ detect_format (s_ "a.txt") [] = [].
Proof. repeat split. Qed.

(** C51. The format used is the explicit one, else the one named by the file's suffix. *)
Theorem C51_detection : forall path format : str,
  (format <> [] -> detect_format path format = format) /\
  (format = [] -> (exists p, path = p ++ s_ ".geojson") -> detect_format path format = s_ "geojson") /\
  (format = [] -> (exists p, path = p ++ s_ ".csv") -> detect_format path format = s_ "csv") /\
  (format = [] -> ~ (exists p, path = p ++ s_ ".geojson") -> ~ (exists p, path = p ++ s_ ".csv") ->
     detect_format path format = []).
Proof. exact detect_spec. Qed.
Print Assumptions C51_detection.

(** C52. Per-element settings: the i-th value if there is one, else the default. *)
Theorem C52_at_or : forall (T : Type) (vec : list T) (idx : nat) (fb : T),
  (forall v, nth_error vec idx = Some v -> at_or vec idx fb = Ret v) /\
  (nth_error vec idx = None -> at_or vec idx fb = Ret fb).
Proof. exact (fun T vec idx fb => at_or_spec vec idx fb). Qed.
Print Assumptions C52_at_or.

(** C52. A chain of fallbacks yields the first non-empty setting, or nothing. *)
Theorem C52_fallback : forall (H : Type) (l : list (list H + option H)),
  (forall pre x post, l = pre ++ x :: post -> Forall (fun y => contents y = []) pre ->
     contents x <> [] -> fallback l = contents x) /\
  (Forall (fun y => contents y = []) l -> fallback l = []).
Proof. exact (fun H l => fallback_spec l). Qed.
Print Assumptions C52_fallback.

Example C52_example : fallback [inl []; inr None; inr (Some 3); inl [4]] = [3].
Proof. reflexivity. Qed.
