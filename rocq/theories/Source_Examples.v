(** A concrete case of every theorem about data options: a CSV file with two columns. *)
From Coq Require Import Reals.
From Verif Require Import Base Num Csv_Model Csv_Spec Csv_Proofs Sexpr_Model Dispatch_Model Data_Model Data_Spec Data_Proofs
  Cmd_Model Plot_Model Style_Spec Source_Spec Source_Props Demo Cmd_Spec.

Definition two_rows : str := s_ "x,y" ++ [c_nl] ++ s_ "1,2" ++ [c_nl] ++ s_ "3,4" ++ [c_nl].
Definition csv_world : world :=
  mk_world exact exact demo_stod (fun _ => []) demo_is_number
    (fun p => if str_eqb p (s_ "d.csv") then Some two_rows else if str_eqb p (s_ "empty.csv") then Some [] else None)
    (fun _ _ => []) (fun l => l) (fun l => l) (w_font_load demo) (w_text demo) (w_measure demo) 1000.
Lemma two_rows_file : file two_rows [[s_ "x"; s_ "y"]; [s_ "1"; s_ "2"]; [s_ "3"; s_ "4"]].
Proof.
  apply csv_iff; [|reflexivity]. intros s0 H. apply (f_equal (@rev ascii)) in H. rewrite rev_app_distr in H. discriminate.
Qed.
Lemma csv_world_plain : plain_files csv_world.
Proof.
  intros p t. cbn [w_read_file csv_world]. destruct (str_eqb p _); [|destruct (str_eqb p _); [|discriminate]]; intro H; injection H as <-; intros s0 H.
  - apply (f_equal (@rev ascii)) in H. rewrite rev_app_distr in H. discriminate.
  - destruct s0; discriminate.
Qed.
Lemma two_rows_y : csv_values two_rows (s_ "y") [s_ "2"; s_ "4"].
Proof.
  apply cv_rows with [s_ "x"; s_ "y"] [[s_ "1"; s_ "2"]; [s_ "3"; s_ "4"]] 1.
  - exact two_rows_file.
  - reflexivity.
  - intros [|[|j]] H; [discriminate|lia..].
  - repeat constructor.
Qed.
Definition csv_y : list expr := [EList [EVal (s_ "csv"); ELit (s_ "d.csv"); EVal (s_ "y")]].
Lemma csv_y_means : csv_data (w_read_file csv_world) csv_y [s_ "2"; s_ "4"].
Proof.
  exists (EVal (s_ "csv")), (ELit (s_ "d.csv")), (EVal (s_ "y")), (s_ "d.csv"), (s_ "y"), two_rows, []. split; [reflexivity|].
  split; [left; reflexivity|]. split; [right; reflexivity|]. split; [left; reflexivity|]. split; [reflexivity|]. exact two_rows_y.
Qed.
(** C91_column, C91_csv: a CSV column behind a value that is there already. *)
Example C91_column_case : exists b, load_simple csv_world csv_y (fold_left (do_add xr) [AddText (s_ "7")] (empty_buf xr)) = Ret b /\
  databuf_to_text xr (fun _ => []) b [] = Ret [s_ "7"; s_ "2"; s_ "4"].
Proof. exact (C91_column csv_world csv_y _ [AddText (s_ "7")] (fun _ => []) [] csv_world_plain (dm_csv _ _ _ csv_y_means)). Qed.
Example C91_list_case : exists b, load_simple csv_world [EList [EVal (s_ "list"); EVal (s_ "a"); ELit (s_ "b")]] (empty_buf xr) = Ret b /\
  databuf_to_text xr (fun _ => []) b [] = Ret [s_ "a"; s_ "b"].
Proof.
  refine (C91_column csv_world _ _ [] (fun _ => []) [] csv_world_plain (dm_list _ _ _ _ _ _ _)); [left; reflexivity|].
  constructor; [left; reflexivity|constructor; [right; reflexivity|constructor]].
Qed.
Example C91_missing_column_case : forall b b', load_simple csv_world [EList [EVal (s_ "csv"); ELit (s_ "d.csv"); EVal (s_ "z")]] b <> Ret b'.
Proof. intros b b'. vm_compute. discriminate. Qed.
Example C91_strings_case : rd_strings csv_world csv_y [s_ "a"] = Ret [s_ "a"; s_ "2"; s_ "4"] /\ rd_strings csv_world [EVal (s_ "b")] [s_ "a"] = Ret [s_ "b"].
Proof.
  split; apply (C91_strings csv_world _ _ _ csv_world_plain).
  - left. exists [s_ "2"; s_ "4"]. split; [exact csv_y_means|reflexivity].
  - right. split; [intros (w & a & r & X & _); discriminate|]. constructor; [left; reflexivity|constructor].
Qed.
Example C91_other_list_case : load_simple csv_world [EList [EVal (s_ "lst"); EVal (s_ "1"); EVal (s_ "2")]] (empty_buf xr) = Ret (databuf_add_text xr (empty_buf xr) []).
Proof. apply C91_other_list_refuted. intros w a X. injection X as <- <-. split; intros [H|H]; discriminate. Qed.
Example C91_empty_file_case : load_simple csv_world [EList [EVal (s_ "csv"); EVal (s_ "empty.csv"); EVal (s_ "z")]] (empty_buf xr) = Ret (empty_buf xr).
Proof. apply (C91_empty_file_refuted csv_world _ _ _ (s_ "empty.csv") (s_ "z")); try (left; reflexivity); reflexivity. Qed.
(** C91_lines_csv: a CSV file with the usual column names, and with one chosen by the program. *)
Example C91_lines_csv_case : load_lines csv_world (mk_src (s_ "d.csv") [] [] [EVal (s_ "x")]) =
  Ret ((fold_left (databuf_add_text xr) [s_ "1"; s_ "3"] (empty_buf xr), fold_left (databuf_add_text xr) [s_ "1"; s_ "3"] (empty_buf xr)), []).
Proof.
  assert (X : csv_values two_rows (s_ "x") [s_ "1"; s_ "3"]).
  { apply cv_rows with [s_ "x"; s_ "y"] [[s_ "1"; s_ "2"]; [s_ "3"; s_ "4"]] 0.
    - exact two_rows_file. - reflexivity. - intros j H. lia. - repeat constructor. }
  apply (C91_lines_csv csv_world _ _ _ _ _ _ _ csv_world_plain); [discriminate|reflexivity|discriminate|discriminate|]. split; [reflexivity|].
  exists two_rows, (s_ "x"), (s_ "x"), [s_ "1"; s_ "3"], [s_ "1"; s_ "3"]. split; [reflexivity|].
  split; [right; split; [discriminate|reflexivity]|]. split; [left; exists (EVal (s_ "x")), []; split; [reflexivity|left; reflexivity]|]. auto.
Qed.
