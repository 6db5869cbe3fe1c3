(** A concrete case of every theorem about how data columns are written. *)
From Coq Require Import Reals.
From Verif Require Import Base Num Sexpr_Model Dispatch_Model Data_Model Cmd_Model Cmd_Spec Style_Model Plot_Model Axis_Model Eval_Model Eval_Spec Eval_Examples
  Source_Spec Source_Props Source_Examples Demo Respell_Spec Respell_Props.
Local Open Scope string_scope.
Local Open Scope list_scope.

(** (limit-x 0 10) (lines (limit-y 0 10) (data-x (list 1 3)) (data-y (csv "d.csv" "y"))). *)
Definition lined (c : expr) : list expr :=
  [w1 "limit-x" ["0"; "10"]] ++
  EList (EVal (s_ "lines") :: [w1 "limit-y" ["0"; "10"]; EList [EVal (s_ "data-x"); EList [EVal (s_ "list"); EVal (s_ "1"); EVal (s_ "3")]]] ++ EList [EVal (s_ "data-y"); c] :: []) :: [].
Definition y_file : expr := EList [EVal (s_ "csv"); ELit (s_ "d.csv"); ELit (s_ "y")].
Lemma y_file_means : csv_data (w_read_file csv_world) [y_file] [s_ "2"; s_ "4"].
Proof.
  exists (EVal (s_ "csv")), (ELit (s_ "d.csv")), (ELit (s_ "y")), (s_ "d.csv"), (s_ "y"), two_rows, []. split; [reflexivity|].
  split; [left; reflexivity|]. split; [right; reflexivity|]. split; [right; reflexivity|]. split; [reflexivity|]. exact two_rows_y.
Qed.
Example C118_respelled_case : forall E',
  forall out, eval_exprs csv_world demo_env (lined y_file) = Ret (E', out) <->
    eval_exprs csv_world demo_env (lined (EList [EVal (s_ "list"); EVal (s_ "2"); ELit (s_ "4")])) = Ret (E', out).
Proof.
  intros E' out. apply C118_respelled; [exact csv_world_plain|reflexivity|]. repeat apply Forall2_cons; try apply Forall2_nil; [now left|].
  right. exists "lines". do 2 eexists. split; [cbn; tauto|]. split; [reflexivity|]. split; [reflexivity|].
  repeat apply Forall2_cons; try apply Forall2_nil; [now left|now left|]. right. exists "data-y". do 2 eexists. split; [cbn; tauto|]. split; [reflexivity|]. split; [reflexivity|].
  do 2 eexists. exists [s_ "2"; s_ "4"]. split; [reflexivity|]. split; [reflexivity|]. split; [apply dm_csv; exact y_file_means|].
  apply dm_list; [left; reflexivity|]. constructor; [left; reflexivity|constructor; [right; reflexivity|constructor]].
Qed.
Example C118_file_or_list_case : forall E' out, eval_exprs csv_world demo_env (lined y_file) = Ret (E', out) <->
  eval_exprs csv_world demo_env (lined (EList (EVal (s_ "list") :: map ELit [s_ "2"; s_ "4"]))) = Ret (E', out).
Proof.
  intros E' out. apply (C118_file_or_list csv_world demo_env E' "lines" "data-y" (s_ "d.csv") (s_ "y") [s_ "2"; s_ "4"]);
    [exact csv_world_plain|cbn; tauto|cbn; tauto|exact y_file_means|reflexivity].
Qed.
(** Both are accepted: the configuration that lines makes of them has the columns 1, 3 and 2, 4. *)
Example C118_accepted_case : forall c, In c [y_file; EList [EVal (s_ "list"); EVal (s_ "2"); ELit (s_ "4")]] ->
  exists cfg, lines_configure csv_world demo_env demo_plot [EList [EVal (s_ "data-x"); EList [EVal (s_ "list"); EVal (s_ "1"); EVal (s_ "3")]]; EList [EVal (s_ "data-y"); c]] =
    Ret (cfg, (fold_left (databuf_add_text xr) [s_ "1"; s_ "3"] (empty_buf xr), fold_left (databuf_add_text xr) [s_ "2"; s_ "4"] (empty_buf xr)), []).
Proof. intros c [<-|[<-|[]]]; eexists; reflexivity. Qed.
(** (lines (data "d.csv") (stroke-width 2)) and (lines (data "d.csv") (data-x "y") (data-y "x")). *)
Lemma two_rows_x : csv_values two_rows (s_ "x") [s_ "1"; s_ "3"].
Proof.
  apply cv_rows with [s_ "x"; s_ "y"] [[s_ "1"; s_ "2"]; [s_ "3"; s_ "4"]] 0.
  - exact two_rows_file.
  - reflexivity.
  - intros j H. inversion H.
  - repeat constructor.
Qed.
Definition filed (d : list expr) : list expr := [] ++ EList (EVal (s_ "lines") :: d ++ [w1 "stroke-width" ["2"]]) :: [].
Lemma width_no_source : no_source [w1 "stroke-width" ["2"]].
Proof. intros x k a [<-|[]] H. injection H as <- <-. cbn. intuition discriminate. Qed.
Example C118_lines_file_case : forall E' out,
  (eval_exprs csv_world demo_env (filed [EList [EVal (s_ "data"); ELit (s_ "d.csv")]]) = Ret (E', out) <->
   eval_exprs csv_world demo_env (filed [EList [EVal (s_ "data-x"); EList [EVal (s_ "csv"); ELit (s_ "d.csv"); ELit (s_ "x")]];
                                         EList [EVal (s_ "data-y"); EList [EVal (s_ "csv"); ELit (s_ "d.csv"); ELit (s_ "y")]]]) = Ret (E', out)) /\
  (eval_exprs csv_world demo_env (filed [EList [EVal (s_ "data"); ELit (s_ "d.csv")]; EList [EVal (s_ "data-x"); ELit (s_ "y")]; EList [EVal (s_ "data-y"); ELit (s_ "x")]]) = Ret (E', out) <->
   eval_exprs csv_world demo_env (filed [EList [EVal (s_ "data-x"); EList [EVal (s_ "csv"); ELit (s_ "d.csv"); ELit (s_ "y")]];
                                         EList [EVal (s_ "data-y"); EList [EVal (s_ "csv"); ELit (s_ "d.csv"); ELit (s_ "x")]]]) = Ret (E', out)).
Proof.
  intros E' out. split.
  - refine (C118_lines_file csv_world demo_env E' (s_ "d.csv") two_rows (s_ "x") (s_ "y") _ _ [] [] _ _ out csv_world_plain eq_refl eq_refl two_rows_x two_rows_y _ width_no_source eq_refl). apply fc_usual.
  - refine (C118_lines_file csv_world demo_env E' (s_ "d.csv") two_rows (s_ "y") (s_ "x") _ _ [] [] _ _ out csv_world_plain eq_refl eq_refl two_rows_y two_rows_x _ width_no_source eq_refl). apply fc_named.
Qed.
Example C118_bare_case : lines_draw csv_world demo_env demo_plot [w1 "data-x" ["1"; "3"]; w1 "data-y" ["2"; "4"]] = Err.
Proof. exact (C118_bare_refuted csv_world demo_env demo_plot [s_ "1"; s_ "3"] [s_ "2"; s_ "4"]). Qed.
Example C118_texts_case : rd_strings csv_world [y_file] [s_ "a"] = Ret [s_ "a"; s_ "2"; s_ "4"] /\ rd_strings csv_world [EVal (s_ "2"); EVal (s_ "4")] [s_ "a"] = Ret [s_ "2"; s_ "4"].
Proof. exact (C118_texts_refuted csv_world [y_file] [s_ "2"; s_ "4"] [s_ "a"] csv_world_plain y_file_means). Qed.
