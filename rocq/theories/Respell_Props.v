(** C118: how the values of a data column are written does not matter. *)
From Coq Require Import Reals.
From Verif Require Import Base Num Sexpr_Model Dispatch_Model Data_Model Scale_Model Svg_Model Cmd_Model Cmd_Spec Cmd_Proofs
  Style_Model Plot_Model Axis_Model Eval_Model Eval_Spec Source_Spec Source_Props Respell_Spec Respell_Proofs Respell_Proofs2 Respell_Proofs3 Respell_Proofs4.
Local Open Scope string_scope.
Local Open Scope list_scope.

(** C118. Two programs that are the same but for how their data columns are written, (csv FILE
    COLUMN) or (list VALUE ...), are drawn alike: if one is accepted, so is the other, with the same page and the same drawing. *)
Theorem C118_respelled : forall (W : world) (E E' : env) (e e' : list expr) (out : list draw_command),
  plain_files W -> class_of e (s_ "plot") -> respelled W e e' ->
  eval_exprs W E e = Ret (E', out) <-> eval_exprs W E e' = Ret (E', out).
Proof.
  intros W E E' e e' out PF Cl R. split; intro H.
  - exact (eval_respelled W PF E E' e e' out Cl R H).
  - exact (eval_respelled W PF E E' e' e out (respelled_class W e e' _ R Cl) (respelled_sym W e e' R) H).
Qed.
Print Assumptions C118_respelled.

(** One column of one element, in the words of a program: (csv PATH COLUMN) can be replaced by
    (list ...) of the values of that column. *)
Theorem C118_file_or_list : forall (W : world) (E E' : env) (elem key : string) (path column : str) (vs : list str)
    (e1 e2 o1 o2 : list expr) (out : list draw_command),
  let program c := e1 ++ EList (EVal (s_ elem) :: o1 ++ EList [EVal (s_ key); c] :: o2) :: e2 in
  let from_file := EList [EVal (s_ "csv"); ELit path; ELit column] in
  let listed := EList (EVal (s_ "list") :: map ELit vs) in
  plain_files W -> In elem element_words -> In key data_words ->
  csv_data (w_read_file W) [from_file] vs -> class_of (program from_file) (s_ "plot") ->
  eval_exprs W E (program from_file) = Ret (E', out) <-> eval_exprs W E (program listed) = Ret (E', out).
Proof.
  intros W E E' elem key path column vs e1 e2 o1 o2 out program from_file listed PF I K D Cl.
  apply C118_respelled; [exact PF|exact Cl|]. apply respelled_one. right. exists elem. do 2 eexists. split; [exact I|]. split; [reflexivity|]. split; [reflexivity|].
  apply Forall2_app; [apply options_refl|]. constructor; [|apply options_refl].
  right. exists key, [from_file], [listed]. split; [exact K|]. split; [reflexivity|]. split; [reflexivity|]. do 2 eexists. exists vs.
  split; [reflexivity|]. split; [reflexivity|]. split; [now apply dm_csv|]. apply dm_list; [left; reflexivity|]. clear. induction vs; constructor; [right; reflexivity|assumption].
Qed.
Print Assumptions C118_file_or_list.

(** For lines, naming the CSV file once, with (data PATH) for its columns x and y or with
    (data PATH) (data-x NX) (data-y NY), is the same as naming it for both columns. *)
Theorem C118_lines_file : forall (W : world) (E E' : env) (path txt nx ny : str) (xs ys : list str) (e1 e2 h o : list expr) (out : list draw_command),
  let program d := e1 ++ EList (EVal (s_ "lines") :: d ++ o) :: e2 in
  let column n := EList [EVal (s_ "csv"); ELit path; ELit n] in
  let both := [EList [EVal (s_ "data-x"); column nx]; EList [EVal (s_ "data-y"); column ny]] in
  plain_files W -> ends_with path (s_ ".csv") = true -> w_read_file W path = Some txt ->
  csv_values txt nx xs -> csv_values txt ny ys -> file_columns path h nx ny -> no_source o ->
  class_of (program h) (s_ "plot") ->
  eval_exprs W E (program h) = Ret (E', out) <-> eval_exprs W E (program both) = Ret (E', out).
Proof.
  intros W E E' path txt nx ny xs ys e1 e2 h o out program column both PF C R X Y N NS Cl.
  assert (C' : detect_format path [] = s_ "csv").
  { unfold detect_format. rewrite C. destruct (ends_with path (s_ ".geojson")) eqn:G; [|reflexivity]. exfalso.
    unfold ends_with in C, G. destruct (_ <? _)%nat in C; [discriminate|]. destruct (_ <? _)%nat in G; [discriminate|].
    destruct (str_eqb_spec (skipn (length path - length (s_ ".csv")) path) (s_ ".csv")) as [Z|]; [|discriminate].
    destruct (str_eqb_spec (skipn (length path - length (s_ ".geojson")) path) (s_ ".geojson")) as [Z'|]; [|discriminate].
    pose proof (firstn_skipn (length path - length (s_ ".csv")) path) as A. pose proof (firstn_skipn (length path - length (s_ ".geojson")) path) as A'.
    rewrite Z in A. rewrite Z' in A'. apply (f_equal (@rev ascii)) in A, A'. rewrite rev_app_distr in A, A'. rewrite <- A' in A. discriminate A. }
  split; intro H.
  - refine (eval_named W E E' e1 e2 (h ++ o) (both ++ o) out Cl _ _ H); intros E0 p.
    + exact (named_auto W PF path txt nx ny xs ys h C' R X Y N E0 o p NS).
    + exact (named_draws W PF path txt nx ny xs ys h C' R X Y N E0 o p NS).
  - refine (eval_named W E E' e1 e2 (both ++ o) (h ++ o) out (class_lines (h ++ o) (both ++ o) e1 e2 Cl) _ _ H); intros E0 p; symmetry.
    + exact (named_auto W PF path txt nx ny xs ys h C' R X Y N E0 o p NS).
    + exact (named_draws W PF path txt nx ny xs ys h C' R X Y N E0 o p NS).
Qed.
Print Assumptions C118_lines_file.

(** C118 is false for values that are not in a list: bars and errorbars take them, but lines, points,
    labels, areas, vectors and rectangles take the first one for a column name and draw nothing;
    lines is an error. *)
Theorem C118_bare_refuted : forall (W : world) (E : env) (p : plot) (xs ys : list str),
  lines_draw W E p [EList (EVal (s_ "data-x") :: map EVal xs); EList (EVal (s_ "data-y") :: map EVal ys)] = Err.
Proof.
  intros W E p xs ys. unfold lines_draw, lines_configure. rewrite !run_cons. cbn [option_of].
  change (assoc (s_ "data-x") (lines_table W E)) with (Some (upd expr_to_copy (fun v s => set_l_src (set_d_x v (l_src s)) s))). unfold upd at 1, expr_to_copy at 1. cbv iota. cbn [bind].
  rewrite run_cons. cbn [option_of].
  change (assoc (s_ "data-y") (lines_table W E)) with (Some (upd expr_to_copy (fun v s => set_l_src (set_d_y v (l_src s)) s))).
  unfold upd, expr_to_copy. cbv iota. cbn [bind]. rewrite run_nil. cbn [bind]. destruct xs, ys; reflexivity.
Qed.
Print Assumptions C118_bare_refuted.

(** C118 is false for texts (labels, colors, sizes, shapes): a CSV column is added to what an
    earlier option gave, a list of texts takes its place. *)
Theorem C118_texts_refuted : forall (W : world) (e : list expr) (vs old : list str), plain_files W -> csv_data (w_read_file W) e vs ->
  rd_strings W e old = Ret (old ++ vs) /\ rd_strings W (map EVal vs) old = Ret vs.
Proof.
  intros W e vs old PF D. split; apply C91_strings; try exact PF.
  - left. exists vs. auto.
  - right. split; [intros (w & a & r & X & _); destruct vs; discriminate|]. clear. induction vs; constructor; [left; reflexivity|assumption].
Qed.
Print Assumptions C118_texts_refuted.
