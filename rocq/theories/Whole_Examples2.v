(** C106: bars from a CSV file, and an area. *)
From Coq Require Import Reals Lra.
From Verif Require Import Base Num Num_Facts Sexpr_Model Dispatch_Model Dispatch_Spec Str_Model Data_Model Scale_Model Units_Model Color_Model Color_Spec Geo_Model Svg_Model Svg_Spec Svg_Embed
  Plist_Model Plist_Spec Plist_Proofs Plist_Props Cmd_Model Cmd_Spec Cmd_Proofs Style_Model Plot_Model Plot_Spec Axis_Model Eval_Model Eval_Spec Eval_Proofs Eval_Props4
  Scale_Spec Range_Spec Range_Props2 Page_Props Demo Eval_Examples Csv_Spec Source_Spec Source_Examples Whole_Spec Whole_Svg Whole_Proofs Whole_Props Whole_Spec2 Whole_Series Whole_Series2 Whole_Svg2 Whole_Props2.
Local Open Scope R_scope.

Definition chart3_world : world :=
  mk_world rnd64 rnd32 prefix_stod (fun _ => []) (fun t => match prefix_stod t with Some (_, n) => (n =? length t)%nat | None => false end)
    (fun p => if str_eqb p (s_ "d.csv") then Some two_rows else None) (fun _ _ => []) (fun l => l) (fun l => l)
    (fun _ f => Ret f) (fun _ _ _ _ pos _ _ _ => Ret [[MoveTo pos]]) (fun _ _ _ _ => Ret (rect 0 0 10 10)) 1000.
Definition bars_part : str := s_ "bars { data-x: csv('d.csv' x); data-y: csv('d.csv' y); width: 20px; }".
Definition areas_part : str := s_ "areas { data-x: list(0 2 4); data-y: list(1 2 1); color: #0000ff; }".
Definition chart3 : str := s_ "limit-x: 0 4;" ++ s_ " limit-y: 0 4;" ++ s_ " " ++ bars_part ++ s_ " " ++ areas_part.
Definition chart3_series : list series :=
  [mk_series Bars (Column (VStr (s_ "d.csv")) (VLit (s_ "x"))) (Column (VStr (s_ "d.csv")) (VLit (s_ "y"))) (Some (s_ "20px")) None;
   mk_series Areas (Listed [s_ "0"; s_ "2"; s_ "4"]) (Listed [s_ "1"; s_ "2"; s_ "1"]) None (Some (s_ "#0000ff"))].
Lemma csv_prop (k c : str) : plain k -> plain c ->
  tree_text (Prop_ k [VFn (s_ "csv") [VStr (s_ "d.csv"); VLit c]]) (k ++ s_ ": " ++ (s_ "csv(" ++ (s_ "'d.csv'" ++ s_ " " ++ c) ++ s_ ")") ++ s_ ";").
Proof.
  intros [N C] [N' C']. change (k ++ s_ ": " ++ ?a ++ s_ ";") with (k ++ [] ++ s_ ":" ++ (s_ " " ++ a) ++ s_ ";").
  apply tt_prop; [constructor; now apply word_check|constructor|]. apply blank_front; [discriminate|].
  rewrite <- (app_nil_r (s_ "csv(" ++ _)). apply (at_one _ (s_ "csv(" ++ (s_ "'d.csv'" ++ s_ " " ++ c) ++ s_ ")") [] []); [constructor|constructor|].
  apply (xt_fn (s_ "csv") _ [] (s_ "'d.csv'" ++ s_ " " ++ c)); [apply word_check; [discriminate|reflexivity]|constructor|].
  apply (at_space (VStr (s_ "d.csv")) (s_ "'d.csv'") [VLit c] c [] (s_ " ")); [constructor|repeat constructor|discriminate| |discriminate|].
  - constructor. change (s_ "'d.csv'") with (c_sq :: s_ "d.csv" ++ [c_sq]). constructor; [now right|]. repeat (apply qb_plain; [discriminate|discriminate|]). constructor.
  - rewrite <- (app_nil_r c) at 2. apply (at_one _ c [] []); [constructor|constructor|now apply a_word].
Qed.
Lemma chart3_text : trees_text ([] ++ limits_tree "limit-x" (Some (s_ "0", s_ "4")) ++ limits_tree "limit-y" (Some (s_ "0", s_ "4")) ++ map series_tree chart3_series) chart3.
Proof.
  unfold chart3, chart3_series. cbn [app limits_tree may map fst snd]. unfold series_tree. cbn [sr_style sr_x sr_y sr_size sr_color may app source_val style_name size_name map].
  assert (P : forall t, t <> [] -> forallb (fun c => negb (word_stop c)) t = true -> plain t) by (intros; split; assumption).
  assert (B1 : Plist_Spec.blank (s_ " ")) by repeat constructor.
  apply (ts_cons _ (s_ "limit-x: 0 4;") _ _ []); [constructor| |].
  { apply (prop_words (s_ "limit-x") [s_ "0"; s_ "4"]); [now apply P|discriminate|repeat (constructor; [now apply P|]); constructor]. }
  apply (ts_cons _ (s_ "limit-y: 0 4;") _ _ (s_ " ")); [exact B1| |].
  { apply (prop_words (s_ "limit-y") [s_ "0"; s_ "4"]); [now apply P|discriminate|repeat (constructor; [now apply P|]); constructor]. }
  apply (ts_cons _ bars_part _ (s_ " " ++ areas_part) (s_ " ")); [exact B1| |].
  - unfold bars_part.
    apply (tt_block (s_ "bars") (s_ "bars") (s_ " ") _ (s_ " data-x: csv('d.csv' x); data-y: csv('d.csv' y); width: 20px; ")); [constructor; apply word_check; [discriminate|reflexivity]|exact B1|].
    apply (ts_cons _ (s_ "data-x: csv('d.csv' x);") _ (s_ " data-y: csv('d.csv' y); width: 20px; ") (s_ " ")); [exact B1|apply (csv_prop (s_ "data-x") (s_ "x")); now apply P|].
    apply (ts_cons _ (s_ "data-y: csv('d.csv' y);") _ (s_ " width: 20px; ") (s_ " ")); [exact B1|apply (csv_prop (s_ "data-y") (s_ "y")); now apply P|].
    apply (ts_cons _ (s_ "width: 20px;") _ (s_ " ") (s_ " ")); [exact B1| |constructor; exact B1].
    apply (prop_words (s_ "width") [s_ "20px"]); [now apply P|discriminate|repeat (constructor; [now apply P|]); constructor].
  - rewrite <- (app_nil_r areas_part). apply (ts_cons _ areas_part _ [] (s_ " ")); [exact B1| |repeat constructor]. unfold areas_part.
    apply (tt_block (s_ "areas") (s_ "areas") (s_ " ") _ (s_ " data-x: list(0 2 4); data-y: list(1 2 1); color: #0000ff; ")); [constructor; apply word_check; [discriminate|reflexivity]|exact B1|].
    apply (ts_cons _ (s_ "data-x: list(0 2 4);") _ (s_ " data-y: list(1 2 1); color: #0000ff; ") (s_ " ")); [exact B1| |].
    { apply (prop_list (s_ "data-x") [s_ "0"; s_ "2"; s_ "4"]); [now apply P|repeat (constructor; [now apply P|]); constructor]. }
    apply (ts_cons _ (s_ "data-y: list(1 2 1);") _ (s_ " color: #0000ff; ") (s_ " ")); [exact B1| |].
    { apply (prop_list (s_ "data-y") [s_ "1"; s_ "2"; s_ "1"]); [now apply P|repeat (constructor; [now apply P|]); constructor]. }
    apply (ts_cons _ (s_ "color: #0000ff;") _ (s_ " ") (s_ " ")); [exact B1| |constructor; exact B1].
    apply (prop_words (s_ "color") [s_ "#0000ff"]); [now apply P|discriminate|repeat (constructor; [now apply P|]); constructor].
Qed.
Lemma chart3_binary : binary chart3_world.
Proof. destruct chart_binary as (_ & _ & B). split; [reflexivity|]. split; [reflexivity|]. exact B. Qed.
Lemma chart3_reads t z : number_prefix t = t -> t <> [] -> digits 0 t = Some z -> (Z.abs z < 2 ^ 53)%Z -> reads chart3_world t (IZR z).
Proof. exact (chart_reads t z). Qed.
Ltac chart3_number := apply chart3_reads; [reflexivity|discriminate|reflexivity|reflexivity].
Lemma plain_rows : no_final_comma two_rows.
Proof. intros s0 H. apply (f_equal (@rev ascii)) in H. rewrite rev_app_distr in H. discriminate. Qed.
Lemma two_rows_x : csv_values two_rows (s_ "x") [s_ "1"; s_ "3"].
Proof.
  apply cv_rows with [s_ "x"; s_ "y"] [[s_ "1"; s_ "2"]; [s_ "3"; s_ "4"]] 0%nat; [exact two_rows_file|reflexivity|intros j H; lia|repeat constructor].
Qed.
(** Two black bars, 20 pixels wide, and a blue area above the zero of the y axis. *)
Example C106_bars_case : exists file,
  main_ chart3_world (s_ "1") (Ret []) chart3 (mk_os (fun _ => true) (fun _ n => Some n) (fun n => n)) [Short "e" (s_ "out.svg")] [s_ "-"] =
    Ret (mk_result 0 [] (Some (s_ "out.svg", file))) /\
  shows_picture file 1600 800
    [Fill (page_of_size 1600 800) white_ 1 false;
     Fill [SMove 390 800; SLine 390 400; SLine 410 400; SLine 410 800; SClose] black_ 1 false;
     Fill [SMove 1190 800; SLine 1190 0; SLine 1210 0; SLine 1210 800; SClose] black_ 1 false;
     Fill [SMove 0 600; SLine 800 400; SLine 1600 600; SLine 1600 800; SLine 800 800; SLine 0 800; SClose] (0, 0, 255)%nat 1 false].
Proof.
  destruct (C106_chart chart3_world (s_ "1") [] chart3 (mk_os (fun _ => true) (fun _ n => Some n) (fun n => n)) [Short "e" (s_ "out.svg")] (s_ "-") (s_ "out.svg") chart3
    [] 1600 800 (Some (s_ "0", s_ "4")) (Some (s_ "0", s_ "4")) chart3_series
    [mk_drawn Bars [1; 3] [2; 4] 20 black_; mk_drawn Areas [0; 2; 4] [1; 2; 1] 0 (0, 0, 255)%nat] 0 4 0 4) as (file & M & P); [try reflexivity; try discriminate; try lra..|].
  - exact chart3_binary.
  - cbn. intuition discriminate.
  - split; reflexivity.
  - left. split; reflexivity.
  - exact chart3_text.
  - constructor.
  - constructor; [|constructor; [|constructor]].
    + constructor; cbn [sr_style sr_x sr_y sr_size sr_color ds_style ds_x ds_y ds_size ds_color]; try reflexivity; try discriminate.
      * exists [s_ "1"; s_ "3"]. split; [|repeat (constructor; [chart3_number|]); constructor].
        apply (column _ _ _ (s_ "d.csv") (s_ "x") two_rows); [right; reflexivity|left; reflexivity|reflexivity|exact plain_rows|exact two_rows_x].
      * exists [s_ "2"; s_ "4"]. split; [|repeat (constructor; [chart3_number|]); constructor].
        apply (column _ _ _ (s_ "d.csv") (s_ "y") two_rows); [right; reflexivity|left; reflexivity|reflexivity|exact plain_rows|exact two_rows_y].
      * split; [|lra]. exists 2%nat. split; [|reflexivity]. apply (prefix_int (s_ "20px") 20 (s_ "20")); (reflexivity || discriminate).
      * constructor.
    + constructor; cbn [sr_style sr_x sr_y sr_size sr_color ds_style ds_x ds_y ds_size ds_color]; try reflexivity; try discriminate.
      * eexists. split; [constructor|]. repeat (constructor; [chart3_number|]). constructor.
      * eexists. split; [constructor|]. repeat (constructor; [chart3_number|]). constructor.
      * apply (hex_color "0" "0" "0" "0" "f" "f" 0 0 0 0 15 15); vm_compute; auto.
  - apply (range_given chart3_world (s_ "0") (s_ "4") 1 1).
    + apply (prefix_int (s_ "0") 0 (s_ "0")); (reflexivity || discriminate).
    + apply (prefix_int (s_ "4") 4 (s_ "4")); (reflexivity || discriminate).
    + cbn. intros v H. decompose [or] H; subst; try lra; contradiction.
  - apply (range_given chart3_world (s_ "0") (s_ "4") 1 1).
    + apply (prefix_int (s_ "0") 0 (s_ "0")); (reflexivity || discriminate).
    + apply (prefix_int (s_ "4") 4 (s_ "4")); (reflexivity || discriminate).
    + cbn. intros v H. decompose [or] H; subst; try lra; contradiction.
  - exists file. split; [exact M|].
    assert (Q : forall x y, in_file 0 4 0 4 1600 800 (x, y) = (400 * x, 800 - 200 * y)) by (intros; unfold in_file, along; cbn [fst snd]; f_equal; lra).
    assert (Z : 800 - along 0 4 800 (nearest_zero 0 4) = 800) by (unfold along, nearest_zero, Rmax, Rmin; repeat destruct Rle_dec; lra).
    unfold chart_picture in P. cbn [flat_map map combine ds_x ds_y series_paints ds_style ds_size ds_color app] in P. rewrite Z in P. destruct (Rlt_dec 0 0) as [L|_]; [lra|]. rewrite !Q in P.
    unfold bar, through in P. cbn [map app rev fst snd] in P.
    replace (400 * 1) with 400 in P by lra. replace (400 * 3) with 1200 in P by lra. replace (400 * 0) with 0 in P by lra. replace (400 * 2) with 800 in P by lra. replace (400 * 4) with 1600 in P by lra.
    replace (800 - 200 * 2) with 400 in P by lra. replace (800 - 200 * 4) with 0 in P by lra. replace (800 - 200 * 1) with 600 in P by lra.
    replace (400 - 20 / 2) with 390 in P by lra. replace (400 + 20 / 2) with 410 in P by lra. replace (1200 - 20 / 2) with 1190 in P by lra. replace (1200 + 20 / 2) with 1210 in P by lra. exact P.
Qed.
