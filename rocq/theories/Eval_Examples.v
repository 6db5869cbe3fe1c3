(** Concrete cases for C84 to C87. *)
From Coq Require Import Reals Lra.
From Verif Require Import Base Num Num_Facts Sexpr_Model Dispatch_Model Dispatch_Spec Str_Model Data_Model Scale_Model Units_Model Color_Model
  Geo_Model Geo_Proofs Dec Svg_Props Svg_Model Legend_Model Legend_Spec Legend_Proofs Legend_Props Plist_Model Cmd_Model Cmd_Spec Cmd_Proofs Style_Model Plot_Model Plot_Spec Axis_Model Eval_Model Eval_Spec Eval_Proofs
  Eval_Props Eval_Props2 Eval_Legend Eval_Props3 Eval_Props4 Demo.
Local Open Scope R_scope.

Definition w1 (k : string) (a : list string) : expr := EList (ELit (s_ k) :: map (fun t => ELit (s_ t)) a).
Definition back : expr := EList [ELit (s_ "background"); w1 "color" ["#ff0000"%string]].
(** C84, C85: a page of 300 by 200, set before or after the background is drawn. *)
Example C84_case : exists E out,
  eval_exprs demo demo_env [w1 "size" ["300"; "200"]%string; back] = Ret (E, out) /\
  eval_exprs demo demo_env [back; w1 "size" ["300"; "200"]%string] = Ret (E, out) /\
  page_of demo demo_env [back; w1 "size" ["300"; "200"]%string] E /\
  class_of [back; w1 "size" ["300"; "200"]%string] (s_ "plot") /\
  l_width (e_layer E) = from_user (Fin 300) /\ length out = 1%nat.
Proof.
  do 2 eexists. split; [reflexivity|]. split; [reflexivity|]. split; [|split; [reflexivity|split; reflexivity]].
  unfold page_of, last_or. cbn. repeat split; reflexivity.
Qed.
Example C84_draw_case : is_setting (w1 "dpi" ["96"%string]) = true /\ class_of [w1 "class" ["draw"%string]; w1 "text" []; w1 "dpi" ["96"%string]] (s_ "draw").
Proof. split; reflexivity. Qed.
Example C85_case : eval_exprs demo demo_env [w1 "linse" []; back] = eval_exprs demo demo_env [back].
Proof. reflexivity. Qed.

(** C86: a legend with two items, one of them with a round marker. *)
Definition two_items : list expr :=
  [EList [ELit (s_ "item"); w1 "label" ["a"%string]]; w1 "position" ["top"; "right"]%string;
   EList [ELit (s_ "item"); w1 "label" ["b"%string]; w1 "marker-shape" ["circle"%string]]].
Lemma demo_font : page_font_size demo demo_env = Fin (11 / 72 * 192).
Proof.
  unfold page_font_size, layer_get_font_size. cbn. unfold unit_from_pt. cbn. unfold xdiv. destruct Req_EM_T; [lra|]. reflexivity.
Qed.
Lemma demo_em v : unit_from_em (w_d demo) (k demo v) (page_font_size demo demo_env) = Fin (v * (11 / 72 * 192)).
Proof. rewrite demo_font. cbn. unfold exact. apply (f_equal Fin). lra. Qed.
Example C86_case : exists out items g styles,
  legend_cmd demo demo_env demo_plot two_items = Ret out /\
  Forall2 (item_of demo demo_env) (all_args "item" two_items) items /\ map i_label items = [s_ "a"; s_ "b"] /\
  legend_of demo demo_env two_items g styles /\ lg_h g = HRight /\ lg_v g = VTop /\
  Legend_Props.sides (lg_margins g) (88 / 5) (88 / 5) (88 / 5) (88 / 5) /\ Legend_Props.sides (lg_padding g) (88 / 5) (88 / 3) (88 / 5) (88 / 3) /\
  Forall2 (item_needs demo demo_env) items (sizes [(10 + 484 / 15, 10); (10 + 484 / 15, 10)]) /\
  exists B areas parts lines,
    Forall2 (fun ia part => item_drawn demo demo_env (fst ia) (page (snd ia)) part) (combine items areas) parts /\
    out = lines ++ concat parts /\ contains (mk_area 0 0 1600 800) B /\ Forall (contains B) areas /\ ForallOrdPairs apart areas /\ length areas = 2%nat.
Proof.
  assert (R : exists out, legend_cmd demo demo_env demo_plot two_items = Ret out) by (eexists; reflexivity). destruct R as [out R].
  assert (C : plot_clip demo demo_env demo_plot = page (mk_area 0 0 1600 800)) by exact demo_clip.
  destruct (C86_inside demo demo_env demo_plot two_items out (mk_area 0 0 1600 800) demo_exact R C) as (items & g & styles & I & G & D).
  exists out, items, g, styles. split; [exact R|]. split; [exact I|].
  assert (L : map i_label items = [s_ "a"; s_ "b"]).
  { inversion I as [|a1 i1 l1 m1 I1 I2]; subst. inversion I2 as [|a2 i2 l2 m2 J1 J2]; subst. inversion J2; subst. destruct I1 as (I1 & _), J1 as (J1 & _).
    unfold last_or in *. cbn in I1, J1. injection I1 as I1. injection J1 as J1. cbn [map]. now rewrite <- I1, <- J1. }
  split; [exact L|]. split; [exact G|].
  destruct G as (G1 & G2 & G3 & G4 & G5 & G6 & _). cbn in G1. injection G1 as G1 G1'. split; [now rewrite <- G1|]. split; [now rewrite <- G1'|].
  unfold last_or in G2, G3, G4. change (last_args (s_ "item-row-padding") two_items) with (@None (list expr)) in G2.
  change (last_args (s_ "item-column-padding") two_items) with (@None (list expr)) in G3. change (last_args (s_ "item-flow") two_items) with (@None (list expr)) in G4.
  assert (M : Legend_Props.sides (lg_margins g) (88 / 5) (88 / 5) (88 / 5) (88 / 5)).
  { unfold Legend_Props.sides. split; [|lra]. destruct (lg_margins g) as [[[m0 m1] m2] m3]. unfold four_sides in G5. destruct G5 as (S0 & S1 & S2 & S3).
    rewrite demo_em in S0, S1, S2, S3. injection S0 as <-. injection S1 as <-. injection S2 as <-. injection S3 as <-.
    replace (6 / 10 * (11 / 72 * 192)) with (88 / 5) by lra. reflexivity. }
  assert (P : Legend_Props.sides (lg_padding g) (88 / 5) (88 / 3) (88 / 5) (88 / 3)).
  { unfold Legend_Props.sides. split; [|lra]. destruct (lg_padding g) as [[[m0 m1] m2] m3]. unfold four_sides in G6. destruct G6 as (S0 & S1 & S2 & S3).
    change (existsb (String.eqb "top") ["top"; "bottom"]%string) with true in S0. change (existsb (String.eqb "right") ["top"; "bottom"]%string) with false in S1.
    change (existsb (String.eqb "bottom") ["top"; "bottom"]%string) with true in S2. change (existsb (String.eqb "left") ["top"; "bottom"]%string) with false in S3. cbv iota in S0, S1, S2, S3. rewrite demo_em in S0, S1, S2, S3. injection S0 as <-. injection S1 as <-. injection S2 as <-. injection S3 as <-.
    replace (6 / 10 * (11 / 72 * 192)) with (88 / 5) by lra. replace (1 * (11 / 72 * 192)) with (88 / 3) by lra. reflexivity. }
  split; [exact M|]. split; [exact P|].
  assert (N : Forall2 (item_needs demo demo_env) items (sizes [(10 + 484 / 15, 10); (10 + 484 / 15, 10)])).
  { inversion I as [|a1 i1 l1 m1 I1 I2]; subst. inversion I2 as [|a2 i2 l2 m2 J1 J2]; subst. inversion J2; subst.
    assert (X : forall a i, last_args (s_ "label-margin") a = None -> item_of demo demo_env a i -> item_needs demo demo_env i (Fin (10 + 484 / 15), Fin 10)).
    { intros a i Z (_ & _ & Q & _). unfold last_or in Q. rewrite Z in Q. cbv zeta in Q. rewrite demo_em in Q. exists (rect 0 0 10 10). split; [reflexivity|]. rewrite Q.
      unfold item_size. cbn. unfold exact. f_equal; apply (f_equal Fin); lra. }
    cbn [sizes map fst snd]. constructor; [|constructor; [|constructor]]; eapply X; eauto; reflexivity. }
  split; [exact N|].
  rewrite demo_em in G2, G3.
  destruct (D _ _ _ _ _ _ _ _ _ _ [(10 + 484 / 15, 10); (10 + 484 / 15, 10)] G2 G3 ltac:(lra) ltac:(lra) M P ltac:(cbn; lra) ltac:(cbn; lra)) as (ew & eh & B & areas & parts & lines & D1 & D2 & D3 & D4 & D5 & D6 & D7 & (bs & D8) & D9).
  { repeat constructor; cbn; lra. }
  { exact N. }
  exists B, areas, parts, lines. split; [exact D1|]. split; [exact D3|]. split; [exact D4|]. split; [|split; [exact D5|]].
  - apply D9; cbn [aw ah];
    destruct P as [P _], M as [M _]; unfold legend_layout in D8; rewrite P, G2, G4 in D8; unfold layout_rows in D8; cbn [sizes map rows_ fst snd] in D8;
    rewrite !xlt_fin2 in D8; destruct (Rlt_dec 0 0); try lra; rewrite ?add_ex, ?xmax_fin, ?xlt_fin2 in D8; destruct (Rlt_dec 0 (0 + 10)); try lra;
    rewrite ?add_ex, ?xmax_fin, ?xlt_fin2 in D8; injection D8 as Q1 Q2 _; subst.
    + rewrite Rmax_left by apply Rmax_r. rewrite Rmax_right by lra. lra.
    + lra.
  - rewrite D2. now rewrite <- (map_length i_label), L.
Qed.

(** C87: a program without anything to draw, from a file that is there. *)
Definition page_files (path : str) : option str := if str_eqb path (s_ "in.clp") then Some (s_ "nothing: a;") else None.
Definition demo2 : world :=
  mk_world exact exact demo_stod (fun _ => []) demo_is_number page_files (fun _ _ => []) (fun l => l) (fun l => l)
    (fun _ f => Ret f) (fun _ _ _ _ pos _ _ _ => Ret [[MoveTo pos]]) (fun _ _ _ _ => Ret (rect 0 0 10 10)) 1000.
Definition blank : str := s_ "<?xml version=""1.0"" encoding=""UTF-8"" ?>" ++ [c_nl] ++ s_ "<!-- Generated by clip v1 (clip-lang.org) -->" ++ [c_nl] ++
  s_ "<svg xmlns=""http://www.w3.org/2000/svg"" width=""1600"" height=""800"">" ++ [c_nl] ++
  s_ "  <rect width=""1600"" height=""800"" fill=""#ffffff"" fill-opacity=""1""/>" ++ [c_nl] ++ s_ "</svg>" ++ [c_nl].
Lemma demo2_picture : picture demo2 (s_ "1") (Ret []) [] [] (s_ "in.clp") = Ret blank.
Proof.
  unfold picture. assert (L : exists E, layer_create demo2 (Ret []) [] = Ret E /\ e_layer E = layer0 /\ e_bg E = white) by (eexists; repeat split).
  destruct L as (E & -> & L & B). cbn [bind]. change (if str_eqb (s_ "in.clp") (s_ "-") then _ else _) with (@Ret str (s_ "nothing: a;")). cbn [bind].
  assert (V : eval_text demo2 E (s_ "nothing: a;") = Ret (E, [])) by reflexivity. rewrite V. cbn [bind].
  unfold svg_of, export_svg, page_width, page_height, layer_get_width, layer_get_height. rewrite L, B. cbn [each bind].
  unfold svg_attr_num. cbn [layer0 l_width l_height device_size].
  assert (H : to_hex_str (w_d demo2) 3 white = Ret (s_ "#ffffff")).
  { unfold to_hex_str. cbn [Nat.ltb Nat.leb firstn white from_rgb c_r c_g c_b c_a]. cbn [hex_channels].
    assert (T : to_int (xmul (w_d demo2) (Fin 1) (Fin 255)) = Ret 255%Z).
    { cbn [xmul]. change (w_d demo2 (1 * 255)) with (1 * 255). replace (1 * 255) with (IZR 255) by lra. unfold to_int. rewrite Ztrunc_IZR. reflexivity. }
    unfold white, from_rgb. cbn [c_r c_g c_b c_a]. cbn [hex_channels]. rewrite T. reflexivity. }
  rewrite H. unfold white, from_rgb. cbn [c_a].
  assert (N : forall z v, v = Fin (IZR z) -> (Z.abs z < 2 ^ 31)%Z -> svg_number v = Ret (dec_int z)) by (intros z v -> Q; now apply Svg_Props.number_whole).
  rewrite (N 1600%Z), (N 800%Z), (N 1%Z) by (reflexivity || lia). reflexivity.
Qed.
Definition disk (n : nat) : os := mk_os (fun _ => true) (fun _ m => Some (Nat.min n m)) (fun m => Nat.min n m).
(** A disk with room for all of it, one with room for 5 bytes. *)
Example C87_case :
  main_ demo2 (s_ "1") (Ret []) [] (disk 1000) [Short "e" (s_ "a.svg")] [s_ "in.clp"] = Ret (mk_result 0 [] (Some (s_ "a.svg", blank))) /\
  main_ demo2 (s_ "1") (Ret []) [] (disk 5) [Short "e" (s_ "a.svg")] [s_ "in.clp"] = Ret (mk_result 1 [] (Some (s_ "a.svg", s_ "<?xml"))) /\
  main_ demo2 (s_ "1") (Ret []) [] (disk 5) [Short "e" (s_ "-")] [s_ "in.clp"] = Ret (mk_result 0 (s_ "<?xml") None) /\
  main_ demo2 (s_ "1") (Ret []) [] (disk 5) [Short "e" (s_ "a.svg")] [s_ "other"] = Ret failure /\
  main_ demo2 (s_ "1") (Ret []) [] (disk 5) [Short "e" (s_ "a.png")] [s_ "in.clp"] = Ret (mk_result 0 [] (Some (s_ "a.png", []))) /\
  wants [Short "e" (s_ "a.svg")] false /\ wants [Short "e" (s_ "a.png")] true /\
  last_opt is_export [Short "e" (s_ "a.svg")] = Some (s_ "a.svg").
Proof.
  assert (M : forall o r, file_write o (s_ "a.svg") blank = r -> main_ demo2 (s_ "1") (Ret []) [] o [Short "e" (s_ "a.svg")] [s_ "in.clp"] = Ret r).
  { intros o r <-. pose proof demo2_picture as P. unfold picture in P. unfold main_.
    change (flags_parse [Short "e" (s_ "a.svg")] flags0) with (Ret (mk_flags (s_ "a.svg") [] [] false false)). cbn [bind]. unfold cli_run. cbn [fl_version fl_help fl_fonts fl_export].
    change (choose_format (mk_flags (s_ "a.svg") [] [] false false)) with (Ret SVG). cbn [bind].
    inv_bind P. rewrite A. cbn [bind]. inv_bind P. rewrite A0. cbn [bind]. inv_bind P. rewrite A1. cbn [bind]. destruct v1 as [E' l].
    change (s_ "a.svg") with ("a"%char :: s_ ".svg"). cbv iota. rewrite P. reflexivity. }
  split; [apply M; vm_compute; reflexivity|]. split; [apply M; vm_compute; reflexivity|]. split.
  { rewrite (C87_stdout_refuted _ _ _ _ _ _ _ demo2_picture). vm_compute. reflexivity. }
  repeat split; reflexivity.
Qed.
